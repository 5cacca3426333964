(** * Single parameters as groups; scaling from the unit cube; grids fill the box. *)
From Coq Require Import Reals String List Arith Bool Lia Lra Psatz.
From Verif Require Import Base Arrays ModelGroups ModelScale Stats ModelSobol SpecGroups SpecSobol SpecIntegral ProofsIntegral SpecExpect SpecExpect2 ProofsExpect
  ProofsExpect2 ProofsExpect3 ProofsSobol ProofsSobol6 SpecLimit ProofsPoincare ProofsPoincare2 ProofsLimit ProofsLimit2 ProofsLimit3 ProofsLimit4.
Import ListNotations.
Local Open Scope R_scope.

(** ** Functions of some of the coordinates *)
Lemma average_ignore : forall i b bi g v, nth_error b i = Some bi -> average (without_at i b) g v -> average b (fun y => g (without_at i y)) v.
Proof.
  induction i as [|i IH]; intros b bi g v E A; destruct b as [|(lo, hi) b]; try discriminate.
  - unfold without_at in A. cbn [firstn skipn app] in A. exists (fun _ => v). split; [|apply integral_const]. intros x Hx. exact A.
  - unfold without_at in A. cbn [firstn skipn app] in A. fold (without_at i b) in A. destruct A as (h & H & I). exists h. split; [|exact I].
    intros x Hx. exact (IH b bi (fun xs => g (x :: xs)) (h x) E (H x Hx)).
Qed.
Lemma average_coordinate : forall i b lo hi (g : R -> R) v, lo < hi -> nth_error b i = Some (lo, hi) -> average [(lo, hi)] (fun l => g (hd 0 l)) v -> average b (fun y => g (nth i y 0)) v.
Proof.
  induction i as [|i IH]; intros b lo hi g v L E A; destruct b as [|(l0, h0) b]; try discriminate.
  - injection E as -> ->. apply average_one_inv in A; auto. exists g. split; [|exact A]. intros x Hx. cbn [nth]. apply average_const.
  - exists (fun _ => v). split; [|apply integral_const]. intros x Hx. exact (IH b lo hi g v L E A).
Qed.

Lemma mix_put : forall i (x y : list R), length x = length y -> (i < length x)%nat -> mix (Nat.eqb i) x y = put_at i (nth i x 0) (without_at i y).
Proof.
  induction i as [|i IH]; intros x y L H; destruct x as [|a x], y as [|c y]; simpl in L, H; try lia.
  - unfold put_at, without_at. cbn [mix Nat.eqb firstn skipn app nth]. f_equal.
    assert (Q : forall (x y : list R), length x = length y -> mix (fun _ => false) x y = y).
    { induction x0 as [|a' x0 IH]; intros [|c' y0] L0; simpl in L0; try lia; auto. cbn [mix]. f_equal. apply IH. lia. }
    apply Q. lia.
  - transitivity (c :: mix (Nat.eqb i) x y); [reflexivity|]. rewrite (IH x y) by lia. reflexivity.
Qed.

Lemma first_closed : forall b f i v, proper b -> first_effect b f i v -> closed_share b f (Nat.eqb i) v.
Proof.
  intros b f i v P (bi & h & E & A & V). pose proof (proper_nth b i bi P E) as L. destruct bi as (lo, hi). cbn [fst snd] in *.
  assert (IL : (i < length b)%nat) by (apply nth_error_Some; congruence).
  exists (fun x => h (nth i x 0)). split.
  - intros x X. assert (HX : lo <= nth i x 0 <= hi).
    { destruct (Forall2_nth_error _ _ _ _ _ _ _ X E) as (y & EY & HY). rewrite (nth_error_nth x i 0 EY). auto. }
    apply (average_ext b (fun y => f (put_at i (nth i x 0) (without_at i y)))); auto.
    + intros y Y. rewrite mix_put; auto; pose proof (inside_length b x X); pose proof (inside_length b y Y); lia.
    + apply (average_ignore i b (lo, hi) (fun xs => f (put_at i (nth i x 0) xs))); auto.
  - destruct V as (m & M & Q). exists m. split.
    + apply (average_coordinate i b lo hi h); auto.
    + apply (average_coordinate i b lo hi (fun z => (h z - m) ^ 2)); auto.
Qed.

Lemma total_total : forall b f i v, proper b -> SpecIntegral.total_effect b f i v -> total_share b f (Nat.eqb i) v.
Proof.
  intros b f i v P (bi & h & E & A & V). pose proof (proper_nth b i bi P E) as L. destruct bi as (lo, hi). cbn [fst snd] in *.
  assert (IL : (i < length b)%nat) by (apply nth_error_Some; congruence).
  exists (fun x => h (without_at i x)). split; [|apply (average_ignore i b (lo, hi)); auto].
  intros x X. assert (XW : inside (without_at i b) (without_at i x)) by (apply without_at_Forall2; auto).
  apply (variance_ext b (fun y => f (put_at i (nth i y 0) (without_at i x)))); auto.
  - intros y Y. rewrite mix_put; auto; pose proof (inside_length b x X); pose proof (inside_length b y Y); lia.
  - destruct (A _ XW) as (m & M & Q). exists m. split.
    + apply (average_coordinate i b lo hi (fun z => f (put_at i z (without_at i x)))); auto.
    + apply (average_coordinate i b lo hi (fun z => (f (put_at i z (without_at i x)) - m) ^ 2)); auto.
Qed.

(** Only the selection within the box matters. *)
Lemma mix_ext : forall A u w (x y : list A), (forall j, (j < length x)%nat -> u j = w j) -> mix u x y = mix w x y.
Proof.
  intros A u w x. revert u w. induction x as [|a x IH]; intros u w y H; destruct y as [|c y]; auto. cbn [mix]. rewrite (H 0%nat) by (simpl; lia). f_equal.
  apply IH. intros j J. apply H. simpl. lia.
Qed.
Lemma closed_ext : forall b f u w v, proper b -> (forall j, (j < length b)%nat -> u j = w j) -> closed_share b f u v -> closed_share b f w v.
Proof.
  intros b f u w v P E (h & A & V). exists h. split; auto. intros x X. apply (average_ext b (fun y => f (mix u x y))); auto. intros y Y.
  rewrite (mix_ext R u w); auto. rewrite (inside_length b x X). auto.
Qed.
Lemma total_ext : forall b f u w v, proper b -> (forall j, (j < length b)%nat -> u j = w j) -> total_share b f u v -> total_share b f w v.
Proof.
  intros b f u w v P E (h & A & V). exists h. split; auto. intros x X. apply (variance_ext b (fun y => f (mix u y x))); auto. intros y Y.
  rewrite (mix_ext R u w); auto. rewrite (inside_length b y Y). auto.
Qed.

(** ** From the unit cube to the box *)
Lemma unit_proper : forall n, proper (unit_box n).
Proof. intros n. apply Forall_forall. intros i Hi. apply repeat_spec in Hi. subst. simpl. lra. Qed.

Definition phys (b : box) (x : list R) : list R := to_physical b x.
Lemma phys_cons : forall i b a x, phys (i :: b) (a :: x) = (fst i + a * (snd i - fst i)) :: phys b x.
Proof. intros. unfold phys, to_physical. cbn. f_equal. ring. Qed.
Lemma phys_inside : forall b x, proper b -> inside (unit_box (length b)) x -> inside b (phys b x).
Proof.
  intros b. induction b as [|i b IH]; intros x P X; inversion X; subst; [constructor|]. inversion P; subst. rewrite phys_cons. constructor; [|apply IH; auto]. simpl in *. nra.
Qed.
Lemma phys_mix : forall b u x y, inside (unit_box (length b)) x -> inside (unit_box (length b)) y -> phys b (mix u x y) = mix u (phys b x) (phys b y).
Proof.
  intros b. induction b as [|i b IH]; intros u x y X Y; inversion X; inversion Y; subst; [reflexivity|]. cbn [mix]. rewrite !phys_cons. cbn [mix]. rewrite IH by auto. destruct (u 0%nat); reflexivity.
Qed.
Lemma phys_near : forall b d L x y, Forall (fun i => snd i - fst i <= L) b -> proper b -> 0 <= d -> inside (unit_box (length b)) x -> inside (unit_box (length b)) y -> near d x y -> near (d * L) (phys b x) (phys b y).
Proof.
  intros b d L. induction b as [|i b IH]; intros x y W P D X Y N; inversion X; inversion Y; subst; [constructor|]. inversion W; subst. inversion P; subst. inversion N; subst.
  rewrite !phys_cons. constructor; [|apply IH; auto].
  match goal with |- Rabs ?e <= _ => replace e with ((y0 - y1) * (snd i - fst i)) by ring end. rewrite Rabs_mult, (Rabs_right (snd i - fst i)) by lra.
  apply Rmult_le_compat; auto; try lra. apply Rabs_pos.
Qed.
Lemma phys_continuous : forall b f, proper b -> continuous_on b f -> continuous_on (unit_box (length b)) (fun x => f (phys b x)).
Proof.
  intros b f P C eps He. destruct (C eps He) as (d & D & H). destruct (widths b P) as (L & L0 & W). exists (d / L). split; [apply Rdiv_lt_0_compat; auto|].
  intros x y X Y N. apply H; [apply phys_inside; auto|apply phys_inside; auto|]. replace d with (d / L * L) by (field; lra). apply phys_near; auto. left. apply Rdiv_lt_0_compat; auto.
Qed.

Lemma expect_phys : forall n b f, (0 < n)%nat -> expect (grid n (unit_box (length b))) (fun x => f (phys b x)) = expect (grid n b) f.
Proof.
  intros n b. induction b as [|i b IH]; intros f N; [reflexivity|]. unfold unit_box. cbn [length repeat grid map]. fold (unit_box (length b)). rewrite !expect_cons.
  unfold grid1. rewrite !map_map. f_equal. apply map_ext. intros k. cbn [fst snd]. f_equal. rewrite <- IH by auto. apply expect_ext. intros x Lx. rewrite phys_cons. do 2 f_equal.
  field. apply not_0_INR. lia.
Qed.
Lemma expect2_phys : forall n b (K : list R -> list R -> R), (0 < n)%nat -> expect2 (grid n (unit_box (length b))) (fun x y => K (phys b x) (phys b y)) = expect2 (grid n b) K.
Proof.
  intros n b K N. unfold expect2. rewrite <- (expect_phys n b (fun x => expect (grid n b) (K x)) N). apply expect_ext. intros x _. apply (expect_phys n b (K (phys b x)) N).
Qed.
Lemma expect2_grid_ext : forall n b K L, proper b -> (0 < n)%nat -> (forall x y, inside b x -> inside b y -> K x y = L x y) -> expect2 (grid n b) K = expect2 (grid n b) L.
Proof. intros n b K L P N H. unfold expect2. apply expect_grid_ext; auto. intros x X. apply expect_grid_ext; auto. Qed.

Section Scaling.
Variables (b : box) (f : list R -> R).
Hypothesis P : proper b.
Hypothesis C : continuous_on b f.
Let c := unit_box (length b).
Let F x := f (phys b x).
Let PC : proper c := unit_proper (length b).
Let CF : continuous_on c F := phys_continuous b f P C.

Lemma average_phys : forall v, average b f v -> average c F v.
Proof.
  intros v A. pose proof (avg_ok c F PC CF) as A'. pose proof (grid_cv b f v P C A) as L. pose proof (grid_cv c F _ PC CF A') as L'.
  apply (Un_cv_ext _ (fun n => expect (grid (S n) b) f)) in L'; [|intros n; apply expect_phys; lia]. rewrite (UL_sequence _ _ _ L L'). exact A'.
Qed.
Lemma closed_phys : forall u v, closed_share b f u v -> closed_share c F u v.
Proof.
  intros u v A. destruct (closed_exists c F u PC CF) as (w & W). pose proof (closed_cv b f u v P C A) as L. pose proof (closed_cv c F u w PC CF W) as L'.
  apply (Un_cv_ext _ (fun n => closed_effect (grid (S n) b) f u)) in L'; [rewrite (UL_sequence _ _ _ L L'); exact W|].
  intros n. rewrite !closed_alt2 by (apply grid_probability; lia). unfold F, c. rewrite expect_phys by lia. f_equal.
  rewrite <- (expect2_phys (S n) b (fun x y => f x * f (mix u x y))) by lia. apply expect2_grid_ext; [exact PC|lia|]. intros x y X Y. rewrite phys_mix; auto.
Qed.
Lemma total_phys : forall u v, total_share b f u v -> total_share c F u v.
Proof.
  intros u v A. destruct (total_exists c F u PC CF) as (w & W). pose proof (total_cv b f u v P C A) as L. pose proof (total_cv c F u w PC CF W) as L'.
  apply (Un_cv_ext _ (fun n => SpecExpect.total_effect (grid (S n) b) f u)) in L'; [rewrite (UL_sequence _ _ _ L L'); exact W|].
  intros n. apply (Rmult_eq_reg_l 2); [|lra]. rewrite <- !total_identity by (apply grid_probability; lia).
  rewrite <- (expect2_phys (S n) b (fun x y => (f x - f (mix u y x)) ^ 2)) by lia. apply expect2_grid_ext; [exact PC|lia|]. intros x y X Y. unfold F. rewrite phys_mix; auto.
Qed.
Lemma joint_phys : forall u w v, joint_share b f u w v -> joint_share c F u w v.
Proof. intros u w v (vu & vw & vb & A & B & D & E). exists vu, vw, vb. repeat split; auto; apply closed_phys; auto. Qed.
End Scaling.
Lemma variance_phys : forall b f v, proper b -> continuous_on b f -> SpecIntegral.variance b f v -> SpecIntegral.variance (unit_box (length b)) (fun x => f (phys b x)) v.
Proof.
  intros b f v P C (m & A & B). exists m. split; [apply average_phys; auto|].
  apply (average_phys b (fun x => (f x - m) ^ 2)); auto. apply continuous_square; auto. apply continuous_minus; auto. apply continuous_const.
Qed.

(** ** Grids fill the box *)
Fixpoint grid_points (n : nat) (b : box) : list (list R) :=
  match b with
  | [] => [[]]
  | i :: r => flat_map (fun k => map (cons (fst i + INR k * ((snd i - fst i) / INR n))) (grid_points n r)) (seq 0 n)
  end.
Lemma grid_points_length : forall n b, length (grid_points n b) = (n ^ length b)%nat.
Proof.
  intros n b. induction b as [|i b IH]; auto. cbn [grid_points length Nat.pow]. 
  assert (Q : forall (h : nat -> list R -> list R) l, length (flat_map (fun k => map (h k) (grid_points n b)) l) = (length l * n ^ length b)%nat).
  { intros h l. induction l as [|a l IHl]; auto. cbn [flat_map length]. rewrite app_length, map_length, IHl, IH. lia. }
  rewrite (Q (fun k => cons (fst i + INR k * ((snd i - fst i) / INR n)))), seq_length. reflexivity.
Qed.
Lemma grid_points_sum : forall n b f, (0 < n)%nat -> Rsum (map f (grid_points n b)) = INR (n ^ length b) * expect (grid n b) f.
Proof.
  intros n b. induction b as [|i b IH]; intros f N; [unfold Rsum; simpl; ring|]. cbn [grid_points grid map]. fold (grid n b). rewrite expect_cons. unfold grid1. rewrite map_map. cbn [fst snd length].
  set (x := fun k => fst i + INR k * ((snd i - fst i) / INR n)).
  transitivity (INR (n ^ length b) * Rsum (map (fun k => expect (grid n b) (fun r => f (x k :: r))) (seq 0 n))).
  - rewrite <- Rsum_map_scal. generalize (seq 0 n). intros l. induction l as [|k l IHl]; [reflexivity|]. cbn [flat_map map]. rewrite map_app, Rsum_app, map_map. 
    unfold Rsum at 3. cbn [fold_right]. fold (Rsum (map (fun k => INR (n ^ length b) * expect (grid n b) (fun r => f (x k :: r))) l)). rewrite <- IHl. f_equal. rewrite <- IH by auto. reflexivity.
  - replace (Rsum (map (fun k => / INR n * expect (grid n b) (fun r => f (fst i + INR k * ((snd i - fst i) / INR n) :: r))) (seq 0 n))) with (/ INR n * Rsum (map (fun k => expect (grid n b) (fun r => f (x k :: r))) (seq 0 n))) by (rewrite <- Rsum_map_scal; reflexivity). cbn [Nat.pow]. rewrite mult_INR. field. apply not_0_INR. lia.
Qed.
Lemma grid_fills : forall b, proper b -> fills b (fun n => grid_points (S n) b).
Proof.
  intros b P. split.
  - intros n. split.
    + intros E. apply (f_equal (@length _)) in E. rewrite grid_points_length in E. simpl in E. pose proof (Nat.pow_nonzero (S n) (length b) ltac:(lia)). simpl in *. lia.
    + induction b as [|i b IH]; [constructor; constructor|]. inversion P; subst. apply Forall_forall. intros x Hx. cbn [grid_points] in Hx. apply in_flat_map in Hx. destruct Hx as (k & K & Hx).
      apply in_map_iff in Hx. destruct Hx as (r & <- & Hr). apply in_seq in K. constructor; [|specialize (IH H2); rewrite Forall_forall in IH; apply IH; auto].
      assert (0 < INR (S n)) by (apply lt_0_INR; lia). pose proof (pos_INR k). assert (INR k <= INR (S n)) by (apply le_INR; lia).
      assert (0 < (snd i - fst i) / INR (S n)) by (apply Rdiv_lt_0_compat; lra).
      assert (INR (S n) * ((snd i - fst i) / INR (S n)) = snd i - fst i) by (field; lra). nra.
  - intros h v C A. apply (Un_cv_ext (fun n => expect (grid (S n) b) h)); [|apply grid_cv; auto]. intros n. unfold mean. rewrite grid_points_sum, map_length, grid_points_length by lia. field.
    apply not_0_INR. apply Nat.pow_nonzero. lia.
Qed.
