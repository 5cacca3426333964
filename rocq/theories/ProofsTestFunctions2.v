(** * The Sobol' G function: what the model computes, and its moments. *)
From Coq Require Import Reals List Arith Lra Lia Bool.
From Verif Require Import Base Arrays ModelScale Stats Sums ModelMorrisAnalyze ModelTestFunctions SpecIntegral ProofsIntegral ProofsScale ProofsTestFunctions.
Import ListNotations.
Local Open Scope R_scope.

Definition g1 (a d al x : R) : R := ((1 + al) * rpow (fold d x) al + a) / (1 + a).
Definition pv (a al : R) : R := al ^ 2 / ((1 + 2 * al) * (1 + a) ^ 2).

(** ** One coordinate *)

Lemma rpow_nonneg : forall x y, 0 <= x -> 0 <= rpow x y.
Proof.
  intros x y X. unfold rpow. destruct (Reqb x 0).
  - destruct (Reqb y 0); lra.
  - left. apply Rpower_pos.
Qed.
Lemma fold_nonneg : forall d x, 0 <= fold d x.
Proof. intros. unfold fold. apply Rabs_pos. Qed.

Lemma g1_mean : forall a d al, 1 + a <> 0 -> 0 < al -> 0 <= d <= 1 -> mean_of (0, 1) (g1 a d al) 1.
Proof.
  intros a d al A L D. unfold mean_of. cbn [fst snd].
  apply (integral_ext (fun x => a / (1 + a) + (1 + al) / (1 + a) * rpow (fold d x) al)); [lra|intros; unfold g1; field; assumption|].
  replace (1 * (1 - 0)) with (a / (1 + a) * (1 - 0) + (1 + al) / (1 + a) * / (1 + al)) by (field; split; lra).
  apply (integral_lin (fun _ => a / (1 + a))); [apply integral_const|apply integral_fold; lra].
Qed.
Lemma g1_square : forall a d al, 1 + a <> 0 -> 0 < al -> 0 <= d <= 1 -> mean_of (0, 1) (fun x => g1 a d al x ^ 2) (1 + pv a al).
Proof.
  intros a d al A L D. unfold mean_of. cbn [fst snd].
  apply (integral_ext (fun x => ((a / (1 + a)) ^ 2 + (2 * a * (1 + al) / (1 + a) ^ 2) * rpow (fold d x) al)
                                + ((1 + al) / (1 + a)) ^ 2 * rpow (fold d x) (2 * al))); [lra| |].
  - intros x _. unfold g1. rewrite <- rpow_sq; [field; assumption|apply fold_nonneg|assumption].
  - replace ((1 + pv a al) * (1 - 0)) with (((a / (1 + a)) ^ 2 * (1 - 0) + (2 * a * (1 + al) / (1 + a) ^ 2) * / (1 + al))
        + ((1 + al) / (1 + a)) ^ 2 * / (1 + 2 * al)).
    + apply (integral_lin (fun x => (a / (1 + a)) ^ 2 + (2 * a * (1 + al) / (1 + a) ^ 2) * rpow (fold d x) al)).
      * apply (integral_lin (fun _ => (a / (1 + a)) ^ 2)); [apply integral_const|apply integral_fold; lra].
      * apply integral_fold; lra.
    + unfold pv. field. repeat split; lra.
Qed.

Lemma pv_pos : forall a al, 1 + a <> 0 -> 0 < al -> 0 < pv a al.
Proof.
  intros a al A L. unfold pv. apply Rmult_lt_0_compat; [apply pow_lt; assumption|]. apply Rinv_0_lt_compat.
  apply Rmult_lt_0_compat; [lra|]. rewrite <- Rsqr_pow2. apply Rsqr_pos_lt. assumption.
Qed.

(** ** Lists *)

Lemma elementwise_eq : forall A B C (f : A -> B -> C) l l', length l = length l' -> elementwise f l l' = Ok (map2 f l l').
Proof. intros A B C f l l' E. unfold elementwise. rewrite E, Nat.eqb_refl. reflexivity. Qed.

Fixpoint zip3 (a d al : list R) : list (R * R * R) :=
  match a, d, al with x :: a, y :: d, z :: al => (x, y, z) :: zip3 a d al | _, _, _ => [] end.
Definition gs_of (a d al : list R) : list (R -> R) := map (fun p => g1 (fst (fst p)) (snd (fst p)) (snd p)) (zip3 a d al).
Definition qs_of (a al : list R) : list R := map2 (fun v l => 1 + pv v l) a al.

Lemma zip3_length : forall a d al, length d = length a -> length al = length a -> length (zip3 a d al) = length a.
Proof. induction a as [|x a IH]; intros [|y d] [|z al] D L; cbn in *; try lia. rewrite IH; lia. Qed.

Definition fdiv_ok : forall a b, b <> 0 -> fdiv a b = Some (a / b).
Proof. intros a b H. unfold fdiv. replace (Reqb b 0) with false; [reflexivity|]. symmetry. apply Reqb_false. assumption. Qed.

Lemma g_row_value : forall a d al x, length d = length a -> length al = length a -> length x = length a -> Forall (fun v => 1 + v <> 0) a ->
  g_row a d al x = Ok (Some (product (gs_of a d al) x)).
Proof.
  intros a d al x D L X N. unfold g_row.
  rewrite elementwise_eq by congruence. cbn [bind]. rewrite elementwise_eq by (rewrite map_length, length_map2; lia). cbn [bind].
  rewrite elementwise_eq by (rewrite length_map2, map_length, length_map2; lia). cbn [bind].
  rewrite elementwise_eq by (rewrite !length_map2, map_length, length_map2; lia). cbn [bind].
  rewrite elementwise_eq by (rewrite !length_map2, map_length, length_map2; lia). cbn [bind].
  f_equal. revert d al x D L X. induction N as [|v a V N IH]; intros [|y d] [|z al] [|u x] D L X; cbn in D, L, X; try lia; [reflexivity|].
  cbn [map2 map fprod fold_right gs_of zip3 product fst snd]. rewrite fdiv_ok by assumption.
  change (fold_right fmul (Some 1)) with fprod.
  rewrite IH by lia. reflexivity.
Qed.

Definition deltas (a : list R) (delta : option (list R)) : list R := match delta with Some d => d | None => map (fun _ => 0) a end.

(** The arrays fit together and are legal. *)
Record fits (a : list R) (delta alpha : option (list R)) : Prop := {
  f_d : length (deltas a delta) = length a;
  f_al : length (alpha_of a alpha) = length a;
  f_d01 : Forall (fun d => 0 <= d <= 1) (deltas a delta);
  f_al0 : Forall (fun l => 0 < l) (alpha_of a alpha);
  f_a : Forall (fun v => 1 + v <> 0) a }.

Lemma existsb_Forall_false : forall A (t : A -> bool) (P : A -> Prop) l, (forall x, t x = false <-> P x) -> Forall P l -> existsb t l = false.
Proof. intros A t P l H F. induction F as [|x l X F IH]; [reflexivity|]. cbn. rewrite IH, (proj2 (H x) X). reflexivity. Qed.
Lemma existsb_Forall_iff : forall A (t : A -> bool) (P : A -> Prop) l, (forall x, t x = false <-> P x) -> existsb t l = false <-> Forall P l.
Proof.
  intros A t P l H. split; [|apply existsb_Forall_false; assumption].
  induction l as [|x l IH]; intros E; constructor; cbn in E; apply orb_false_iff in E; destruct E as [E1 E2].
  - apply H. assumption.
  - apply IH. assumption.
Qed.

Lemma range_iff : forall x, Rltb x 0 || Rltb 1 x = false <-> 0 <= x <= 1.
Proof. intros x. rewrite orb_false_iff, !Rltb_false. tauto. Qed.
Lemma positive_iff : forall x, negb (Rltb 0 x) = false <-> 0 < x.
Proof. intros x. rewrite negb_false_iff, Rltb_true. tauto. Qed.

Definition unit_box (n : nat) : box := repeat (0, 1) n.
Lemma unit_inside : forall n x, inside (unit_box n) x <-> length x = n /\ Forall (fun v => 0 <= v <= 1) x.
Proof.
  induction n as [|n IH]; intros x; unfold unit_box, inside in *; cbn [repeat].
  - split.
    + intros H. inversion H; subst. split; [reflexivity|constructor].
    + intros [H _]. destruct x; [constructor|discriminate].
  - split.
    + intros H. inversion H as [|? v ? l V L]; subst. cbn [fst snd] in V. apply IH in L. cbn. split; [lia|]. constructor; tauto.
    + intros [H F]. destruct x as [|v x]; [discriminate|]. cbn in H. inversion F; subst. constructor; [assumption|]. apply IH. split; [lia|assumption].
Qed.
Lemma unit_proper : forall n, proper (unit_box n).
Proof. intros n. unfold proper, unit_box. apply Forall_forall. intros i H. apply repeat_spec in H. subst. cbn. lra. Qed.

(** evaluate accepts exactly the values in the unit cube. *)
Lemma g_evaluate_value : forall a delta alpha xs, fits a delta alpha -> Forall (inside (unit_box (length a))) xs ->
  g_evaluate xs (Some a) delta alpha = Ok (map (fun x => Some (product (gs_of a (deltas a delta) (alpha_of a alpha)) x)) xs).
Proof.
  intros a delta alpha xs F X. unfold g_evaluate.
  assert (Dq : (match delta with
          | None => Ok (map (fun _ => 0%R) a)
          | Some d => if existsb (fun x => Rltb x 0 || Rltb 1 x) d then Err ValueError else Ok d
          end) = Ok (deltas a delta)).
  { destruct delta as [d|]; [|reflexivity]. rewrite (existsb_Forall_false _ _ _ _ range_iff); [reflexivity|]. exact (f_d01 _ _ _ F). }
  rewrite Dq. cbn [bind].
  assert (Al : (match alpha with
           | None => Ok (map (fun _ => 1%R) a)
           | Some al => if existsb (fun x => negb (Rltb 0 x)) al then Err ValueError else Ok al
           end) = Ok (alpha_of a alpha)).
  { destruct alpha as [al|]; [|reflexivity]. rewrite (existsb_Forall_false _ _ _ _ positive_iff); [reflexivity|]. exact (f_al0 _ _ _ F). }
  rewrite Al. cbn [bind].
  assert (Lo : existsb (existsb (fun x => Rltb x 0)) xs = false).
  { apply existsb_Forall_iff with (P := fun x => Forall (fun v => 0 <= v) x).
    - intros x. apply existsb_Forall_iff. intros v. apply Rltb_false.
    - rewrite Forall_forall in *. intros x I. specialize (X x I). apply unit_inside in X. destruct X as [_ X].
      rewrite Forall_forall in *. intros v V. apply X. assumption. }
  assert (Hi : existsb (existsb (fun x => Rltb 1 x)) xs = false).
  { apply existsb_Forall_iff with (P := fun x => Forall (fun v => v <= 1) x).
    - intros x. apply existsb_Forall_iff. intros v. apply Rltb_false.
    - rewrite Forall_forall in *. intros x I. specialize (X x I). apply unit_inside in X. destruct X as [_ X].
      rewrite Forall_forall in *. intros v V. apply X. assumption. }
  rewrite Lo, Hi. clear Lo Hi Dq Al.
  induction X as [|x xs X XS IH]; [reflexivity|]. cbn [mapM map]. apply unit_inside in X. destruct X as [X _].
  rewrite g_row_value; [|exact (f_d _ _ _ F)|exact (f_al _ _ _ F)|assumption|exact (f_a _ _ _ F)].
  cbn [bind]. rewrite IH. reflexivity.
Qed.

(** ** The analytic formulas *)

Lemma map2_map2 : forall A B C D (f : A -> B -> C) (g : C -> D) l l', map g (map2 f l l') = map2 (fun x y => g (f x y)) l l'.
Proof. intros A B C D f g. induction l as [|x l IH]; intros [|y l']; try reflexivity. cbn. rewrite IH. reflexivity. Qed.
Lemma map2_flip : forall A B C (f : A -> B -> C) l l', map2 f l l' = map2 (fun y x => f x y) l' l.
Proof. intros A B C f. induction l as [|x l IH]; intros [|y l']; try reflexivity. cbn. rewrite IH. reflexivity. Qed.

Definition legal (a : list R) (al : list R) : Prop :=
  length al = length a /\ Forall (fun l => 0 < l) al /\ Forall (fun v => 1 + v <> 0) a.

Lemma partial_variance_value : forall a alpha, legal a (alpha_of a alpha) ->
  partial_variance a alpha = Ok (map Some (map2 pv a (alpha_of a alpha))).
Proof.
  intros a alpha (L & P & N). unfold partial_variance. rewrite elementwise_eq by assumption. f_equal.
  revert L P N. generalize (alpha_of a alpha) as al. induction a as [|v a IH]; intros [|l al] L P N; try discriminate; [reflexivity|].
  inversion P; inversion N; subst. cbn [map2 map]. rewrite IH by (auto; cbn in L; lia). f_equal.
  rewrite fdiv_ok; [reflexivity|]. apply Rmult_integral_contrapositive_currified; [lra|]. apply pow_nonzero. assumption.
Qed.

Lemma fprod_some : forall l, fprod (map Some l) = Some (prod l).
Proof. induction l as [|x l IH]; [reflexivity|]. cbn. change (fold_right fmul (Some 1)) with fprod. rewrite IH. reflexivity. Qed.
Lemma total_variance_value : forall a alpha, legal a (alpha_of a alpha) ->
  total_variance a alpha = Ok (Some (prod (qs_of a (alpha_of a alpha)) - 1)).
Proof.
  intros a alpha L. unfold total_variance. rewrite partial_variance_value by assumption. cbn [bind]. f_equal.
  rewrite map_map. unfold qs_of. rewrite <- (map2_map2 _ _ _ _ pv (fun v => 1 + v)).
  rewrite <- (map_map (fun v => 1 + v) Some), fprod_some. cbn. f_equal. ring.
Qed.

Lemma prod_ge : forall l, Forall (fun v => 0 < v) l -> 1 + Rsum l <= prod (map (fun v => 1 + v) l) /\ 0 <= Rsum l.
Proof.
  induction 1 as [|v l V F [IH1 IH2]]; [cbn; lra|]. cbn [map prod]. change (Rsum (v :: l)) with (v + Rsum l). split; [|lra].
  assert (0 <= v * Rsum l) by (apply Rmult_le_pos; lra).
  assert ((1 + v) * (1 + Rsum l) <= (1 + v) * prod (map (fun v => 1 + v) l)) by (apply Rmult_le_compat_l; lra). lra.
Qed.
Lemma pvs_pos : forall a al, legal a al -> Forall (fun v => 0 < v) (map2 pv a al).
Proof.
  intros a al (L & P & N). revert al L P. induction N as [|v a V N IH]; intros [|l al] L P; try discriminate; [constructor|].
  inversion P; subst. cbn [map2]. constructor; [apply pv_pos; assumption|]. apply IH; [cbn in L; lia|assumption].
Qed.
Lemma qs_pvs : forall a al, qs_of a al = map (fun v => 1 + v) (map2 pv a al).
Proof. intros. unfold qs_of. rewrite map2_map2. reflexivity. Qed.

Lemma prod_gt1 : forall a al, legal a al -> a <> [] -> 1 < prod (qs_of a al).
Proof.
  intros a al L E. rewrite qs_pvs. destruct (prod_ge _ (pvs_pos a al L)) as [P _].
  assert (Q := pvs_pos a al L). destruct L as (L & _ & _).
  destruct a as [|v a]; [congruence|]. destruct al as [|l al]; [discriminate|]. cbn [map2] in *.
  inversion Q as [|? ? Q1 Q2]; subst. apply prod_ge in Q2.
  change (Rsum (pv v l :: map2 pv a al)) with (pv v l + Rsum (map2 pv a al)) in P. lra.
Qed.

Definition first_index (a al : list R) (v : R) : R := v / (prod (qs_of a al) - 1).
Definition total_index (a al : list R) (v : R) : R := v * (prod (qs_of a al) / (1 + v)) / (prod (qs_of a al) - 1).

Lemma sensitivity_value : forall a alpha, legal a (alpha_of a alpha) -> a <> [] ->
  sensitivity_index a alpha = Ok (map (fun v => Some (first_index a (alpha_of a alpha) v)) (map2 pv a (alpha_of a alpha))).
Proof.
  intros a alpha L E. unfold sensitivity_index. rewrite partial_variance_value, total_variance_value by assumption. cbn [bind].
  f_equal. rewrite map_map. apply map_ext. intros v. cbn. apply fdiv_ok. assert (Q := prod_gt1 _ _ L E). lra.
Qed.
Lemma total_sensitivity_value : forall a alpha, legal a (alpha_of a alpha) -> a <> [] ->
  total_sensitivity_index a alpha = Ok (map (fun v => Some (total_index a (alpha_of a alpha) v)) (map2 pv a (alpha_of a alpha))).
Proof.
  intros a alpha L E. unfold total_sensitivity_index. rewrite partial_variance_value, total_variance_value by assumption. cbn [bind].
  f_equal. rewrite !map_map. assert (Q := prod_gt1 _ _ L E).
  rewrite <- (map_map (fun v => 1 + v) Some), fprod_some, <- qs_pvs. apply map_ext_in. intros v I.
  assert (P := pvs_pos _ _ L). rewrite Forall_forall in P. specialize (P v I). cbn [fadd1 option_map fquot].
  rewrite fdiv_ok by lra. cbn [fmul]. cbn [fquot]. apply fdiv_ok. lra.
Qed.

(** The product without one factor. *)
Lemma prod_without : forall l i q, nth_error l i = Some q -> prod l = q * prod (without_at i l).
Proof.
  induction l as [|x l IH]; intros [|i] q E; try discriminate.
  - cbn in *. injection E as ->. reflexivity.
  - cbn [nth_error] in E. unfold without_at in *. cbn [prod firstn skipn app] in *. rewrite (IH i q E). ring.
Qed.

(** Sums of the indices. *)
Lemma sum_total_ge : forall l, Forall (fun v => 0 < v) l ->
  prod (map (fun v => 1 + v) l) - 1 <= Rsum (map (fun v => v * (prod (map (fun v => 1 + v) l) / (1 + v))) l).
Proof.
  induction 1 as [|v l V F IH]; [cbn; lra|].
  assert (G := prod_ge l F). cbn [map prod]. cbn [Rsum fold_right map].
  replace (v * ((1 + v) * prod (map (fun v => 1 + v) l) / (1 + v))) with (v * prod (map (fun v => 1 + v) l)) by (field; lra).
  assert (E : Rsum (map (fun u => u * ((1 + v) * prod (map (fun v => 1 + v) l) / (1 + u))) l)
              = (1 + v) * Rsum (map (fun u => u * (prod (map (fun v => 1 + v) l) / (1 + u))) l)).
  { rewrite <- Rsum_map_scal. f_equal. apply map_ext_in. intros u U. rewrite Forall_forall in F. specialize (F u U). field. lra. }
  change (fold_right Rplus 0) with Rsum. unfold Rsum in *. rewrite E.
  set (P := prod (map (fun v0 => 1 + v0) l)) in *. set (T := fold_right Rplus 0 (map (fun u => u * (P / (1 + u))) l)) in *.
  assert (0 <= T).
  { unfold T. apply Rsum_nonneg. intros u U. apply in_map_iff in U. destruct U as (w & <- & W). rewrite Forall_forall in F. specialize (F w W).
    apply Rmult_le_pos; [lra|]. apply Rmult_le_pos; [lra|]. left. apply Rinv_0_lt_compat. lra. }
  assert (0 <= v * T) by (apply Rmult_le_pos; lra). lra.
Qed.

Lemma prod_without_ge1 : forall l i v, Forall (fun v => 0 < v) l -> nth_error l i = Some v ->
  1 <= prod (without_at i (map (fun v => 1 + v) l)) /\ prod (map (fun v => 1 + v) l) = (1 + v) * prod (without_at i (map (fun v => 1 + v) l)).
Proof.
  intros l i v F E. split.
  - replace (without_at i (map (fun v => 1 + v) l)) with (map (fun v => 1 + v) (without_at i l)).
    + destruct (prod_ge (without_at i l)) as [P Q]; [apply without_at_Forall; assumption|]. lra.
    + unfold without_at. rewrite map_app, firstn_map, skipn_map. reflexivity.
  - apply prod_without. rewrite nth_error_map, E. reflexivity.
Qed.

Lemma index_bounds : forall a al i v, legal a al -> nth_error (map2 pv a al) i = Some v ->
  0 < first_index a al v /\ first_index a al v <= total_index a al v /\ total_index a al v <= 1
  /\ total_index a al v = v * prod (without_at i (qs_of a al)) / (prod (qs_of a al) - 1).
Proof.
  intros a al i v L E. assert (P := pvs_pos a al L).
  assert (V : 0 < v) by (apply nth_error_In in E; rewrite Forall_forall in P; auto).
  destruct (prod_without_ge1 _ i v P E) as [W1 W2]. rewrite <- qs_pvs in *.
  set (T := prod (qs_of a al)) in *. set (W := prod (without_at i (qs_of a al))) in *.
  assert (D : 0 < T - 1).
  { rewrite W2. assert (0 <= (1 + v) * (W - 1)) by (apply Rmult_le_pos; lra). lra. }
  assert (Q : total_index a al v = v * W / (T - 1)).
  { unfold total_index. fold T. replace (T / (1 + v)) with W; [reflexivity|]. rewrite W2. field. lra. }
  split; [|split; [|split; [|exact Q]]]; try rewrite Q; unfold first_index; fold T.
  - apply Rmult_lt_0_compat; [assumption|]. apply Rinv_0_lt_compat. assumption.
  - unfold Rdiv. apply Rmult_le_compat_r; [left; apply Rinv_0_lt_compat; assumption|].
    replace v with (v * 1) at 1 by ring. apply Rmult_le_compat_l; lra.
  - apply Rmult_le_reg_r with (T - 1); [assumption|]. unfold Rdiv. rewrite Rmult_assoc, Rinv_l by lra. lra.
Qed.

Lemma index_sums : forall a al, legal a al -> a <> [] ->
  Rsum (map (first_index a al) (map2 pv a al)) <= 1 <= Rsum (map (total_index a al) (map2 pv a al)).
Proof.
  intros a al L E. assert (P := pvs_pos a al L). assert (D := prod_gt1 a al L E). split.
  - rewrite (Rsum_ext _ (first_index a al) (fun v => / (prod (qs_of a al) - 1) * v)).
    + rewrite Rsum_map_scal, map_id. destruct (prod_ge _ P) as [G _]. rewrite <- qs_pvs in G.
      apply Rmult_le_reg_l with (prod (qs_of a al) - 1); [lra|]. rewrite <- Rmult_assoc, Rinv_r by lra. lra.
    + intros v _. unfold first_index. field. lra.
  - rewrite (Rsum_ext _ (total_index a al) (fun v => / (prod (qs_of a al) - 1) * (v * (prod (qs_of a al) / (1 + v))))).
    + rewrite Rsum_map_scal. assert (G := sum_total_ge _ P). rewrite <- qs_pvs in G.
      apply Rmult_le_reg_l with (prod (qs_of a al) - 1); [lra|]. rewrite <- Rmult_assoc, Rinv_r by lra. lra.
    + intros v I. unfold total_index. rewrite Forall_forall in P. specialize (P v I). field. lra.
Qed.

(** ** The G function on the cube *)

Lemma gs_moments : forall a d al, length d = length a -> length al = length a -> Forall (fun x => 0 <= x <= 1) d -> Forall (fun l => 0 < l) al ->
  Forall (fun v => 1 + v <> 0) a ->
  length (gs_of a d al) = length (unit_box (length a))
  /\ Forall (fun ig => mean_of (fst ig) (snd ig) 1) (combine (unit_box (length a)) (gs_of a d al))
  /\ Forall2 (fun ig q => mean_of (fst ig) (fun x => snd ig x ^ 2) q) (combine (unit_box (length a)) (gs_of a d al)) (qs_of a al).
Proof.
  induction a as [|v a IH]; intros [|y d] [|z al] D L FD FL FA; cbn in D, L; try lia.
  - cbn. repeat split; constructor.
  - inversion FD; inversion FL; inversion FA; subst. destruct (IH d al) as (I1 & I2 & I3); try assumption; try lia.
    unfold gs_of, qs_of, unit_box in *. cbn [length repeat zip3 map map2 combine fst snd]. split; [lia|]. split.
    + constructor; [|assumption]. cbn [fst snd]. apply g1_mean; assumption.
    + constructor; [|assumption]. cbn [fst snd]. apply g1_square; assumption.
Qed.

Lemma qs_length : forall a al, length al = length a -> length (qs_of a al) = length a.
Proof. intros. unfold qs_of. rewrite length_map2. lia. Qed.
Lemma qs_nth : forall a al i v, nth_error (map2 pv a al) i = Some v -> nth_error (qs_of a al) i = Some (1 + v).
Proof. intros a al i v E. rewrite qs_pvs, nth_error_map, E. reflexivity. Qed.
