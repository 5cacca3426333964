(** * The discrepancy analyser. *)
From Coq Require Import Reals String List Arith ZArith Bool Lia Lra Permutation.
From Verif Require Import Base Arrays ListFacts ModelGroups SpecGroups ProofsGroups ModelScale ProofsScale Stats Sums ModelFast ModelMorris ModelMorrisAnalyze
  SpecSobol ProofsSobol Quant ModelPawn SpecPawn ProofsPawn ProofsPawn2 ProofsPawn4 ProofsRsa2 ModelDiscrepancy SpecDiscrepancy.
Import ListNotations.
Local Open Scope nat_scope.

Definition lo (b : list (list R)) (i : nat) : R := nth 0 (nth i b []) 0%R.
Definition up (b : list (list R)) (i : nat) : R := nth 1 (nth i b []) 0%R.
Definition unit_col (b : list (list R)) (X : list (list R)) (i : nat) : list R := map (fun r => (nth i r 0 - lo b i) / (up b i - lo b i))%R X.
Definition unit_out (Y : list R) : list R := map (fun y => (y - minl Y) / (maxl Y - minl Y))%R Y.
Definition pts (b : list (list R)) (X : list (list R)) (Y : list R) (i : nat) : list (R * R) := combine (unit_col b X i) (unit_out Y).

Lemma box_entry : forall b i, good_box b -> i < length b -> nth_error b i = Some [lo b i; up b i] /\ (lo b i < up b i)%R.
Proof.
  intros b i G Hi. destruct (nth_error b i) as [r|] eqn:E; [|apply nth_error_None in E; lia].
  unfold good_box in G. rewrite Forall_forall in G. destruct (G r (nth_error_In _ _ E)) as (l & u & -> & L).
  unfold lo, up. rewrite (nth_error_nth _ _ _ E). auto.
Qed.
Lemma box_columns : forall b, good_box b -> b <> [] -> bounds_columns b = Ok (map (fun i => (lo b i, up b i)) (seq 0 (length b))).
Proof.
  intros b G N. unfold bounds_columns. destruct b as [|r0 b'] eqn:E; [congruence|]. rewrite <- E in *. clear N.
  assert (L0 : forall r, In r b -> length r = 2).
  { intros r Hr. unfold good_box in G. rewrite Forall_forall in G. destruct (G r Hr) as (l & u & -> & _). auto. }
  assert (F : forallb (fun r => length r =? length r0) b = true).
  { apply forallb_forall. intros r Hr. rewrite (L0 r Hr), (L0 r0) by (rewrite E; left; auto). auto. }
  rewrite F. cbn [negb].
  rewrite (mapM_ext _ (fun r => Ok (nth 0 r 0%R, nth 1 r 0%R))).
  2: { intros r Hr. unfold good_box in G. rewrite Forall_forall in G. destruct (G r Hr) as (l & u & -> & _). auto. }
  rewrite mapM_Ok_map. f_equal. apply nth_error_ext'. intros i. rewrite !nth_error_map', nth_error_seq.
  destruct (Nat.ltb_spec i (length b)); simpl.
  - destruct (box_entry b i G H) as [En _]. rewrite En. auto.
  - rewrite (proj2 (nth_error_None b i)); auto.
Qed.

Lemma unscale_ok : forall m b, good_box b -> b <> [] -> cols m = length b -> Forall (in_box b) (rows m) ->
  qmc_unscale m (map (fun i => (lo b i, up b i)) (seq 0 (length b))) =
  Ok (mkMat (length b) (map (fun r => map (fun i => (nth i r 0 - lo b i) / (up b i - lo b i))%R (seq 0 (length b))) (rows m))).
Proof.
  intros m b G N HC HB. unfold qmc_unscale, broadcast. rewrite map_length, seq_length, HC, Nat.eqb_refl. cbn [bind].
  assert (I : any_illegal (map (fun i => (lo b i, up b i)) (seq 0 (length b))) = false).
  { destruct (any_illegal _) eqn:E; auto. exfalso. unfold any_illegal in E. apply existsb_exists in E. destruct E as ([l u] & Hin & E).
    apply in_map_iff in Hin. destruct Hin as (i & Hp & Hi). injection Hp as <- <-. apply in_seq in Hi. destruct (box_entry b i G ltac:(lia)) as [_ L].
    simpl in E. unfold Rleb in E. destruct (Rle_dec (up b i) (lo b i)); [lra|discriminate]. }
  rewrite I.
  assert (O : existsb (fun r => existsb (fun b0 => b0) (map2 (fun x b0 => Rltb x (fst b0) || Rltb (snd b0) x) r (map (fun i => (lo b i, up b i)) (seq 0 (length b))))) (rows m) = false).
  { destruct (existsb _ (rows m)) eqn:E; auto. exfalso. apply existsb_exists in E. destruct E as (r & Hr & E). apply existsb_exists in E.
    destruct E as (v & Hv & ->). apply In_nth_error in Hv. destruct Hv as (i & Hi). rewrite nth_error_map2 in Hi.
    rewrite nth_error_map', nth_error_seq in Hi. rewrite Forall_forall in HB. destruct (HB r Hr) as [L B].
    destruct (nth_error r i) as [x|] eqn:Ex; [|discriminate]. assert (Hi' : i < length b) by (rewrite <- L; apply nth_error_Some; congruence).
    destruct (Nat.ltb_spec i (length b)); [|lia]. simpl in Hi. injection Hi as Hi. destruct (box_entry b i G Hi') as [En _].
    specialize (B i _ _ En). rewrite (nth_error_nth _ _ _ Ex) in B. unfold Rltb in Hi. destruct (Rlt_dec x (lo b i)), (Rlt_dec (up b i) x); simpl in Hi; try discriminate; lra. }
  rewrite O. do 2 f_equal. apply map_ext_in. intros r Hr. rewrite Forall_forall in HB. destruct (HB r Hr) as [L _].
  apply nth_error_ext'. intros i. rewrite nth_error_map2, !nth_error_map', nth_error_seq. destruct (Nat.ltb_spec i (length b)); simpl.
  - rewrite (nth_error_nth' r 0%R) by lia. auto.
  - destruct (nth_error r i); auto.
Qed.

Lemma unscale_out : forall Y, (exists a b, In a Y /\ In b Y /\ a <> b) -> Y <> [] /\ (minl Y < maxl Y)%R /\
  qmc_unscale (mkMat 1 (map (fun y => [y]) Y)) [(minl Y, maxl Y)] = Ok (mkMat 1 (map (fun y => [(y - minl Y) / (maxl Y - minl Y)]%R) Y)).
Proof.
  intros Y (a & b & Ha & Hb & Hab). assert (N : Y <> []) by (intros ->; auto).
  destruct (minl_spec Y N) as [_ Lm]. destruct (maxl_spec Y N) as [_ LM].
  assert (L : (minl Y < maxl Y)%R). { pose proof (Lm a Ha). pose proof (Lm b Hb). pose proof (LM a Ha). pose proof (LM b Hb). destruct (Rtotal_order a b) as [|[|]]; [lra|congruence|lra]. }
  split; auto. split; auto.
  pose proof (unscale_ok (mkMat 1 (map (fun y => [y]) Y)) [[minl Y; maxl Y]]) as U.
  cbn [length seq map lo up nth cols rows] in U. rewrite U; auto.
  - f_equal. f_equal. rewrite map_map. reflexivity.
  - constructor; auto. eauto.
  - discriminate.
  - apply Forall_forall. intros r Hr. apply in_map_iff in Hr. destruct Hr as (y & <- & Hy). split; auto.
    intros [|[|j]] l u E; simpl in E; try discriminate. injection E as <- <-. simpl. auto.
Qed.

Definition finish (p : problem) (raw : list R) : result disc_out :=
  do s <- match check_groups p with Some g => share_means g (map (fun v => fdiv v (Rsum raw)) raw) | None => Ok (map (fun v => fdiv v (Rsum raw)) raw) end ;;
  Ok (mkDisc s (p_names p)).

Lemma disc_eq : forall disc p X Y, disc_input p X Y ->
  disc_analyze disc p X Y = do raw <- mapM (fun i => disc (pts (p_bounds p) (rows X) Y i)) (seq 0 (p_num_vars p)) ;; finish p raw.
Proof.
  intros disc p X Y (G & N & L & HC & HB & LY & V). unfold disc_analyze. rewrite box_columns by auto. cbn [bind].
  rewrite unscale_ok by (auto; congruence). cbn [bind]. destruct (unscale_out Y V) as (NY & _ & EY). rewrite EY. cbn [bind].
  destruct Y as [|y0 Yr] eqn:EYY; [congruence|]. rewrite <- EYY in *. cbv zeta. cbn [rows].
  rewrite map_map. cbn [nth].
  rewrite (mapM_ext _ (fun i => disc (pts (p_bounds p) (rows X) Y i))); [reflexivity|].
  intros i Hi. apply in_seq in Hi. unfold raw_discrepancy. cbn [cols rows]. destruct (Nat.leb_spec (length (p_bounds p)) i); [lia|].
  assert (EM : mapM (fun r => get r i) (map (fun r => map (fun i => ((nth i r 0 - lo (p_bounds p) i) / (up (p_bounds p) i - lo (p_bounds p) i))%R) (seq 0 (length (p_bounds p)))) (rows X))
    = Ok (unit_col (p_bounds p) (rows X) i)).
  { rewrite <- (map_map (fun r => r) (fun r => map _ _)), map_id. unfold unit_col. rewrite <- mapM_Ok_map.
    assert (MM : forall (h : list R -> list R) l, mapM (fun r => get r i) (map h l) = mapM (fun r => get (h r) i) l).
    { intros h. induction l as [|x l IH]; cbn [map mapM]; auto. rewrite IH. auto. }
    rewrite MM. apply mapM_ext. intros r _. unfold get. rewrite nth_error_map', nth_error_seq. destruct (Nat.ltb_spec i (length (p_bounds p))); [|lia]. auto. }
  rewrite EM. cbn [bind]. unfold unit_col at 1. rewrite !map_length, LY, Nat.eqb_refl. reflexivity.
Qed.

Lemma pts_spec : forall p X Y i, disc_input p X Y -> i < p_num_vars p ->
  unit_points (p_bounds p) (rows X) Y i (pts (p_bounds p) (rows X) Y i) /\ in_square (pts (p_bounds p) (rows X) Y i) /\ pts (p_bounds p) (rows X) Y i <> [].
Proof.
  intros p X Y i (G & N & L & HC & HB & LY & V) Hi. destruct (unscale_out Y V) as (NY & LT & _). rewrite <- L in Hi.
  destruct (box_entry _ _ G Hi) as [En Lt]. set (b := p_bounds p) in *.
  assert (LP : length (pts b (rows X) Y i) = length Y) by (unfold pts, unit_col, unit_out; rewrite combine_length, !map_length; lia).
  assert (P : forall k u w, nth_error (pts b (rows X) Y i) k = Some (u, w) -> k < length Y /\
     u = ((nth i (nth k (rows X) []) 0 - lo b i) / (up b i - lo b i))%R /\ w = ((nth k Y 0 - minl Y) / (maxl Y - minl Y))%R).
  { intros k u w H. assert (K : k < length Y) by (rewrite <- LP; apply nth_error_Some; congruence). split; auto.
    assert (E : nth_error (pts b (rows X) Y i) k = Some (((nth i (nth k (rows X) []) 0 - lo b i) / (up b i - lo b i))%R, ((nth k Y 0 - minl Y) / (maxl Y - minl Y))%R)).
    { unfold pts. assert (CN : forall A B (l : list A) (l' : list B) k a b, nth_error l k = Some a -> nth_error l' k = Some b -> nth_error (combine l l') k = Some (a, b)).
      { clear. intros A B. induction l as [|x l IH]; intros [|z l'] [|k] a b Ha Hb; simpl in *; try discriminate; [congruence|auto]. }
      apply CN.
      - unfold unit_col. rewrite nth_error_map'. rewrite (nth_error_nth' (rows X) []) by lia. auto.
      - unfold unit_out. rewrite nth_error_map'. rewrite (nth_error_nth' Y 0%R) by lia. auto. }
    rewrite E in H. injection H as <- <-. auto. }
  split; [split; auto|split].
  - intros k u w H. destruct (P k u w H) as (K & -> & ->). exists (lo b i), (up b i). split; auto. split; field; lra.
  - apply Forall_forall. intros [u w] H. apply In_nth_error in H. destruct H as (k & H). destruct (P k u w H) as (K & -> & ->). cbn [fst snd].
    rewrite Forall_forall in HB. destruct (HB (nth k (rows X) []) ltac:(apply nth_In; lia)) as [_ B]. specialize (B i _ _ En).
    destruct (minl_spec Y NY) as [_ Lm]. destruct (maxl_spec Y NY) as [_ LM]. pose proof (Lm (nth k Y 0%R) ltac:(apply nth_In; auto)). pose proof (LM (nth k Y 0%R) ltac:(apply nth_In; auto)).
    assert (Q : forall a l u, (l < u -> l <= a <= u -> 0 <= (a - l) / (u - l) <= 1)%R).
    { intros a l u Hl [Ha Hb]. split; [apply Rdiv_nonneg; lra|]. apply Rmult_le_reg_r with (u - l)%R; [lra|]. unfold Rdiv. rewrite Rmult_assoc, Rinv_l by lra. lra. }
    split; apply Q; auto.
  - intros E. rewrite E in LP. destruct Y; simpl in *; congruence.
Qed.

Lemma raw_exists : forall disc p X Y, disc_ok disc -> disc_input p X Y -> exists raw,
  mapM (fun i => disc (pts (p_bounds p) (rows X) Y i)) (seq 0 (p_num_vars p)) = Ok raw /\ raw_of disc p X Y raw.
Proof.
  intros disc p X Y HD HI.
  assert (A : forall i, In i (seq 0 (p_num_vars p)) -> exists v, disc (pts (p_bounds p) (rows X) Y i) = Ok v).
  { intros i Hi. apply in_seq in Hi. destruct (pts_spec p X Y i HI ltac:(lia)) as (_ & S & N). destruct (HD _ N S) as (v & E & _). eauto. }
  apply (proj2 (mapM_Ok_iff _ _)) in A. destruct A as (raw & E). exists raw. split; auto.
  pose proof (mapM_Ok_length _ _ E) as L. rewrite seq_length in L. split; auto. intros i v Hv.
  assert (Hi : i < p_num_vars p) by (rewrite <- L; apply nth_error_Some; congruence).
  destruct (mapM_Ok_nth _ _ i E (x := i)) as (v' & E' & Ev).
  { rewrite nth_error_seq. destruct (Nat.ltb_spec i (p_num_vars p)); auto; lia. }
  rewrite Hv in Ev. injection Ev as <-. destruct (pts_spec p X Y i HI Hi) as (U & S & N). destruct (HD _ N S) as (w & Ew & Hw).
  split; [congruence|]. exists (pts (p_bounds p) (rows X) Y i). auto.
Qed.

(** ** Shares *)
Definition share (raw : list R) (i : nat) : R := (nth i raw 0 / Rsum raw)%R.
Lemma shares : forall raw, (0 < Rsum raw)%R -> map (fun v => fdiv v (Rsum raw)) raw = map (fun i => Some (share raw i)) (seq 0 (length raw)).
Proof.
  intros raw H. apply nth_error_ext'. intros i. rewrite !nth_error_map', nth_error_seq. destruct (Nat.ltb_spec i (length raw)); simpl.
  - rewrite (nth_error_nth' raw 0%R) by auto. simpl. unfold fdiv. destruct (Reqb (Rsum raw) 0) eqn:E; auto. apply Reqb_true in E. lra.
  - rewrite (proj2 (nth_error_None raw i)); auto.
Qed.
Lemma share_sum : forall raw, (0 < Rsum raw)%R -> Rsum (map (share raw) (seq 0 (length raw))) = 1%R.
Proof.
  intros raw H. rewrite (Rsum_ext _ _ (fun i => / Rsum raw * nth i raw 0)%R).
  2: { intros i _. unfold share, Rdiv. ring. }
  rewrite Rsum_map_scal. change (Rsum (map (fun i => nth i raw 0%R) (seq 0 (length raw)))) with (sum (length raw) (fun t => nth t raw 0%R)).
  rewrite <- sum_list. field. lra.
Qed.
Lemma share_nonneg : forall raw i, (forall k v, nth_error raw k = Some v -> (0 <= v)%R) -> (0 < Rsum raw)%R -> (0 <= share raw i)%R.
Proof.
  intros raw i HN H. unfold share. apply Rdiv_nonneg; auto. destruct (nth_error raw i) as [v|] eqn:E.
  - rewrite (nth_error_nth _ _ _ E). eauto.
  - rewrite nth_overflow by (apply nth_error_None; auto). lra.
Qed.
Lemma shares_nan : forall raw, Rsum raw = 0%R -> map (fun v => fdiv v (Rsum raw)) raw = repeat None (length raw).
Proof.
  intros raw H. rewrite H. clear H. induction raw as [|v r IH]; cbn [map repeat length]; auto. rewrite IH. f_equal. unfold fdiv. unfold Reqb. destruct (Req_EM_T 0 0); auto. lra.
Qed.

(** ** Groups *)
Lemma select_shares : forall (f : string -> bool) g (s : list fval), length g = length s ->
  select (map f g) s = Ok (map (fun j => nth j s None) (filter (fun j => f (nth j g EmptyString)) (seq 0 (length g)))).
Proof.
  intros f g rows H. unfold select. rewrite map_length, H, Nat.eqb_refl. f_equal.
  revert rows H. induction g as [|x g IH]; intros [|r rows] H; simpl in *; try discriminate; auto. injection H as H.
  specialize (IH rows H). rewrite <- H in *. rewrite <- seq_shift.
  assert (E : forall l, filter (fun j => f match j with 0 => x | S m => nth m g EmptyString end) (map S l) = map S (filter (fun j => f (nth j g EmptyString)) l)).
  { induction l as [|j l IHl]; simpl; auto. destruct (f (nth j g EmptyString)); simpl; rewrite IHl; auto. }
  rewrite E. destruct (f x); simpl; [f_equal|]; rewrite map_map; rewrite IH; auto.
Qed.
Lemma share_means_ok : forall g s, length g = length s ->
  share_means g s = Ok (map (fun x => fmean (map (fun j => nth j s None) (members g x))) (pd_unique g)).
Proof.
  intros g s H. unfold share_means. rewrite <- mapM_Ok_map. apply mapM_ext. intros x _. rewrite (select_shares (fun y => String.eqb y x)) by auto. reflexivity.
Qed.
Lemma share_means_length : forall g s, length g <> length s -> g <> [] -> share_means g s = Err IndexError.
Proof.
  intros g rows H Hg. unfold share_means. destruct (pd_unique g) as [|x u] eqn:E.
  - exfalso. destruct g as [|y g]; [congruence|]. assert (K : In y (pd_unique (y :: g))) by (apply pd_unique_In; left; auto). rewrite E in K. auto.
  - cbn [mapM]. unfold select at 1. rewrite map_length. destruct (Nat.eqb_spec (length g) (length rows)); [contradiction|]. reflexivity.
Qed.

(** Sums over the members of the distinct labels are sums over all positions. *)
Lemma Rsum_members : forall (f : nat -> R) g, Rsum (map (fun x => Rsum (map f (members g x))) (pd_unique g)) = Rsum (map f (seq 0 (length g))).
Proof.
  intros f g. unfold members.
  assert (S1 : forall (l : list nat) (us : list string), NoDup us -> (forall j, In j l -> In (nth j g EmptyString) us) ->
    Rsum (map (fun x => Rsum (map f (filter (fun j => String.eqb (nth j g EmptyString) x) l))) us) = Rsum (map f l)).
  { intros l us ND. induction l as [|j l IH]; intros H.
    - cbn [filter map]. rewrite (Rsum_ext _ _ (fun _ => 0%R)) by auto. rewrite Rsum_const. unfold Rsum. simpl. ring.
    - cbn [map]. change (Rsum (f j :: map f l)) with (f j + Rsum (map f l))%R. rewrite <- IH by (intros; apply H; right; auto).
      specialize (H j (or_introl eq_refl)). set (y := nth j g EmptyString) in *.
      rewrite (Rsum_ext _ _ (fun x => (if String.eqb y x then f j else 0) + Rsum (map f (filter (fun j => String.eqb (nth j g EmptyString) x) l)))%R).
      2: { intros x _. cbn [filter]. fold y. destruct (String.eqb y x); cbn [map]; [reflexivity|ring]. }
      rewrite Rsum_map_plus. f_equal. clear IH. induction us as [|u us IHu]; [destruct H|]. inversion ND; subst. cbn [map].
      match goal with |- Rsum (?a :: ?b) = _ => change (Rsum (a :: b)) with (a + Rsum b)%R end.
      destruct (String.eqb_spec y u) as [E|E].
      + assert (Z : Rsum (map (fun x => if String.eqb y x then f j else 0%R) us) = 0%R); [|rewrite Z; ring].
        rewrite (Rsum_ext _ _ (fun _ => 0%R)), Rsum_const; [ring|]. intros x Hx. destruct (String.eqb_spec y x); auto. subst. contradiction.
      + destruct H as [H|H]; [congruence|]. rewrite IHu by auto. ring. }
  apply S1; [apply pd_unique_NoDup|]. intros j Hj. apply in_seq in Hj. apply pd_unique_In. apply nth_In. lia.
Qed.
