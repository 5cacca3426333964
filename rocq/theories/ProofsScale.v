(** * Proofs about uniform scaling. *)
From Coq Require Import Reals String List Arith Bool Lia Lra.
From Verif Require Import Base ModelGroups ModelScale.
Import ListNotations.
Local Open Scope R_scope.

Lemma Rleb_true : forall x y, Rleb x y = true <-> x <= y.
Proof. intros. unfold Rleb. destruct (Rle_dec x y); split; auto; try discriminate; tauto. Qed.
Lemma Rleb_false : forall x y, Rleb x y = false <-> y < x.
Proof. intros. unfold Rleb. destruct (Rle_dec x y); split; auto; try discriminate; lra. Qed.
Lemma Rltb_true : forall x y, Rltb x y = true <-> x < y.
Proof. intros. unfold Rltb. destruct (Rlt_dec x y); split; auto; try discriminate; tauto. Qed.
Lemma Rltb_false : forall x y, Rltb x y = false <-> y <= x.
Proof. intros. unfold Rltb. destruct (Rlt_dec x y); split; auto; try discriminate; lra. Qed.
Lemma Reqb_true : forall x y, Reqb x y = true <-> x = y.
Proof. intros. unfold Reqb. destruct (Req_EM_T x y); split; auto; try discriminate; tauto. Qed.
Lemma Reqb_false : forall x y, Reqb x y = false <-> x <> y.
Proof. intros. unfold Reqb. destruct (Req_EM_T x y); split; auto; try discriminate; tauto. Qed.

(** Evaluate comparisons of concrete numbers in examples. *)
Ltac rdec := repeat (match goal with
  | |- context[Rleb ?a ?b] =>
      first [ replace (Rleb a b) with true by (symmetry; apply Rleb_true; lra)
            | replace (Rleb a b) with false by (symmetry; apply Rleb_false; lra) ]
  | |- context[Rltb ?a ?b] =>
      first [ replace (Rltb a b) with true by (symmetry; apply Rltb_true; lra)
            | replace (Rltb a b) with false by (symmetry; apply Rltb_false; lra) ]
  | |- context[Reqb ?a ?b] =>
      first [ replace (Reqb a b) with true by (symmetry; apply Reqb_true; lra)
            | replace (Reqb a b) with false by (symmetry; apply Reqb_false; lra) ]
  end; cbn -[Rleb Rltb Reqb Rplus Rmult Rminus Rdiv Ropp Rinv]).

(** The pair of bounds that applies to column [j] of an array with [c] columns: the j-th row of
    the list, or its only row. *)
Definition applies (bounds : list (list R)) (c j : nat) (lo up : R) : Prop :=
  (length bounds = c /\ exists r, nth_error bounds j = Some (lo :: up :: r)) \/
  (length bounds <> c /\ exists r, bounds = [lo :: up :: r] /\ (j < c)%nat).

Lemma bounds_columns_nth : forall bounds lu, bounds_columns bounds = Ok lu ->
  length lu = length bounds /\
  forall j lo up, nth_error lu j = Some (lo, up) <->
                  exists r, nth_error bounds j = Some (lo :: up :: r).
Proof.
  intros bounds lu H. unfold bounds_columns in H.
  destruct bounds as [|r0 rs]; [discriminate|].
  destruct (negb _); [discriminate|].
  split; [eapply mapM_Ok_length; eauto|].
  intros j lo up. split.
  - intros Hj.
    destruct (nth_error_lt_Some (r0 :: rs) (i := j)) as [r Hr].
    { rewrite <- (mapM_Ok_length _ _ H). eapply nth_error_Some_lt; eauto. }
    destruct (mapM_Ok_nth _ _ _ H Hr) as (y & Hy & Hn).
    rewrite Hn in Hj. inversion Hj; subst.
    destruct r as [|a [|b r]]; try discriminate. inversion Hy; subst. eauto.
  - intros [r Hr]. destruct (mapM_Ok_nth _ _ _ H Hr) as (y & Hy & Hn).
    inversion Hy; subst. auto.
Qed.

Lemma broadcast_nth : forall A c (v w : list A), broadcast c v = Ok w ->
  length w = c /\
  forall j, nth_error w j =
    if Nat.eqb (length v) c then nth_error v j
    else if (j <? c)%nat then nth_error v 0 else None.
Proof.
  intros A c v w H. unfold broadcast in H.
  destruct (Nat.eqb (length v) c) eqn:E.
  - inversion H; subst. apply Nat.eqb_eq in E. auto.
  - destruct v as [|x [|y v]]; try discriminate. inversion H; subst.
    split; [apply repeat_length|]. intros j. rewrite nth_error_repeat. reflexivity.
Qed.

Lemma applies_broadcast : forall bounds lu c v j lo up,
  bounds_columns bounds = Ok lu -> broadcast c lu = Ok v ->
  (nth_error v j = Some (lo, up) <-> applies bounds c j lo up).
Proof.
  intros bounds lu c v j lo up Hb Hv.
  destruct (bounds_columns_nth _ _ Hb) as [Hl Hn].
  destruct (broadcast_nth _ _ _ _ Hv) as [Hvl Hvn].
  rewrite Hvn. unfold applies. rewrite <- Hl.
  destruct (Nat.eqb (length lu) c) eqn:E.
  - apply Nat.eqb_eq in E. rewrite Hn. intuition.
  - pose proof E as E'. apply Nat.eqb_neq in E'.
    assert (Hs : exists x, lu = [x]).
    { unfold broadcast in Hv. rewrite E in Hv. destruct lu as [|x [|y l]]; try discriminate. eauto. }
    destruct Hs as [x ->]. simpl in Hl.
    destruct bounds as [|r0 [|r1 rs]]; simpl in Hl; try lia.
    split.
    + intros H. right. split; auto.
      destruct (Nat.ltb_spec j c); [|discriminate].
      apply Hn in H. destruct H as [r Hr]. simpl in Hr. inversion Hr; subst. eauto.
    + intros [[H _]|[_ (r & Hr & Hj)]]; [congruence|].
      apply Nat.ltb_lt in Hj. rewrite Hj. inversion Hr; subst. apply Hn. simpl; eauto.
Qed.

Lemma any_illegal_false : forall lu, any_illegal lu = false ->
  forall j lo up, nth_error lu j = Some (lo, up) -> lo < up.
Proof.
  intros lu H j lo up Hj. apply nth_error_In in Hj.
  unfold any_illegal in H.
  assert (G : Rleb up lo = false).
  { destruct (Rleb up lo) eqn:E; auto.
    rewrite <- H. symmetry. apply existsb_exists. exists (lo, up). auto. }
  apply Rleb_false in G. auto.
Qed.

Lemma any_illegal_true : forall lu, any_illegal lu = true <->
  exists j lo up, nth_error lu j = Some (lo, up) /\ up <= lo.
Proof.
  intros lu. unfold any_illegal. rewrite existsb_exists. split.
  - intros ([lo up] & Hin & H). apply In_nth_error in Hin. destruct Hin as [j Hj].
    apply Rleb_true in H. eauto 6.
  - intros (j & lo & up & Hj & H). exists (lo, up). split.
    + eapply nth_error_In; eauto.
    + apply Rleb_true; auto.
Qed.

Lemma inplace_entry : forall B (op : R -> B -> R) m v i j,
  entry (rows (inplace op m v)) i j =
  match entry (rows m) i j, nth_error v j with
  | Some x, Some b => Some (op x b)
  | _, _ => None
  end.
Proof.
  intros. unfold inplace, entry; simpl. rewrite nth_error_map'.
  destruct (nth_error (rows m) i) as [r|]; simpl; auto.
  apply nth_error_map2.
Qed.

Lemma inplace_rows_length : forall B (op : R -> B -> R) m v i r r',
  nth_error (rows m) i = Some r -> nth_error (rows (inplace op m v)) i = Some r' ->
  length r' = min (length r) (length v).
Proof.
  intros B op m v i r r' H H'. unfold inplace in H'; simpl in H'.
  rewrite nth_error_map', H in H'. simpl in H'. inversion H'; subst. apply length_map2.
Qed.

Lemma wf_inplace : forall B (op : R -> B -> R) m v, wf_mat m -> length v = cols m ->
  wf_mat (inplace op m v).
Proof.
  intros B op m v H Hv. unfold wf_mat in *. rewrite Forall_forall in *.
  intros r Hr. unfold inplace in Hr; simpl in Hr. apply in_map_iff in Hr.
  destruct Hr as (r0 & <- & Hr0). simpl. rewrite length_map2, (H _ Hr0), Hv. apply Nat.min_id.
Qed.

Lemma scale_ok_inv : forall m bounds m',
  scale_inplace m bounds = (m', Ok tt) ->
  exists lu v, bounds_columns bounds = Ok lu /\ any_illegal lu = false /\
    broadcast (cols m) lu = Ok v /\
    m' = inplace (fun x b => x + fst b) (inplace (fun x b => x * (snd b - fst b)) m v) v.
Proof.
  intros m bounds m' H. unfold scale_inplace, check_bounds in H.
  destruct (bounds_columns bounds) as [lu|] eqn:E1; simpl in H; [|inversion H].
  destruct (any_illegal lu) eqn:E2; simpl in H; [inversion H|].
  rewrite E2 in H. destruct (broadcast (cols m) lu) as [v|] eqn:E3; [|inversion H].
  inversion H; subst. eauto 8.
Qed.

Lemma unscale_ok_inv : forall m bounds m',
  unscale_inplace m bounds = (m', Ok tt) ->
  exists lu v, bounds_columns bounds = Ok lu /\ any_illegal lu = false /\
    broadcast (cols m) lu = Ok v /\
    m' = inplace (fun x b => x / (snd b - fst b)) (inplace (fun x b => x - fst b) m v) v.
Proof.
  intros m bounds m' H. unfold unscale_inplace in H.
  destruct (bounds_columns bounds) as [lu|] eqn:E1; simpl in H; [|inversion H].
  destruct (any_illegal lu) eqn:E2; simpl in H; [inversion H|].
  destruct (broadcast (cols m) lu) as [v|] eqn:E3; [|inversion H].
  inversion H; subst. eauto 8.
Qed.

(** Scaled entries are the affine images of the originals. *)
Lemma scale_affine : forall m bounds m', wf_mat m ->
  scale_inplace m bounds = (m', Ok tt) ->
  cols m' = cols m /\ length (rows m') = length (rows m) /\ wf_mat m' /\
  (forall j, (j < cols m)%nat -> exists lo up, applies bounds (cols m) j lo up /\ lo < up) /\
  forall i j x lo up, applies bounds (cols m) j lo up ->
    (entry (rows m) i j = Some x -> entry (rows m') i j = Some (lo + x * (up - lo))).
Proof.
  intros m bounds m' Hwf H.
  destruct (scale_ok_inv _ _ _ H) as (lu & v & Hb & Ha & Hv & ->).
  destruct (broadcast_nth _ _ _ _ Hv) as [Hvl _].
  split; [reflexivity|]. split; [simpl; rewrite !map_length; reflexivity|].
  split; [apply wf_inplace; [apply wf_inplace; auto|auto]|]. split.
  - intros j Hj. rewrite <- Hvl in Hj. destruct (nth_error_lt_Some v Hj) as [[lo up] Hn].
    exists lo, up. split; [eapply applies_broadcast; eauto|].
    (* lo < up *)
    apply (applies_broadcast _ _ _ _ _ _ _ Hb Hv) in Hn.
    destruct Hn as [[_ [r Hr]]|[_ (r & Hr & _)]].
    + eapply any_illegal_false; eauto. apply bounds_columns_nth with (j := j) (lo := lo) (up := up) in Hb.
      apply Hb. eauto.
    + eapply any_illegal_false with (j := 0%nat); eauto.
      destruct (bounds_columns_nth _ _ Hb) as [_ Hn]. apply Hn. rewrite Hr. simpl. eauto.
  - intros i j x lo up Hap Hx.
    apply (applies_broadcast _ _ _ _ _ _ _ Hb Hv) in Hap.
    rewrite inplace_entry, inplace_entry, Hx, Hap. simpl. f_equal. ring.
Qed.

Lemma entry_mono : forall lo up x x', lo < up -> x < x' -> lo + x * (up - lo) < lo + x' * (up - lo).
Proof. intros. apply Rplus_lt_compat_l. apply Rmult_lt_compat_r; lra. Qed.

Lemma entry_range : forall lo up x, lo < up -> 0 <= x <= 1 -> lo <= lo + x * (up - lo) <= up.
Proof. intros. split; nra. Qed.

(** ** C03 *)
Lemma scale_in_bounds : forall m bounds m', wf_mat m ->
  scale_inplace m bounds = (m', Ok tt) ->
  cols m' = cols m /\ length (rows m') = length (rows m) /\ wf_mat m' /\
  (forall i j x, entry (rows m) i j = Some x ->
     exists lo up y, applies bounds (cols m) j lo up /\ lo < up /\
       entry (rows m') i j = Some y /\
       (0 <= x <= 1 -> lo <= y <= up) /\ (x = 0 -> y = lo) /\ (x = 1 -> y = up)) /\
  (forall i i' j x x' y y',
     entry (rows m) i j = Some x -> entry (rows m) i' j = Some x' ->
     entry (rows m') i j = Some y -> entry (rows m') i' j = Some y' ->
     (x < x' <-> y < y')).
Proof.
  intros m bounds m' Hwf H.
  destruct (scale_affine _ _ _ Hwf H) as (H1 & H2 & H3 & H4 & H5).
  assert (Hj : forall i j x, entry (rows m) i j = Some x -> (j < cols m)%nat).
  { intros i j x Hx. apply entry_Some in Hx. destruct Hx as (r & Hr & Hx).
    unfold wf_mat in Hwf. rewrite Forall_forall in Hwf.
    rewrite <- (Hwf r) by (eapply nth_error_In; eauto). eapply nth_error_Some_lt; eauto. }
  repeat (split; auto).
  - intros i j x Hx. destruct (H4 j) as (lo & up & Hap & Hlt); [eauto|].
    exists lo, up, (lo + x * (up - lo)). repeat split; auto; intros; subst; nra.
  - intros Hlt. destruct (H4 j) as (lo & up & Hap & Hlu); [eauto|].
    rewrite (H5 _ _ _ _ _ Hap H0) in H7. rewrite (H5 _ _ _ _ _ Hap H6) in H8.
    inversion H7; inversion H8; subst. apply entry_mono; auto.
  - intros Hlt. destruct (H4 j) as (lo & up & Hap & Hlu); [eauto|].
    rewrite (H5 _ _ _ _ _ Hap H0) in H7. rewrite (H5 _ _ _ _ _ Hap H6) in H8.
    inversion H7; inversion H8; subst. nra.
Qed.

(** ** C04 *)
Lemma scale_err_unchanged : forall m bounds m' e,
  scale_inplace m bounds = (m', Err e) -> m' = m.
Proof.
  intros m bounds m' e H. unfold scale_inplace in H.
  destruct (check_bounds bounds); [|inversion H; auto].
  destruct (any_illegal a); [inversion H; auto|].
  destruct (broadcast (cols m) a); inversion H; auto.
Qed.

Lemma unscale_err_unchanged : forall m bounds m' e,
  unscale_inplace m bounds = (m', Err e) -> m' = m.
Proof.
  intros m bounds m' e H. unfold unscale_inplace in H.
  destruct (bounds_columns bounds); [|inversion H; auto].
  destruct (any_illegal a); [inversion H; auto|].
  destruct (broadcast (cols m) a); inversion H; auto.
Qed.

Lemma scale_samples_err_unchanged : forall nq tq m p m' p' e,
  scale_samples nq tq m p = (m', p', Err e) -> m' = m /\ p' = p.
Proof.
  intros nq tq m p m' p' e H. unfold scale_samples in H.
  destruct (p_dists p) as [ds|].
  - destruct (negb _); [inversion H; auto|].
    destruct (nonuniform_scale _ _ _ _ _); inversion H; auto.
  - destruct (scale_inplace m (p_bounds p)) as [m1 [u|e']] eqn:E; inversion H; subst.
    split; auto. eapply scale_err_unchanged; eauto.
Qed.

Definition pairs (bounds : list (list R)) : Prop :=
  Forall (fun r => exists lo up, r = [lo; up]) bounds.

Lemma bounds_columns_pairs : forall bounds, pairs bounds -> bounds <> [] ->
  exists lu, bounds_columns bounds = Ok lu.
Proof.
  intros bounds Hp Hn. unfold bounds_columns. destruct bounds as [|r0 rs]; [congruence|].
  unfold pairs in Hp. rewrite Forall_forall in Hp.
  assert (Hl : forall r, In r (r0 :: rs) -> length r = 2%nat).
  { intros r Hr. destruct (Hp r Hr) as (lo & up & ->). reflexivity. }
  replace (forallb _ (r0 :: rs)) with true.
  - simpl negb. cbv iota. apply mapM_Ok_iff. intros r Hr.
    destruct (Hp r Hr) as (lo & up & ->). eauto.
  - symmetry. apply forallb_forall. intros r Hr.
    rewrite (Hl r Hr), (Hl r0) by (simpl; auto). reflexivity.
Qed.

Lemma scale_rejects_iff : forall m bounds,
  pairs bounds -> bounds <> [] -> length bounds = cols m ->
  (forall m' r, scale_inplace m bounds = (m', r) ->
    (r = Ok tt \/ r = Err ValueError) /\
    (r = Err ValueError <-> exists lo up, In [lo; up] bounds /\ up <= lo)) /\
  (forall m' r, unscale_inplace m bounds = (m', r) ->
    (r = Ok tt \/ r = Err ValueError) /\
    (r = Err ValueError <-> exists lo up, In [lo; up] bounds /\ up <= lo)).
Proof.
  intros m bounds Hp Hn Hl.
  destruct (bounds_columns_pairs _ Hp Hn) as [lu Hlu].
  destruct (bounds_columns_nth _ _ Hlu) as [Hll Hnth].
  assert (Hbc : broadcast (cols m) lu = Ok lu).
  { unfold broadcast. rewrite Hll, Hl, Nat.eqb_refl. reflexivity. }
  assert (Hill : any_illegal lu = true <-> exists lo up, In [lo; up] bounds /\ up <= lo).
  { rewrite any_illegal_true. split.
    - intros (j & lo & up & Hj & Hle). apply Hnth in Hj. destruct Hj as [r Hr].
      assert (Hr' := nth_error_In _ _ Hr).
      unfold pairs in Hp. rewrite Forall_forall in Hp. destruct (Hp _ Hr') as (a & b & Hab).
      inversion Hab; subst. eauto.
    - intros (lo & up & Hin & Hle). apply In_nth_error in Hin. destruct Hin as [j Hj].
      exists j, lo, up. split; auto. apply Hnth. eauto. }
  split; intros m' r H.
  - unfold scale_inplace, check_bounds in H. rewrite Hlu in H. simpl in H.
    destruct (any_illegal lu) eqn:E.
    + inversion H; subst. split; auto. split; auto. intros _. apply Hill; auto.
    + rewrite E, Hbc in H. inversion H; subst. split; auto. split; [discriminate|].
      intros Hx. apply Hill in Hx. congruence.
  - unfold unscale_inplace in H. rewrite Hlu in H. simpl in H.
    destruct (any_illegal lu) eqn:E.
    + inversion H; subst. split; auto. split; auto. intros _. apply Hill; auto.
    + rewrite Hbc in H. inversion H; subst. split; auto. split; [discriminate|].
      intros Hx. apply Hill in Hx. congruence.
Qed.

(** ** C05 *)
Lemma inplace_compose_id : forall (op1 op2 : R -> (R * R) -> R) m v,
  wf_mat m -> length v = cols m ->
  (forall x b, In b v -> op2 (op1 x b) b = x) ->
  inplace op2 (inplace op1 m v) v = m.
Proof.
  intros op1 op2 m v Hwf Hv Hop. destruct m as [c rs]; simpl in *. unfold inplace; simpl.
  f_equal. rewrite map_map. unfold wf_mat in Hwf; simpl in Hwf.
  rewrite <- (map_id rs) at 2. apply map_ext_in. intros r Hr.
  rewrite Forall_forall in Hwf. specialize (Hwf r Hr). rewrite <- Hv in Hwf. clear - Hwf Hop.
  revert r Hwf. induction v as [|b v IH]; intros [|x r] Hl; simpl in *; try discriminate; auto.
  f_equal; auto.
Qed.

Lemma inplace_fuse : forall B (op1 op2 : R -> B -> R) m v,
  inplace op2 (inplace op1 m v) v = inplace (fun x b => op2 (op1 x b) b) m v.
Proof.
  intros. unfold inplace; simpl. f_equal. rewrite map_map. apply map_ext. intros r.
  revert v. induction r; destruct v; simpl; auto. f_equal; auto.
Qed.

Lemma broadcast_lt : forall bounds lu c v, bounds_columns bounds = Ok lu ->
  any_illegal lu = false -> broadcast c lu = Ok v -> forall b, In b v -> fst b < snd b.
Proof.
  intros bounds lu c v Hb Ha Hv [lo up] Hin. simpl.
  apply In_nth_error in Hin. destruct Hin as [j Hj].
  destruct (broadcast_nth _ _ _ _ Hv) as [_ Hn]. rewrite Hn in Hj.
  destruct (Nat.eqb (length lu) c).
  - eapply any_illegal_false; eauto.
  - destruct (j <? c)%nat; [|discriminate]. eapply any_illegal_false; eauto.
Qed.

Lemma scale_unscale_roundtrip : forall m bounds m', wf_mat m ->
  scale_inplace m bounds = (m', Ok tt) -> unscale_inplace m' bounds = (m, Ok tt).
Proof.
  intros m bounds m' Hwf H.
  destruct (scale_ok_inv _ _ _ H) as (lu & v & Hb & Ha & Hv & ->).
  unfold unscale_inplace. rewrite Hb, Ha. simpl cols. rewrite Hv. f_equal.
  pose proof (broadcast_lt _ _ _ _ Hb Ha Hv) as Hlt.
  destruct (broadcast_nth _ _ _ _ Hv) as [Hvl _].
  rewrite inplace_fuse with (m := m), inplace_fuse with (op1 := fun x b => x - fst b).
  apply inplace_compose_id; auto.
  intros x b Hin. specialize (Hlt b Hin). field. lra.
Qed.

Lemma unscale_scale_roundtrip : forall m bounds m', wf_mat m ->
  unscale_inplace m bounds = (m', Ok tt) -> scale_inplace m' bounds = (m, Ok tt).
Proof.
  intros m bounds m' Hwf H.
  destruct (unscale_ok_inv _ _ _ H) as (lu & v & Hb & Ha & Hv & ->).
  unfold scale_inplace, check_bounds. rewrite Hb. simpl. rewrite Ha, Ha. simpl cols.
  rewrite Hv. f_equal.
  pose proof (broadcast_lt _ _ _ _ Hb Ha Hv) as Hlt.
  destruct (broadcast_nth _ _ _ _ Hv) as [Hvl _].
  rewrite inplace_fuse with (m := m), inplace_fuse with (op2 := fun x b => x + fst b).
  apply inplace_compose_id; auto.
  intros x b Hin. specialize (Hlt b Hin). field. lra.
Qed.
