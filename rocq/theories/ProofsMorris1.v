(** * Morris trajectories: proofs about the sampler. *)
From Coq Require Import Reals String List Arith ZArith Bool Lia Lra Permutation.
From Verif Require Import Base Arrays ListFacts ModelGroups ModelScale Stats Sums SpecGroups SpecSobol SpecFF
  ProofsGroups ModelMorris SpecMorris.
Import ListNotations.
Local Open Scope nat_scope.

(** ** Permutations *)
Fixpoint index_of (r : nat) (l : list nat) : nat :=
  match l with [] => 0 | x :: t => if x =? r then 0 else S (index_of r t) end.

Lemma index_of_spec : forall l r, In r l -> nth_error l (index_of r l) = Some r.
Proof.
  induction l; simpl; intros r H; [tauto|].
  destruct (a =? r) eqn:E; [apply Nat.eqb_eq in E; subst; auto|].
  destruct H as [->|H]; [rewrite Nat.eqb_refl in E; discriminate|]. simpl. auto.
Qed.

Lemma perm_facts : forall perm g, Permutation perm (seq 0 g) ->
  length perm = g /\ NoDup perm /\ (forall r, In r perm <-> r < g).
Proof.
  intros perm g H. split; [rewrite (Permutation_length H), seq_length; auto|].
  split; [apply (Permutation_NoDup (Permutation_sym H)), seq_NoDup|].
  intros r. split; intros Hr.
  - apply (Permutation_in _ H) in Hr. apply in_seq in Hr. lia.
  - apply (Permutation_in _ (Permutation_sym H)). apply in_seq. lia.
Qed.

Lemma distinct_count_unique : forall ls G, distinct_count ls G -> G = length (pd_unique ls).
Proof.
  intros ls G (ns & Hn & Hi & <-). apply Permutation_length, NoDup_Permutation; auto.
  - apply pd_unique_NoDup.
  - intros x. rewrite Hi. symmetry. apply pd_unique_In.
Qed.

(** ** Entries of a trajectory *)
(** Index of the group of parameter [j]. *)
Definition grp_is (ls : list string) (j k : nat) : Prop :=
  exists x, nth_error ls j = Some x /\ nth_error (pd_unique ls) k = Some x.

Lemma grp_exists : forall ls j, j < length ls -> exists k, grp_is ls j k /\ k < length (pd_unique ls).
Proof.
  intros ls j Hj. destruct (nth_error_lt_Some ls Hj) as [x Hx].
  assert (Hin : In x (pd_unique ls)) by (apply pd_unique_In; eapply nth_error_In; eauto).
  apply In_nth_error in Hin. destruct Hin as [k Hk]. exists k. split; [exists x; auto|].
  eapply nth_error_Some_lt; eauto.
Qed.

Lemma groups_nth : forall ls m names j k t, compute_groups_matrix ls = Ok (m, names) -> grp_is ls j k ->
  t < length names -> nth t (nth j m []) 0 = if t =? k then 1 else 0.
Proof.
  intros ls m names j k t H (x & Hx & Hk) Ht.
  destruct (compute_groups_matrix_entries _ _ _ H) as (-> & Hl & He).
  destruct (He _ _ Hx) as (r & k' & Hr & Hk' & ->).
  assert (k' = k) by (eapply NoDup_nth_error'; eauto; apply pd_unique_NoDup). subst k'.
  rewrite (nth_error_nth m j [] Hr).
  assert (Q : nth_error (update (repeat 0 (length (pd_unique ls))) k 1) t = Some (if t =? k then 1 else 0)).
  { rewrite nth_error_update, nth_error_repeat, repeat_length.
    assert (k < length (pd_unique ls)) by (eapply nth_error_Some_lt; eauto).
    apply Nat.ltb_lt in H0. apply Nat.ltb_lt in Ht. rewrite H0, Ht.
    destruct (t =? k); auto. }
  rewrite (nth_error_nth _ t 0 Q). auto.
Qed.

Lemma b_star_entry : forall ls m names perm (up : nat -> bool) (xs : nat -> R) delta i j k,
  compute_groups_matrix ls = Ok (m, names) -> Permutation perm (seq 0 (length names)) ->
  j < length ls -> i < length names + 1 -> grp_is ls j k -> k < length names ->
  compute_b_star (length names) (length m) (fun _ _ => 1%R) xs delta
    (fun i j => if j <? i then 1%R else 0%R)
    (fun i j => INR (nth j (nth i m []) 0))
    (fun i j => if nth i perm 0 =? j then 1%R else 0%R)
    (fun i j => if i =? j then (if up i then 1 else -1)%R else 0%R) i j
  = (xs j + if Bool.eqb (nth k perm 0%nat <? i)%nat (up j) then delta else 0)%R.
Proof.
  intros ls m names perm up xs delta i j k H HP Hj Hi Hk Hkl.
  destruct (perm_facts _ _ HP) as (HL & HN & HI).
  destruct (compute_groups_matrix_entries _ _ _ H) as (_ & Hlm & _).
  unfold compute_b_star, mmul.
  assert (Eb : forall r t, r < length names -> t = j ->
     sum (length names) (fun t0 => INR (nth t0 (nth t m []) 0%nat) * (if nth t0 perm 0%nat =? r then 1 else 0))%R
     = if nth k perm 0 =? r then 1%R else 0%R).
  { intros r t Hr ->. rewrite (sum_delta (length names)
      (fun t0 => INR (nth t0 (nth j m []) 0%nat) * (if nth t0 perm 0%nat =? r then 1 else 0))%R k Hkl).
    - rewrite (groups_nth ls m names j k k H Hk Hkl), Nat.eqb_refl. simpl. ring.
    - intros t0 Ht0 Hne. rewrite (groups_nth ls m names j k t0 H Hk Ht0).
      apply Nat.eqb_neq in Hne. rewrite Hne. simpl. ring. }
  assert (Hpk : nth k perm 0 < length names) by (apply HI, nth_In; lia).
  assert (Ec : sum (length names) (fun t => 2 * (if t <? i then 1 else 0) *
       sum (length names) (fun t0 => INR (nth t0 (nth j m []) 0%nat) * (if nth t0 perm 0%nat =? t then 1 else 0)))%R
     = if (nth k perm 0 <? i) then 2%R else 0%R).
  { rewrite (sum_delta (length names) (fun t => 2 * (if t <? i then 1 else 0) *
       sum (length names) (fun t0 => INR (nth t0 (nth j m []) 0%nat) * (if nth t0 perm 0%nat =? t then 1 else 0)))%R
       (nth k perm 0) Hpk).
    - rewrite (Eb _ j Hpk eq_refl), Nat.eqb_refl. destruct (nth k perm 0 <? i); ring.
    - intros t Ht Hne. rewrite (Eb _ j Ht eq_refl). apply Nat.eqb_neq in Hne. rewrite Nat.eqb_sym, Hne. ring. }
  rewrite (sum_delta (length m) _ j).
  - rewrite Ec, Nat.eqb_refl. destruct (nth k perm 0 <? i), (up j); simpl; field.
  - rewrite Hlm. auto.
  - intros t Ht Hne. apply Nat.eqb_neq in Hne. rewrite Hne. ring.
Qed.

(** ** The grid *)
Lemma linspace0_get : forall b n i, i < n ->
  get (linspace0 b n) i = Ok (if n =? 1 then 0 else INR i * (b / (INR n - 1)))%R.
Proof.
  intros. unfold get, linspace0. rewrite nth_error_map', nth_error_seq.
  apply Nat.ltb_lt in H. rewrite H. simpl. auto.
Qed.

Definition grid_value (levels s : nat) : R :=
  (if (levels / 2 =? 1)%nat then 0 else INR s * ((1 - step levels) / (INR (levels / 2) - 1)))%R.

Lemma levels_facts : forall levels, 2 <= levels ->
  levels / 2 <> 0 /\ (INR levels - 1 > 0)%R /\ (0 < step levels <= 1)%R.
Proof.
  intros levels H. split; [|].
  - intros E. apply Nat.div_small_iff in E; lia.
  - assert (H2 : (2 <= INR levels)%R) by (change 2%R with (INR 2); apply le_INR; auto).
    split; [lra|]. unfold step. split.
    + apply Rdiv_lt_0_compat; lra.
    + apply (Rmult_le_reg_r (2 * (INR levels - 1))); [lra|]. unfold Rdiv.
      rewrite Rmult_assoc, Rinv_l by lra. lra.
Qed.

Lemma compute_delta_ok : forall levels, 2 <= levels -> compute_delta levels = Ok (step levels).
Proof. intros. unfold compute_delta. destruct (Nat.eqb_spec levels 1); [lia|auto]. Qed.

Lemma grid_range : forall levels s, 2 <= levels -> s < levels / 2 ->
  (0 <= grid_value levels s <= 1 - step levels)%R.
Proof.
  intros levels s H Hs. destruct (levels_facts _ H) as (H0 & H1 & H2). unfold grid_value.
  destruct (Nat.eqb_spec (levels / 2) 1); [lra|].
  assert (Hn : 2 <= levels / 2) by lia.
  assert (Hr : (2 <= INR (levels / 2))%R) by (change 2%R with (INR 2); apply le_INR; auto).
  assert (Hs' : (INR s <= INR (levels / 2) - 1)%R).
  { replace (INR (levels / 2) - 1)%R with (INR (levels / 2 - 1)) by (rewrite minus_INR by lia; simpl; lra).
    apply le_INR. lia. }
  assert (0 <= INR s)%R by apply pos_INR.
  set (q := ((1 - step levels) / (INR (levels / 2) - 1))%R).
  assert (0 <= q)%R by (unfold q; apply Rdiv_nonneg; lra).
  assert (Eq : ((INR (levels / 2) - 1) * q = 1 - step levels)%R) by (unfold q; field; lra).
  split; [apply Rmult_le_pos; auto|]. rewrite <- Eq. apply Rmult_le_compat_r; auto.
Qed.

Lemma grid_even : forall n s, 1 <= n -> s < n -> grid_value (2 * n) s = (INR s / (INR (2 * n) - 1))%R.
Proof.
  intros n s Hn Hs. unfold grid_value.
  assert (E : 2 * n / 2 = n) by (rewrite Nat.mul_comm; apply Nat.div_mul; lia). rewrite E.
  destruct (Nat.eqb_spec n 1) as [->|Hne].
  - assert (s = 0) by lia. subst. simpl. unfold Rdiv. ring.
  - assert (Hr : (2 <= INR n)%R) by (change 2%R with (INR 2); apply le_INR; lia).
    unfold step. rewrite mult_INR. simpl (INR 2). field. lra.
Qed.

(** ** One trajectory *)
Definition traj_point (levels : nat) (perm : list nat) (d : draw) (grp : nat -> nat) (i j : nat) : R :=
  (grid_value levels (t_start d j)
   + if Bool.eqb (nth (grp j) perm 0%nat <? i)%nat (t_up d j) then step levels else 0)%R.

Lemma generate_trajectory_eq : forall ls m names levels d, 2 <= levels ->
  compute_groups_matrix ls = Ok (m, names) -> valid_draw (length names) (levels / 2) d ->
  exists grp, (forall j, j < length ls -> grp_is ls j (grp j) /\ grp j < length names) /\
    generate_trajectory m (length names) levels d
    = Ok (tab (length names + 1) (length ls) (traj_point levels (t_perm d) d grp)).
Proof.
  intros ls m names levels d Hlv H [HP Hst].
  destruct (compute_groups_matrix_entries _ _ _ H) as (Hnm & Hlm & _).
  set (grp := fun j => match nth_error ls j with
                       | Some x => match find (fun k => match nth_error names k with
                                                        | Some y => String.eqb x y | None => false end)
                                              (seq 0 (length names)) with
                                   | Some k => k | None => 0 end
                       | None => 0 end).
  assert (Hgrp : forall j, j < length ls -> grp_is ls j (grp j) /\ grp j < length names).
  { intros j Hj. destruct (grp_exists ls j Hj) as (k & (x & Hx & Hk) & Hkl).
    rewrite <- Hnm in Hk, Hkl. unfold grp, grp_is. rewrite Hx.
    destruct (find _ _) as [k'|] eqn:Ef.
    - apply find_some in Ef. destruct Ef as [Hin E]. apply in_seq in Hin.
      destruct (nth_error names k') as [y|] eqn:Ey; [|discriminate].
      apply String.eqb_eq in E. subst y. split; [exists x; rewrite <- Hnm; auto | lia].
    - exfalso. apply (find_none _ _ Ef k) in Hkl || idtac.
      assert (Hin : In k (seq 0 (length names))) by (apply in_seq; lia).
      pose proof (find_none _ _ Ef k Hin) as Q. simpl in Q. rewrite Hk, String.eqb_refl in Q. discriminate. }
  exists grp. split; auto.
  unfold generate_trajectory. rewrite (compute_delta_ok _ Hlv). cbn [bind].
  destruct (levels_facts _ Hlv) as (Hz & _ & _). apply Nat.eqb_neq in Hz. rewrite Hz. cbn [andb].
  rewrite (@mapM_ext nat R _ (fun j => Ok (grid_value levels (t_start d j)))).
  2: { intros j _. rewrite linspace0_get by auto. reflexivity. }
  rewrite mapM_Ok_map. cbn [bind]. f_equal. rewrite Hlm. apply tab_ext. intros i j Hi Hj.
  destruct (Hgrp j Hj) as [Hg Hgl].
  assert (Hlm' : length ls = length m) by auto. rewrite Hlm'.
  rewrite (b_star_entry ls m names (t_perm d) (t_up d) _ (step levels) i j (grp j) H HP Hj Hi Hg Hgl).
  unfold traj_point. f_equal.
  apply nth_error_nth. rewrite nth_error_map', nth_error_seq.
  assert (Hjb : j <? length m = true) by (apply Nat.ltb_lt; lia). rewrite Hjb. reflexivity.
Qed.

Lemma bool_flip : forall (b c : bool), Bool.eqb b c = negb (Bool.eqb (negb b) c).
Proof. destruct b, c; auto. Qed.

Lemma traj_is_trajectory : forall ls names levels d grp,
  names = pd_unique ls -> Permutation (t_perm d) (seq 0 (length names)) ->
  (forall j, j < length ls -> grp_is ls j (grp j) /\ grp j < length names) ->
  trajectory ls (fun _ => step levels)
    (tab (length names + 1) (length ls) (traj_point levels (t_perm d) d grp)).
Proof.
  intros ls names levels d grp Hn HP Hgrp.
  destruct (perm_facts _ _ HP) as (HL & HN & HI).
  set (order := map (fun r => nth (index_of r (t_perm d)) names ""%string) (seq 0 (length names))).
  assert (Hidx : forall r, r < length names -> nth_error (t_perm d) (index_of r (t_perm d)) = Some r).
  { intros r Hr. apply index_of_spec, HI; auto. }
  assert (Hidl : forall r, r < length names -> index_of r (t_perm d) < length names).
  { intros r Hr. rewrite <- HL. eapply nth_error_Some_lt; eauto. }
  assert (Hord : forall r, r < length names -> nth_error order r = nth_error names (index_of r (t_perm d))).
  { intros r Hr. unfold order. rewrite nth_error_map', nth_error_seq.
    assert (E : r <? length names = true) by (apply Nat.ltb_lt; auto). rewrite E. cbn [option_map].
    destruct (nth_error_lt_Some names (Hidl r Hr)) as [x Hx]. simpl.
    rewrite Hx, (nth_error_nth _ _ _ Hx). auto. }
  assert (Lo : length order = length names) by (unfold order; rewrite map_length, seq_length; auto).
  assert (HNn : NoDup names) by (subst names; apply pd_unique_NoDup).
  exists order. split; [|split; [|split; [|split]]].
  - apply NoDup_nth_error. intros r r' Hr E. rewrite Lo in Hr.
    assert (Hr' : r' < length names).
    { rewrite <- Lo. apply nth_error_Some. rewrite <- E. apply nth_error_Some. lia. }
    rewrite (Hord r Hr), (Hord r' Hr') in E.
    assert (Ei : index_of r (t_perm d) = index_of r' (t_perm d)).
    { apply (proj1 (NoDup_nth_error names) HNn); auto. }
    pose proof (Hidx r Hr) as A. rewrite Ei, (Hidx r' Hr') in A. congruence.
  - intros x. rewrite <- (pd_unique_In ls x), <- Hn. split; intros Hx.
    + apply In_nth_error in Hx. destruct Hx as [r Hr].
      assert (r < length names) by (rewrite <- Lo; eapply nth_error_Some_lt; eauto).
      rewrite (Hord r) in Hr by auto. eapply nth_error_In; eauto.
    + apply In_nth_error in Hx. destruct Hx as [k Hk].
      assert (Hkl : k < length names) by (eapply nth_error_Some_lt; eauto).
      destruct (nth_error_lt_Some (t_perm d) (i := k)) as [r Hr]; [lia|].
      assert (Hrl : r < length names) by (apply HI; eapply nth_error_In; eauto).
      assert (Ei : index_of r (t_perm d) = k).
      { apply (proj1 (NoDup_nth_error (t_perm d)) HN); [rewrite HL; auto|]. rewrite Hr. auto. }
      apply nth_error_In with (n := r). rewrite (Hord r Hrl), Ei. auto.
  - rewrite tab_length, Lo. auto.
  - apply tab_widths.
  - intros r x a b Hx Ha Hb.
    assert (Hr : r < length names) by (rewrite <- Lo; eapply nth_error_Some_lt; eauto).
    rewrite (Hord r Hr) in Hx.
    assert (Ha' : nth_error (tab (length names + 1) (length ls) (traj_point levels (t_perm d) d grp)) r
       = Some (map (fun j => traj_point levels (t_perm d) d grp r j) (seq 0 (length ls)))).
    { unfold tab. rewrite nth_error_map_seq. destruct (Nat.ltb_spec r (length names + 1)); [auto|lia]. }
    assert (Hb' : nth_error (tab (length names + 1) (length ls) (traj_point levels (t_perm d) d grp)) (r + 1)
       = Some (map (fun j => traj_point levels (t_perm d) d grp (r + 1) j) (seq 0 (length ls)))).
    { unfold tab. rewrite nth_error_map_seq. destruct (Nat.ltb_spec (r + 1) (length names + 1)); [auto|lia]. }
    rewrite Ha' in Ha. rewrite Hb' in Hb. inversion Ha; inversion Hb; subst a b. clear Ha Hb Ha' Hb'.
    split; [rewrite !map_length; auto|].
    intros j v Hj. rewrite nth_error_map_seq in Hj. rewrite nth_error_map_seq.
    destruct (Nat.ltb_spec j (length ls)) as [Hjl|]; [|discriminate].
    injection Hj as <-.
    destruct (Hgrp j Hjl) as [(y & Hy & Hyn) Hg]. rewrite <- Hn in Hyn.
    assert (Hpj : nth_error (t_perm d) (grp j) = Some (nth (grp j) (t_perm d) 0)).
    { apply nth_error_nth'. lia. }
    split.
    + intros Hs. rewrite Hy in Hs. injection Hs as ->.
      assert (Eg : grp j = index_of r (t_perm d)).
      { apply (proj1 (NoDup_nth_error names) HNn); auto. congruence. }
      assert (Ep : nth (grp j) (t_perm d) 0 = r).
      { rewrite Eg. apply nth_error_nth. auto. }
      unfold traj_point. rewrite Ep, Nat.ltb_irrefl.
      assert (E1 : r <? r + 1 = true) by (apply Nat.ltb_lt; lia). rewrite E1.
      destruct (t_up d j); cbn [Bool.eqb]; [left|right]; f_equal; lra.
    + intros Hs.
      assert (Ep : nth (grp j) (t_perm d) 0 <> r).
      { intros Ep. apply Hs.
        assert (Eg : grp j = index_of r (t_perm d)).
        { apply (proj1 (NoDup_nth_error (t_perm d)) HN); [lia|]. rewrite (Hidx r Hr), Hpj, Ep. auto. }
        rewrite Hy. congruence. }
      unfold traj_point. f_equal. f_equal.
      assert (E : (nth (grp j) (t_perm d) 0 <? r + 1) = (nth (grp j) (t_perm d) 0 <? r)).
      { destruct (Nat.ltb_spec (nth (grp j) (t_perm d) 0) (r + 1)),
          (Nat.ltb_spec (nth (grp j) (t_perm d) 0) r); auto; lia. }
      rewrite E. auto.
Qed.
