(** * The indices of the example in oakley2004.py, enclosed by integer arithmetic. *)
From Coq Require Import Reals List Arith ZArith Lia Lra Psatz.
From Coquelicot Require Import Coquelicot.
From Verif Require Import Base Stats ModelOakley SpecOakley ProofsOakley ProofsOakley2 ProofsOakley3 ProofsOakley4 ProofsOakley5.
Import ListNotations.
Local Open Scope R_scope.

(** [c0 + c1 v + c2 v^2 + c4 v^4]. *)
Record lin := mkLin { c0 : Z; c1 : Z; c2 : Z; c4 : Z }.
Definition linR (c : lin) (v : R) : R := IZR (c0 c) + IZR (c1 c) * v + IZR (c2 c) * v ^ 2 + IZR (c4 c) * v ^ 4.
Definition ladd (a b : lin) : lin := mkLin (c0 a + c0 b) (c1 a + c1 b) (c2 a + c2 b) (c4 a + c4 b).
Definition lscal (k : Z) (a : lin) : lin := mkLin (k * c0 a) (k * c1 a) (k * c2 a) (k * c4 a).

Lemma linR_add : forall a b v, linR (ladd a b) v = linR a v + linR b v.
Proof. intros [] [] v. unfold linR, ladd. cbn [c0 c1 c2 c4]. rewrite !plus_IZR. ring. Qed.
Lemma linR_scal : forall k a v, linR (lscal k a) v = IZR k * linR a v.
Proof. intros k [] v. unfold linR, lscal. cbn [c0 c1 c2 c4]. rewrite !mult_IZR. ring. Qed.

(** A lower bound for [v] between [l/k] and [h/k]. *)
Definition lowZ (c : lin) (l h k : Z) : Z :=
  let lo x p q := if (0 <=? x)%Z then (x * p)%Z else (x * q)%Z in
  (c0 c * k ^ 4 + lo (c1 c) l h * k ^ 3 + lo (c2 c) (l ^ 2) (h ^ 2) * k ^ 2 + lo (c4 c) (l ^ 4) (h ^ 4))%Z.

Lemma lowZ_le : forall c l h k v, (0 <= l)%Z -> (0 < k)%Z -> IZR l / IZR k <= v <= IZR h / IZR k ->
  IZR (lowZ c l h k) <= linR c v * IZR k ^ 4.
Proof.
  intros [a b c d] l h k v L K [H1 H2]. apply IZR_lt in K. apply IZR_le in L. unfold lowZ, linR. cbn [c0 c1 c2 c4].
  set (y := v * IZR k).
  assert (Y1 : IZR l <= y). { unfold y. apply (Rmult_le_compat_r (IZR k)) in H1; [|lra]. unfold Rdiv in H1. rewrite Rmult_assoc, Rinv_l in H1 by lra. lra. }
  assert (Y2 : y <= IZR h). { unfold y. apply (Rmult_le_compat_r (IZR k)) in H2; [|lra]. unfold Rdiv in H2. rewrite Rmult_assoc, Rinv_l in H2 by lra. lra. }
  assert (G : forall x p q z, IZR p <= z <= IZR q -> IZR (if (0 <=? x)%Z then (x * p)%Z else (x * q)%Z) <= IZR x * z).
  { intros x p q z [Z1 Z2]. destruct (Z.leb_spec 0 x) as [X|X]; rewrite mult_IZR.
    - apply IZR_le in X. apply Rmult_le_compat_l; auto.
    - apply IZR_lt in X. nra. }
  assert (P2 : IZR (l ^ 2) <= y ^ 2 <= IZR (h ^ 2)).
  { rewrite <- !(pow_IZR _ 2). split; apply pow_incr; lra. }
  assert (P4 : IZR (l ^ 4) <= y ^ 4 <= IZR (h ^ 4)).
  { rewrite <- !(pow_IZR _ 4). split; apply pow_incr; lra. }
  pose proof (G b l h y (conj Y1 Y2)) as B1. pose proof (G c _ _ _ P2) as B2. pose proof (G d _ _ _ P4) as B4.
  rewrite !plus_IZR, !mult_IZR. change (IZR (k ^ 4)) with (IZR (k ^ Z.of_nat 4)); change (IZR (k ^ 3)) with (IZR (k ^ Z.of_nat 3)); change (IZR (k ^ 2)) with (IZR (k ^ Z.of_nat 2)). rewrite <- !pow_IZR.
  replace ((IZR a + IZR b * v + IZR c * v ^ 2 + IZR d * v ^ 4) * IZR k ^ 4) with (IZR a * IZR k ^ 4 + IZR b * y * IZR k ^ 3 + IZR c * y ^ 2 * IZR k ^ 2 + IZR d * y ^ 4) by (unfold y; ring).
  assert (K3 : 0 < IZR k ^ 3) by (apply pow_lt; auto). assert (K2 : 0 < IZR k ^ 2) by (apply pow_lt; auto).
  apply Rplus_le_compat; auto. apply Rplus_le_compat; [|apply Rmult_le_compat_r; lra]. apply Rplus_le_compat; [lra|]. apply Rmult_le_compat_r; lra.
Qed.

Lemma lin_pos : forall c l h k v, (0 <= l)%Z -> (0 < k)%Z -> IZR l / IZR k <= v <= IZR h / IZR k -> (0 <? lowZ c l h k)%Z = true -> 0 < linR c v.
Proof.
  intros c l h k v L K H P. apply Z.ltb_lt in P. apply IZR_lt in P. pose proof (lowZ_le c l h k v L K H) as B. apply IZR_lt in K.
  assert (0 < IZR k ^ 4) by (apply pow_lt; auto). assert (X : 0 < linR c v * IZR k ^ 4) by lra.
  apply (Rmult_lt_reg_r (IZR k ^ 4)); auto. lra.
Qed.

(** The example, in units. *)
Definition zentry (i j : nat) : Z := nth j (nth i oakley_M_units []) 0%Z.
Definition za (k i : nat) : Z := nth i (nth k oakley_A_units []) 0%Z.

Lemma entry_units : forall i j, entry oakley_M i j = IZR (zentry i j) / 100000.
Proof.
  intros i j. unfold entry, oakley_M, zentry. change (@nil R) with (map (fun z => IZR z / 100000) []). rewrite map_nth.
  replace 0 with ((fun z => IZR z / 100000) 0%Z) at 1 by (unfold Rdiv; ring). rewrite (map_nth (fun z => IZR z / 100000)). reflexivity.
Qed.
Lemma a_units : forall k i, nth i (nth k oakley_A []) 0 = IZR (za k i) / 10000.
Proof.
  intros k i. unfold oakley_A, za. change (@nil R) with (map (fun z => IZR z / 10000) []). rewrite map_nth.
  replace 0 with ((fun z => IZR z / 10000) 0%Z) at 1 by (unfold Rdiv; ring). rewrite (map_nth (fun z => IZR z / 10000)). reflexivity.
Qed.

(** With the square of the deviation equal to [N / D], in units of [1 / (2 10^10 D^2)]. *)
Definition part_lin (N D : Z) (i : nat) : lin :=
  let P1 := za 0 i in let P2 := za 1 i in let P3 := za 2 i in let m := zentry i i in
  mkLin (200 * P1 * P1 * N * D + 100 * (P2 * P2 + P3 * P3) * D * D + 4 * m * m * N * N)
        (400 * P1 * P2 * N * D - 40 * P3 * m * N * N) (- (200 * P3 * P3 * D * D)) (100 * (P3 * P3 - P2 * P2) * D * D).
Definition zover (n : nat) (f : nat -> Z) : Z := fold_right Z.add 0%Z (map f (seq 0 n)).
Definition total_lin (N D : Z) : lin :=
  ladd (fold_right ladd (mkLin 0 0 0 0) (map (part_lin N D) (seq 0 15)))
       (mkLin (2 * N * N * zover 15 (fun j => zover j (fun i => (zentry i j + zentry j i) ^ 2))%Z) 0 0 0).

Definition ex_part (s : R) (i : nat) : R :=
  normal_part s (nth i (nth 0 oakley_A []) 0) (nth i (nth 1 oakley_A []) 0) (nth i (nth 2 oakley_A []) 0) (entry oakley_M i i).
Definition ex_total (s : R) : R := over 15 (ex_part s) + s ^ 4 * over_pairs 15 (fun i j => (entry oakley_M i j + entry oakley_M j i) ^ 2).

Section Units.
Variables (N D : Z) (s : R).
Hypothesis D_pos : (0 < D)%Z.
Hypothesis s_sq : s ^ 2 = IZR N / IZR D.
Let v := exp (- (s ^ 2 / 2)).
Let U := 20000000000 * IZR D ^ 2.

Lemma U_pos : 0 < U.
Proof. apply IZR_lt in D_pos. unfold U. assert (0 < IZR D ^ 2) by (apply pow_lt; auto). lra. Qed.

Lemma part_units : forall i, ex_part s i * U = linR (part_lin N D i) v.
Proof.
  intros i. unfold ex_part, normal_part. rewrite !a_units, entry_units. apply IZR_lt in D_pos.
  assert (E2 : exp (- s ^ 2) = v ^ 2). { replace (v ^ 2) with (v * v) by ring. unfold v. rewrite <- exp_plus. f_equal. field. }
  assert (E4 : exp (- (2 * s ^ 2)) = v ^ 4).
  { replace (v ^ 4) with (v ^ 2 * v ^ 2) by ring. rewrite <- E2, <- exp_plus. f_equal. ring. }
  rewrite E2, E4. fold v. replace (s ^ 4) with (s ^ 2 * s ^ 2) by ring. rewrite s_sq. unfold linR, part_lin, U. cbn [c0 c1 c2 c4].
  generalize (za 0 i) (za 1 i) (za 2 i) (zentry i i). intros P1 P2 P3 m.
  rewrite ?plus_IZR, ?minus_IZR, ?opp_IZR. rewrite ?mult_IZR, ?plus_IZR, ?minus_IZR, ?mult_IZR. field. lra.
Qed.

Lemma over_scal : forall n f c, over n f * c = over n (fun i => f i * c).
Proof. induction n as [|n IH]; intros; [unfold over; simpl; ring|]. rewrite !over_shift, <- IH. ring. Qed.
Lemma zover_R : forall n f, IZR (zover n f) = over n (fun i => IZR (f i)).
Proof.
  intros n f. unfold zover, over. induction (seq 0 n) as [|i l IH]; [reflexivity|]. cbn [map fold_right]. rewrite plus_IZR, IH. reflexivity.
Qed.
Lemma lin_over : forall (f : nat -> lin) n x, linR (fold_right ladd (mkLin 0 0 0 0) (map f (seq 0 n))) x = over n (fun i => linR (f i) x).
Proof.
  intros f n x. unfold over. induction (seq 0 n) as [|i l IH]; [unfold linR; simpl; ring|]. cbn [map fold_right]. rewrite linR_add, IH. reflexivity.
Qed.

Lemma total_units : ex_total s * U = linR (total_lin N D) v.
Proof.
  unfold ex_total, total_lin. rewrite linR_add, lin_over, Rmult_plus_distr_r, over_scal. f_equal.
  - apply over_ext. intros i _. apply part_units.
  - apply IZR_lt in D_pos. unfold linR. cbn [c0 c1 c2 c4]. rewrite !mult_IZR. rewrite zover_R.
    assert (P : over_pairs 15 (fun i j => (entry oakley_M i j + entry oakley_M j i) ^ 2) * 10000000000
      = over 15 (fun j => IZR (zover j (fun i => (zentry i j + zentry j i) ^ 2)%Z))).
    { unfold over_pairs. rewrite over_scal. apply over_ext. intros j _. rewrite zover_R, over_scal. apply over_ext. intros i _.
      rewrite !entry_units. rewrite <- (pow_IZR _ 2), plus_IZR. field. }
    rewrite <- P. replace (s ^ 4) with (s ^ 2 * s ^ 2) by ring. rewrite s_sq. unfold U. 
    generalize (over_pairs 15 (fun i j => (entry oakley_M i j + entry oakley_M j i) ^ 2)). intros p. field. lra.
Qed.

Variables l h k : Z.
Hypothesis l_pos : (0 <= l)%Z.
Hypothesis k_pos : (0 < k)%Z.
Hypothesis v_range : IZR l / IZR k <= v <= IZR h / IZR k.

Lemma total_pos : (0 <? lowZ (total_lin N D) l h k)%Z = true -> 0 < ex_total s.
Proof.
  intros H. pose proof (lin_pos _ l h k v l_pos k_pos v_range H) as P. rewrite <- total_units in P. pose proof U_pos as UP.
  apply (Rmult_lt_reg_r U); auto. lra.
Qed.

(** [A / B < index] and [index < A / B]. *)
Lemma index_above : forall i A B, (0 < B)%Z -> (0 <? lowZ (total_lin N D) l h k)%Z = true ->
  (0 <? lowZ (ladd (lscal B (part_lin N D i)) (lscal (- A) (total_lin N D))) l h k)%Z = true -> IZR A / IZR B < ex_part s i / ex_total s.
Proof.
  intros i A B HB HT H. pose proof (total_pos HT) as TP. pose proof U_pos as UP. apply IZR_lt in HB.
  pose proof (lin_pos _ l h k v l_pos k_pos v_range H) as P. rewrite linR_add, !linR_scal, <- part_units, <- total_units, opp_IZR in P.
  assert (Q : 0 < IZR B * ex_part s i - IZR A * ex_total s). { apply (Rmult_lt_reg_r U); auto. lra. }
  apply (Rmult_lt_reg_r (IZR B * ex_total s)); [apply Rmult_lt_0_compat; lra|].
  replace (IZR A / IZR B * (IZR B * ex_total s)) with (IZR A * ex_total s) by (field; lra).
  replace (ex_part s i / ex_total s * (IZR B * ex_total s)) with (IZR B * ex_part s i) by (field; lra). lra.
Qed.
Lemma index_below : forall i A B, (0 < B)%Z -> (0 <? lowZ (total_lin N D) l h k)%Z = true ->
  (0 <? lowZ (ladd (lscal (- B) (part_lin N D i)) (lscal A (total_lin N D))) l h k)%Z = true -> ex_part s i / ex_total s < IZR A / IZR B.
Proof.
  intros i A B HB HT H. pose proof (total_pos HT) as TP. pose proof U_pos as UP. apply IZR_lt in HB.
  pose proof (lin_pos _ l h k v l_pos k_pos v_range H) as P. rewrite linR_add, !linR_scal, <- part_units, <- total_units, opp_IZR in P.
  assert (Q : 0 < - IZR B * ex_part s i + IZR A * ex_total s). { apply (Rmult_lt_reg_r U); auto. lra. }
  apply (Rmult_lt_reg_r (IZR B * ex_total s)); [apply Rmult_lt_0_compat; lra|].
  replace (IZR A / IZR B * (IZR B * ex_total s)) with (IZR A * ex_total s) by (field; lra).
  replace (ex_part s i / ex_total s * (IZR B * ex_total s)) with (IZR B * ex_part s i) by (field; lra). lra.
Qed.
End Units.

Lemma quoted_units : forall i, nth i oakley_quoted 0 = IZR (nth i oakley_quoted_units 0%Z) / 1000000.
Proof.
  intros i. unfold oakley_quoted. replace 0 with ((fun z => IZR z / 1000000) 0%Z) at 1 by (unfold Rdiv; ring). rewrite (map_nth (fun z => IZR z / 1000000)). reflexivity.
Qed.

Definition lo1 : Z := 606530659711. Definition hi1 : Z := 606530659714. Definition sc1 : Z := 1000000000000.
Definition lo2 : Z := 705665. Definition hi2 : Z := 705668. Definition sc2 : Z := 1000000.

Lemma v1 : IZR lo1 / IZR sc1 <= exp (- (1 ^ 2 / 2)) <= IZR hi1 / IZR sc1.
Proof. replace (1 ^ 2 / 2) with (1 / 2) by field. exact exp_half. Qed.
Lemma v2 : IZR lo2 / IZR sc2 <= exp (- (oakley_sd ^ 2 / 2)) <= IZR hi2 / IZR sc2.
Proof. replace (oakley_sd ^ 2 / 2) with (27889 / 80000) by (unfold oakley_sd; field). exact exp_quarter. Qed.
Lemma sd_sq : oakley_sd ^ 2 = IZR 27889 / IZR 40000.
Proof. unfold oakley_sd. field. Qed.

Lemma unit_total : 0 < ex_total 1.
Proof. apply (total_pos 1 1 1 ltac:(lia) ltac:(lra) lo1 hi1 sc1 ltac:(discriminate) ltac:(reflexivity) v1). vm_compute. reflexivity. Qed.
Lemma sd_total : 0 < ex_total oakley_sd.
Proof. apply (total_pos 27889 40000 oakley_sd ltac:(lia) sd_sq lo2 hi2 sc2 ltac:(discriminate) ltac:(reflexivity) v2). vm_compute. reflexivity. Qed.

Lemma unit_indices : forall i, (i < 15)%nat -> Rabs (ex_part 1 i / ex_total 1 - nth i oakley_quoted 0) < 2 / 100000.
Proof.
  intros i Hi. rewrite quoted_units. set (Q := nth i oakley_quoted_units 0%Z).
  assert (C : forall j, (j < 15)%nat ->
     (0 <? lowZ (ladd (lscal 1000000 (part_lin 1 1 j)) (lscal (- (nth j oakley_quoted_units 0 - 20)) (total_lin 1 1))) lo1 hi1 sc1)%Z = true
  /\ (0 <? lowZ (ladd (lscal (- 1000000) (part_lin 1 1 j)) (lscal (nth j oakley_quoted_units 0 + 20) (total_lin 1 1))) lo1 hi1 sc1)%Z = true).
  { assert (F : forallb (fun j => andb
       (0 <? lowZ (ladd (lscal 1000000 (part_lin 1 1 j)) (lscal (- (nth j oakley_quoted_units 0 - 20)) (total_lin 1 1))) lo1 hi1 sc1)%Z
       (0 <? lowZ (ladd (lscal (- 1000000) (part_lin 1 1 j)) (lscal (nth j oakley_quoted_units 0 + 20) (total_lin 1 1))) lo1 hi1 sc1)%Z) (seq 0 15) = true)
      by (vm_compute; reflexivity).
    rewrite forallb_forall in F. intros j Hj. apply Bool.andb_true_iff. apply F. apply in_seq. lia. }
  destruct (C i Hi) as [C1 C2]. fold Q in C1, C2.
  assert (T : (0 <? lowZ (total_lin 1 1) lo1 hi1 sc1)%Z = true) by (vm_compute; reflexivity).
  pose proof (index_above 1 1 1 ltac:(lia) ltac:(lra) lo1 hi1 sc1 ltac:(discriminate) ltac:(reflexivity) v1 i (Q - 20) 1000000 ltac:(lia) T C1) as A.
  pose proof (index_below 1 1 1 ltac:(lia) ltac:(lra) lo1 hi1 sc1 ltac:(discriminate) ltac:(reflexivity) v1 i (Q + 20) 1000000 ltac:(lia) T C2) as B.
  rewrite minus_IZR in A. rewrite plus_IZR in B. apply Rabs_def1; lra.
Qed.

Lemma sd_indices : forall i, (10 <= i < 15)%nat -> nth i oakley_quoted 0 + 1 / 100 < ex_part oakley_sd i / ex_total oakley_sd.
Proof.
  intros i Hi. rewrite quoted_units. set (Q := nth i oakley_quoted_units 0%Z).
  assert (C : forall j, (10 <= j < 15)%nat ->
     (0 <? lowZ (ladd (lscal 1000000 (part_lin 27889 40000 j)) (lscal (- (nth j oakley_quoted_units 0 + 10000)) (total_lin 27889 40000))) lo2 hi2 sc2)%Z = true).
  { assert (F : forallb (fun j =>
       (0 <? lowZ (ladd (lscal 1000000 (part_lin 27889 40000 j)) (lscal (- (nth j oakley_quoted_units 0 + 10000)) (total_lin 27889 40000))) lo2 hi2 sc2)%Z) (seq 10 5) = true)
      by (vm_compute; reflexivity).
    rewrite forallb_forall in F. intros j Hj. apply F. apply in_seq. lia. }
  specialize (C i Hi). fold Q in C.
  assert (T : (0 <? lowZ (total_lin 27889 40000) lo2 hi2 sc2)%Z = true) by (vm_compute; reflexivity).
  pose proof (index_above 27889 40000 oakley_sd ltac:(lia) sd_sq lo2 hi2 sc2 ltac:(discriminate) ltac:(reflexivity) v2 i (Q + 10000) 1000000 ltac:(lia) T C) as A.
  rewrite plus_IZR in A. lra.
Qed.
