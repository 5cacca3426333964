(** * Quantile levels in double precision: how many there are and where they lie. *)
From Coq Require Import Reals String List Arith ZArith Bool Lia Lra Psatz.
From Flocq Require Import Core Plus_error Relative Sterbenz.
From Verif Require Import Base Arrays ListFacts ModelMorris ModelFast ModelDouble ProofsDouble ProofsDouble2 ProofsDouble4 ProofsDouble5 ModelLevels SpecLevels.
Import ListNotations.
Local Open Scope R_scope.

Lemma arange_edges : forall n stop, arange_fl 0 stop (fl (1 / INR n)) =
  map (edge n) (seq 0 (Z.to_nat (Zceil (fl (fl stop / fl (1 / INR n)))))).
Proof.
  intros n stop. unfold arange_fl. rewrite (Rminus_0_r stop). apply map_ext. intros [|[|i]].
  - symmetry. apply edge_0.
  - rewrite Rplus_0_l. unfold edge. simpl INR. rewrite Rmult_1_l. reflexivity.
  - rewrite !Rplus_0_l, Rminus_0_r. unfold edge. rewrite !(fl_double (fl _)) by apply double_fl. reflexivity.
Qed.

Section Levels.
Variable n : nat.
Hypothesis N1 : (1 <= n)%nat.
Hypothesis NU : (Z.of_nat n <= 2 ^ 49)%Z.
Notation h := (fl (1 / INR n)).

Lemma NU' : (Z.of_nat n <= 2 ^ 51)%Z.
Proof using NU. clear N1. eapply Z.le_trans; [exact NU|]. lia. Qed.
Lemma nr : 1 <= INR n <= 562949953421312.
Proof using N1 NU. split; [change 1 with (INR 1); apply le_INR; auto|]. rewrite INR_IZR_INZ. apply (IZR_le _ 562949953421312). auto. Qed.

Lemma step_is : exists e, Rabs e <= / 9007199254740992 /\ h = 1 / INR n * (1 + e).
Proof using N1 NU.
  pose proof nr as NR. rewrite <- u_small. apply fl_rel.
  rewrite Rabs_pos_eq by (apply Rmult_le_pos; [lra|left; apply Rinv_0_lt_compat; lra]). apply Rle_trans with (bpow radix2 (-51)); [apply bpow_le; lia|].
  change (bpow radix2 (-51)) with (/ 2251799813685248). unfold Rdiv. rewrite Rmult_1_l. apply Rinv_le; lra.
Qed.
Lemma step_lt : 0 < h <= 1.
Proof using N1 NU.
  split; [apply d_pos; auto; apply NU'|]. apply fl_le; [apply double_1|]. pose proof nr as NR. unfold Rdiv. rewrite Rmult_1_l.
  rewrite <- Rinv_1. apply Rinv_le; lra.
Qed.

(** The quotient that decides the number of slices is within a half of n + 1. *)
Lemma pawn_quotient : INR n + / 2 < fl (fl (1 + h) / h) < INR n + 1 + / 2.
Proof using N1 NU.
  pose proof nr as NR. pose proof step_lt as H0. destruct step_is as (e & E & F).
  destruct (fl_plus_rel 1 h double_1 (double_fl _)) as (e1 & E1 & F1).
  assert (G : bpow radix2 (-1022) <= Rabs (fl (1 + h) / h)).
  { assert (1 <= fl (1 + h)) by (apply fl_ge; [apply double_1|lra]).
    assert (1 <= / h) by (rewrite <- Rinv_1 at 1; apply Rinv_le; lra).
    rewrite Rabs_pos_eq by (apply Rmult_le_pos; lra). apply Rle_trans with (bpow radix2 0); [apply bpow_le; lia|]. change (bpow radix2 0) with 1. unfold Rdiv. nra. }
  destruct (fl_rel _ G) as (e2 & E2 & F2). rewrite F2, F1. rewrite u_small in *.
  assert (Q : (1 + h) / h = 1 + INR n * / (1 + e)). { apply Rabs_le_inv in E. rewrite F. field. lra. }
  replace ((1 + h) * (1 + e1) / h * (1 + e2)) with ((1 + INR n * / (1 + e)) * ((1 + e1) * (1 + e2))) by (rewrite <- Q; field; lra).
  apply Rabs_le_inv in E. apply Rabs_le_inv in E1. apply Rabs_le_inv in E2.
  set (u := / 9007199254740992) in *. assert (U : u = / 9007199254740992) by reflexivity.
  assert (I : 1 - u <= / (1 + e) <= 1 + 2 * u).
  { split; apply (Rmult_le_reg_r (1 + e)); try lra; rewrite Rinv_l by lra; nra. }
  assert (P : 1 - 3 * u <= (1 + e1) * (1 + e2) <= 1 + 3 * u) by nra.
  assert (A : INR n * (1 - u) <= INR n * / (1 + e) <= INR n * (1 + 2 * u)) by (split; apply Rmult_le_compat_l; lra).
  set (q := INR n * / (1 + e)) in *. set (w := (1 + e1) * (1 + e2)) in *.
  assert (L : (1 + INR n * (1 - u)) * (1 - 3 * u) <= (1 + q) * w) by (apply Rmult_le_compat; try lra; nra).
  assert (R : (1 + q) * w <= (1 + INR n * (1 + 2 * u)) * (1 + 3 * u)) by (apply Rmult_le_compat; try lra; nra).
  assert (B : INR n * u <= / 16) by (rewrite U; lra).
  split; nra.
Qed.

(** ... and the one of the bins within a half of n. *)
Lemma rsa_quotient : INR n - / 2 < fl (1 / h) < INR n + / 2.
Proof using N1 NU.
  pose proof nr as NR. pose proof step_lt as H0. destruct step_is as (e & E & F).
  assert (G : bpow radix2 (-1022) <= Rabs (1 / h)).
  { assert (1 <= / h) by (rewrite <- Rinv_1 at 1; apply Rinv_le; lra).
    rewrite Rabs_pos_eq by (apply Rmult_le_pos; lra). apply Rle_trans with (bpow radix2 0); [apply bpow_le; lia|]. change (bpow radix2 0) with 1. unfold Rdiv. lra. }
  destruct (fl_rel _ G) as (e2 & E2 & F2). rewrite F2. rewrite u_small in *.
  assert (Q : 1 / h = INR n * / (1 + e)). { apply Rabs_le_inv in E. rewrite F. field. lra. }
  rewrite Q. apply Rabs_le_inv in E. apply Rabs_le_inv in E2.
  set (u := / 9007199254740992) in *. assert (U : u = / 9007199254740992) by reflexivity.
  assert (I : 1 - u <= / (1 + e) <= 1 + 2 * u).
  { split; apply (Rmult_le_reg_r (1 + e)); try lra; rewrite Rinv_l by lra; nra. }
  assert (A : INR n * (1 - u) <= INR n * / (1 + e) <= INR n * (1 + 2 * u)) by (split; apply Rmult_le_compat_l; lra).
  set (q := INR n * / (1 + e)) in *.
  assert (L : INR n * (1 - u) * (1 - u) <= q * (1 + e2)) by (apply Rmult_le_compat; try lra; nra).
  assert (R : q * (1 + e2) <= INR n * (1 + 2 * u) * (1 + u)) by (apply Rmult_le_compat; try lra; nra).
  assert (B : INR n * u <= / 16) by (rewrite U; lra).
  split; nra.
Qed.

Lemma ceil_cases : forall q m, IZR m - / 2 < q < IZR m + / 2 -> Zceil q = if Rle_dec q (IZR m) then m else (m + 1)%Z.
Proof using.
  clear. intros q m H. destruct (Rle_dec q (IZR m)).
  - apply Zceil_imp. rewrite minus_IZR. lra.
  - apply Zceil_imp. rewrite minus_IZR, plus_IZR. lra.
Qed.

Definition pawn_fits : Prop := fl (fl (1 + h) / h) <= INR n + 1.
Definition rsa_fits : Prop := fl (1 / h) <= INR n.

Lemma pawn_levels_are : pawn_levels n = map (edge n) (seq 0 (if Rle_dec (fl (fl (1 + h) / h)) (INR n + 1) then n + 1 else n + 2)).
Proof using N1 NU.
  unfold pawn_levels. cbv zeta. rewrite arange_edges. rewrite (fl_double (fl _)) by apply double_fl. f_equal. f_equal.
  pose proof pawn_quotient as Q. rewrite (ceil_cases _ (Z.of_nat n + 1)).
  - replace (IZR (Z.of_nat n + 1)) with (INR n + 1) by (rewrite plus_IZR, <- INR_IZR_INZ; reflexivity). destruct (Rle_dec _ _); lia.
  - rewrite plus_IZR, <- INR_IZR_INZ. lra.
Qed.
Lemma rsa_edges_are : rsa_edges n = map (edge n) (seq 0 (if Rle_dec (fl (1 / h)) (INR n) then n else n + 1)).
Proof using N1 NU.
  unfold rsa_edges. rewrite arange_edges. rewrite (fl_double 1 double_1). f_equal. f_equal.
  pose proof rsa_quotient as Q. rewrite (ceil_cases _ (Z.of_nat n)) by (rewrite <- INR_IZR_INZ; lra).
  rewrite <- INR_IZR_INZ. destruct (Rle_dec _ _); lia.
Qed.

Lemma edge_lt : forall i j, (i < j)%nat -> (j <= n)%nat -> edge n i < edge n j.
Proof using N1 NU.
  intros i j H J. apply Rlt_le_trans with (edge n (i + 1)); [|apply edge_mono; auto; [apply NU'|lia]].
  pose proof (edge_close n N1 NU' i ltac:(lia)) as A. pose proof (edge_close n N1 NU' (i + 1) ltac:(lia)) as B.
  apply Rabs_le_inv in A. apply Rabs_le_inv in B. rewrite plus_INR in B. simpl (INR 1) in B. pose proof nr as NR.
  change (bpow radix2 (-51)) with (/ 2251799813685248) in *.
  assert (/ 562949953421312 <= / INR n) by (apply Rinv_le; lra).
  replace ((INR i + 1) / INR n) with (INR i / INR n + / INR n) in B by (field; lra). lra.
Qed.
Lemma edge_good : good_levels n (edge n).
Proof using N1 NU.
  split; [apply edge_0|]. split; [apply edge_lt|]. split; [intros; apply edge_range; auto; apply NU'|].
  intros k Hk. replace (/ 2 ^ 51) with (bpow radix2 (-51)); [apply edge_close; auto; apply NU'|].
  change (bpow radix2 (-51)) with (/ 2251799813685248). f_equal. lra.
Qed.
Lemma edge_last : 1 - / 2 ^ 53 <= edge n n <= 1.
Proof using N1 NU.
  split; [|apply edge_top; auto; apply NU']. replace (/ 2 ^ 53) with (/ 9007199254740992) by (f_equal; lra).
  unfold edge. apply fl_ge.
  - replace (1 - / 9007199254740992) with (IZR 9007199254740991 * bpow radix2 (-53)) by (rewrite u_small; lra). apply double_F; lia.
  - destruct step_is as (e & E & ->). pose proof nr. replace (INR n * (1 / INR n * (1 + e))) with (1 + e) by (field; lra). apply Rabs_le_inv in E. lra.
Qed.
(** One more level is above 1. *)
Lemma edge_over : 1 < edge n (n + 1).
Proof using N1 NU.
  apply Rlt_le_trans with (1 + / 4503599627370496); [lra|]. unfold edge. apply fl_ge.
  - replace (1 + / 4503599627370496) with (IZR 4503599627370497 * bpow radix2 (-52)) by (change (bpow radix2 (-52)) with (/ 4503599627370496); lra). apply double_F; lia.
  - destruct step_is as (e & E & ->). pose proof nr. rewrite plus_INR. simpl (INR 1).
    replace ((INR n + 1) * (1 / INR n * (1 + e))) with ((1 + / INR n) * (1 + e)) by (field; lra). apply Rabs_le_inv in E.
    assert (/ 562949953421312 <= / INR n) by (apply Rinv_le; lra). 
    assert (/ INR n <= 1) by (rewrite <- Rinv_1; apply Rinv_le; lra). nra.
Qed.

(** One bin too many: the last edge is at most 1. *)
Lemma rsa_over : ~ rsa_fits -> INR n * h < 1.
Proof using N1 NU.
  intros H. apply Rnot_le_lt. intros C. apply H. unfold rsa_fits. pose proof step_lt.
  apply fl_le. { apply double_INR. eapply Z.le_trans; [exact NU|]. lia. }
  apply (Rmult_le_reg_r h); [lra|]. unfold Rdiv. rewrite Rmult_1_l, Rinv_l by lra. lra.
Qed.
End Levels.

(** Powers of two are exact. *)
Lemma pow_step : forall k, (k <= 49)%nat -> fl (1 / INR (2 ^ k)) = bpow radix2 (- Z.of_nat k) /\ INR (2 ^ k) = bpow radix2 (Z.of_nat k).
Proof.
  intros k H. assert (E : INR (2 ^ k) = bpow radix2 (Z.of_nat k)).
  { rewrite pow_INR. simpl (INR 2). rewrite bpow_powerRZ. rewrite <- pow_powerRZ. reflexivity. }
  split; auto. rewrite E. unfold Rdiv. rewrite Rmult_1_l, <- bpow_opp. apply fl_pow. lia.
Qed.
Lemma pow_edge : forall k i, (k <= 49)%nat -> (i <= 2 ^ k)%nat -> edge (2 ^ k) i = INR i / INR (2 ^ k).
Proof.
  intros k i H I. destruct (pow_step k H) as (S & E). unfold edge. rewrite S, E. unfold Rdiv. rewrite <- bpow_opp.
  apply fl_double. rewrite INR_IZR_INZ. apply double_F; [|lia]. 
  assert (Z.of_nat i <= 2 ^ 49)%Z; [|lia]. apply Z.le_trans with (Z.of_nat (2 ^ k)); [lia|]. rewrite Nat2Z.inj_pow. simpl Z.of_nat. apply Z.pow_le_mono_r; lia.
Qed.
Lemma pow_fits : forall k, (k <= 49)%nat -> pawn_fits (2 ^ k) /\ rsa_fits (2 ^ k).
Proof.
  intros k H. destruct (pow_step k H) as (S & E). pose proof (bpow_gt_0 radix2 (Z.of_nat k)) as P.
  assert (D : forall z, (0 <= z <= 2 ^ 50)%Z -> double (IZR z)) by (intros z Hz; apply double_Z; lia).
  assert (LZ : (0 <= 2 ^ Z.of_nat k <= 2 ^ 49)%Z) by (split; [lia|apply Z.pow_le_mono_r; lia]).
  assert (EZ : bpow radix2 (Z.of_nat k) = IZR (2 ^ Z.of_nat k)) by (rewrite <- IZR_Zpower by lia; reflexivity).
  unfold pawn_fits, rsa_fits. rewrite S, E. rewrite bpow_opp. split.
  - rewrite (fl_double (1 + _)).
    + replace ((1 + / bpow radix2 (Z.of_nat k)) / / bpow radix2 (Z.of_nat k)) with (bpow radix2 (Z.of_nat k) + 1) by (field; lra).
      rewrite fl_double; [lra|]. rewrite EZ, <- plus_IZR. apply D. lia.
    + rewrite <- bpow_opp. replace (1 + bpow radix2 (- Z.of_nat k)) with (IZR (2 ^ Z.of_nat k + 1) * bpow radix2 (- Z.of_nat k)).
      * apply double_F; lia.
      * rewrite plus_IZR, <- EZ, bpow_opp. field. lra.
  - replace (1 / / bpow radix2 (Z.of_nat k)) with (bpow radix2 (Z.of_nat k)) by (field; lra). rewrite fl_double; [lra|]. rewrite EZ. apply D. lia.
Qed.
