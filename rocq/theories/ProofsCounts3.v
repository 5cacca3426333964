(** * The number of bits from quotients of logarithms. *)
From Coq Require Import Reals List Arith ZArith Bool Lia Lra Psatz.
From Flocq Require Import Core.
From Verif Require Import Base ModelDouble ProofsDouble ModelCounts SpecCounts ProofsCounts.
Import ListNotations.
Local Open Scope R_scope.

Lemma ln_le_minus : forall x, 0 < x -> ln x <= x - 1.
Proof. intros x H. pose proof (exp_ineq1_le (ln x)). rewrite exp_ln in * by auto. lra. Qed.
Lemma ln2_range : / 2 <= ln 2 < 1.
Proof.
  split.
  - pose proof (ln_le_minus (/ 2) ltac:(lra)). rewrite ln_Rinv in * by lra. lra.
  - pose proof (exp_ineq1 1 ltac:(lra)). rewrite <- (ln_exp 1). apply ln_increasing; lra.
Qed.
Lemma ln_pow2 : forall k, ln (2 ^ k) = INR k * ln 2.
Proof. intros. apply ln_pow. lra. Qed.

Lemma INR_pow : forall k, INR (2 ^ k) = 2 ^ k.
Proof. intros k. rewrite pow_INR. reflexivity. Qed.

Section Log.
Variable lg : R -> R.
Hypothesis ACC : accurate_log lg.

Lemma u51 : bpow radix2 (-51) = / 2251799813685248.
Proof. reflexivity. Qed.

Lemma lg_rel : forall n, (2 <= n)%nat -> exists e, - / 2251799813685248 <= e <= / 2251799813685248 /\ lg (INR n) = ln (INR n) * (1 + e).
Proof.
  intros n Hn. assert (N2 : 2 <= INR n) by (change 2 with (INR 2); apply le_INR; auto).
  assert (P : 0 < ln (INR n)). { rewrite <- ln_1. apply ln_increasing; lra. }
  pose proof (ACC n ltac:(lia)) as A. rewrite u51 in A. apply Rabs_le_inv in A.
  exists ((lg (INR n) - ln (INR n)) / ln (INR n)). split; [|field; lra].
  split; (apply (Rmult_le_reg_r (ln (INR n))); [auto|]); unfold Rdiv; rewrite Rmult_assoc, Rinv_l, Rmult_1_r by lra; lra.
Qed.

Lemma log_quot : forall n, (2 <= n)%nat ->
  exists e, - / 281474976710656 <= e <= / 281474976710656 /\ fl (lg (INR n) / lg 2) = ln (INR n) / ln 2 * (1 + e).
Proof.
  intros n Hn. destruct (lg_rel n Hn) as (e1 & E1 & F1). destruct (lg_rel 2%nat ltac:(lia)) as (e2 & E2 & F2). change (INR 2) with 2 in F2.
  destruct ln2_range as (L1 & L2). assert (N2 : 2 <= INR n) by (change 2 with (INR 2); apply le_INR; auto).
  assert (Q : 1 <= ln (INR n) / ln 2).
  { apply (Rmult_le_reg_r (ln 2)); [lra|]. unfold Rdiv. rewrite Rmult_assoc, Rinv_l, Rmult_1_l, Rmult_1_r by lra.
    destruct (Req_dec (INR n) 2) as [->|NE]; [lra|]. left. apply ln_increasing; lra. }
  set (x := ln (INR n) / ln 2) in *.
  assert (G : 0 < / (1 + e2)) by (apply Rinv_0_lt_compat; lra).
  assert (V : lg (INR n) / lg 2 = x * ((1 + e1) * / (1 + e2))). { rewrite F1, F2. unfold x. field. split; lra. }
  assert (LB : / 2 <= (1 + e1) * / (1 + e2)).
  { apply (Rmult_le_reg_r (1 + e2)); [lra|]. rewrite Rmult_assoc, Rinv_l, Rmult_1_r by lra. lra. }
  assert (QB : / 2 <= lg (INR n) / lg 2). { rewrite V. nra. }
  destruct (fl_rel (lg (INR n) / lg 2)) as (e3 & E3 & F3).
  { rewrite Rabs_pos_eq by lra. apply Rle_trans with (bpow radix2 (-1)); [apply bpow_le; lia|]. simpl. lra. }
  rewrite u53 in E3. apply Rabs_le_inv in E3.
  exists ((1 + e1) * (1 + e3) * / (1 + e2) - 1). split.
  - assert (U : (1 + e1) * (1 + e3) <= (1 + / 2251799813685248) * (1 + / 9007199254740992)) by (apply Rmult_le_compat; lra).
    assert (D : (1 - / 2251799813685248) * (1 - / 9007199254740992) <= (1 + e1) * (1 + e3)) by (apply Rmult_le_compat; lra).
    set (y := (1 + e1) * (1 + e3)) in *.
    assert (- / 281474976710656 + 1 <= y * / (1 + e2) <= 1 + / 281474976710656); [|lra].
    split; (apply (Rmult_le_reg_r (1 + e2)); [lra|]); rewrite Rmult_assoc, Rinv_l, Rmult_1_r by lra; lra.
  - rewrite F3, V. ring.
Qed.

(** Distance of logarithms from the integers. *)
Lemma ln_upper : forall n k, (1 <= n)%nat -> INR n <= 2 ^ k - 1 -> (k <= 31)%nat -> ln (INR n) / ln 2 <= INR k - / 2147483648.
Proof.
  intros n k Hn H K. destruct ln2_range as (L1 & L2). assert (N1 : 1 <= INR n) by (change 1 with (INR 1); apply le_INR; auto).
  assert (P : 0 < 2 ^ k) by (apply pow_lt; lra). assert (PU : 2 ^ k <= 2 ^ 31) by (apply Rle_pow; [lra|auto]).
  replace (2 ^ 31) with 2147483648 in PU by (simpl; lra).
  assert (I0 : 0 < / 2 ^ k) by (apply Rinv_0_lt_compat; auto). assert (IU : / 2147483648 <= / 2 ^ k) by (apply Rinv_le; lra).
  pose proof (ln_le_minus (INR n * / 2 ^ k) ltac:(apply Rmult_lt_0_compat; lra)) as Q.
  rewrite ln_mult, ln_Rinv, ln_pow2 in Q by lra.
  assert (INR n * / 2 ^ k <= 1 - / 2 ^ k).
  { apply (Rmult_le_reg_r (2 ^ k)); auto. rewrite Rmult_minus_distr_r, Rmult_assoc, Rinv_l by lra. lra. }
  apply (Rmult_le_reg_r (ln 2)); [lra|]. unfold Rdiv. rewrite Rmult_assoc, Rinv_l, Rmult_1_r by lra. nra.
Qed.
Lemma ln_lower : forall n k, 2 ^ k + 1 <= INR n -> INR n <= 2147483649 -> INR k + / 2147483649 <= ln (INR n) / ln 2.
Proof.
  intros n k H NU. destruct ln2_range as (L1 & L2). assert (P : 0 < 2 ^ k) by (apply pow_lt; lra).
  assert (I0 : 0 < / INR n) by (apply Rinv_0_lt_compat; lra). assert (IU : / 2147483649 <= / INR n) by (apply Rinv_le; lra).
  pose proof (ln_le_minus (2 ^ k * / INR n) ltac:(apply Rmult_lt_0_compat; lra)) as Q.
  rewrite ln_mult, ln_Rinv, ln_pow2 in Q by lra.
  assert (2 ^ k * / INR n <= 1 - / INR n).
  { apply (Rmult_le_reg_r (INR n)); [lra|]. rewrite Rmult_minus_distr_r, Rmult_assoc, Rinv_l by lra. lra. }
  apply (Rmult_le_reg_r (ln 2)); [lra|]. unfold Rdiv. rewrite Rmult_assoc, Rinv_l, Rmult_1_r by lra. nra.
Qed.

Lemma bits_between : forall n k, INR k < fl (lg (INR n) / lg 2) <= INR (S k) -> log_bits lg n = S k.
Proof.
  intros n k (A & B). unfold log_bits. rewrite (Zceil_imp (Z.of_nat (S k))); [apply Nat2Z.id|].
  rewrite minus_IZR, <- INR_IZR_INZ, S_INR in *. split; lra.
Qed.

Lemma bits_one : log_bits lg 1%nat = 0%nat.
Proof.
  pose proof (ACC 1%nat ltac:(lia)) as A. change (INR 1) with 1 in A. rewrite ln_1, Rmult_0_l in A. unfold log_bits. change (INR 1) with 1.
  assert (lg 1 = 0). { apply Rabs_le_inv in A. lra. }
  rewrite H. unfold Rdiv. rewrite Rmult_0_l, (fl_double 0 double_0), (Zceil_IZR 0). reflexivity.
Qed.
Lemma bits_two : log_bits lg 2%nat = 1%nat.
Proof.
  destruct (lg_rel 2%nat ltac:(lia)) as (e & E & F). change (INR 2) with 2 in F. destruct ln2_range. unfold log_bits. change (INR 2) with 2.
  assert (lg 2 <> 0). { rewrite F. nra. }
  replace (lg 2 / lg 2) with 1 by (field; auto). rewrite (fl_double 1 double_1), (Zceil_IZR 1). reflexivity.
Qed.

(** Strictly between two powers of two. *)
Lemma bits_inside : forall n k, 2 ^ k + 1 <= INR n -> INR n <= 2 ^ S k - 1 -> (S k <= 31)%nat -> log_bits lg n = S k.
Proof.
  intros n k L U K. assert (P1 : 1 <= 2 ^ k) by (apply pow_R1_Rle; lra).
  assert (PU : 2 ^ S k <= 2 ^ 31) by (apply Rle_pow; [lra|auto]). replace (2 ^ 31) with 2147483648 in PU by (simpl; lra).
  assert (N2 : (2 <= n)%nat). { apply INR_le. change (INR 2) with 2. lra. }
  pose proof (ln_lower n k L ltac:(lra)) as A. pose proof (ln_upper n (S k) ltac:(lia) U K) as B.
  destruct (log_quot n N2) as (e & E & F). apply bits_between. rewrite F. set (x := ln (INR n) / ln 2) in *.
  assert (KU : INR (S k) <= 31) by (replace 31 with (INR 31) by (simpl; lra); apply le_INR; auto).
  rewrite S_INR in *. pose proof (pos_INR k). split; nra.
Qed.

Lemma bits_power : forall k, (k <= 31)%nat -> log_bits lg (2 ^ k) = k \/ ((2 <= k)%nat /\ log_bits lg (2 ^ k) = S k).
Proof.
  intros k K. destruct k as [|[|k]].
  - left. exact bits_one.
  - left. exact bits_two.
  - assert (N2 : (2 <= 2 ^ S (S k))%nat). { cbn [Nat.pow]. pose proof (Nat.pow_nonzero 2 k ltac:(lia)). lia. }
    destruct (log_quot _ N2) as (e & E & F). rewrite INR_pow in F at 2. rewrite ln_pow2 in F. destruct ln2_range as (L1 & L2).
    replace (INR (S (S k)) * ln 2 / ln 2) with (INR (S (S k))) in F by (field; lra).
    assert (KU : INR (S (S k)) <= 31) by (replace 31 with (INR 31) by (simpl; lra); apply le_INR; auto).
    pose proof (pos_INR k). rewrite (S_INR (S k)) in *. pose proof (S_INR k).
    destruct (Rle_or_lt (fl (lg (INR (2 ^ S (S k))) / lg 2)) (INR (S k) + 1)) as [Q|Q].
    + left. apply bits_between. rewrite (S_INR (S k)). split; [rewrite F; nra|auto].
    + right. split; [lia|]. apply bits_between. rewrite (S_INR (S (S k))), (S_INR (S k)). split; [auto|rewrite F; nra].
Qed.

Lemma bits_huge : forall n, 2147483649 <= INR n -> (31 < log_bits lg n)%nat.
Proof.
  intros n H. assert (N2 : (2 <= n)%nat). { apply INR_le. change (INR 2) with 2. lra. }
  destruct ln2_range as (L1 & L2).
  assert (X : 31 + / 2147483649 <= ln (INR n) / ln 2).
  { set (m := Z.to_nat 2147483649). assert (M : INR m = 2147483649) by (unfold m; rewrite INR_IZR_INZ, Z2Nat.id by lia; reflexivity).
    pose proof (ln_lower m 31 ltac:(rewrite M; simpl; lra) ltac:(lra)) as A. replace (INR 31) with 31 in A by (simpl; lra).
    eapply Rle_trans; [exact A|]. apply Rmult_le_compat_r; [left; apply Rinv_0_lt_compat; lra|].
    destruct (Rle_lt_or_eq_dec _ _ H) as [Q|Q]; [left; apply ln_increasing; lra|rewrite M, Q; apply Rle_refl]. }
  destruct (log_quot n N2) as (e & E & F).
  assert (Y : 31 < fl (lg (INR n) / lg 2)). { rewrite F. set (x := ln (INR n) / ln 2) in *. nra. }
  unfold log_bits. assert (Q : (31 < Zceil (fl (lg (INR n) / lg 2)))%Z). { apply lt_IZR. eapply Rlt_le_trans; [exact Y|apply Zceil_ub]. }
  lia.
Qed.
End Log.

(** ** All numbers *)
Lemma pow_Z : forall k, Z.of_nat (2 ^ k) = (2 ^ Z.of_nat k)%Z.
Proof. intros k. rewrite Nat2Z.inj_pow. reflexivity. Qed.

Lemma bits_all : forall lg N, accurate_log lg -> (1 <= N)%nat -> (Z.of_nat N <= 2 ^ 31)%Z ->
  least_bits N (log_bits lg N) \/ (exists k, (2 <= k <= 31)%nat /\ N = (2 ^ k)%nat /\ log_bits lg N = S k).
Proof.
  intros lg N ACC N1 NU.
  assert (LP : forall k, least_bits (2 ^ k) k).
  { intros k. split; auto. intros c Hc. apply (Nat.pow_le_mono_r_iff 2); auto. }
  set (k := Nat.log2 N). pose proof (Nat.log2_spec N ltac:(lia)) as (A & B). fold k in A, B.
  assert (K : (k <= 31)%nat).
  { apply (Nat.pow_le_mono_r_iff 2); auto. eapply Nat.le_trans; [exact A|]. apply Nat2Z.inj_le. rewrite pow_Z. exact NU. }
  destruct (Nat.eq_dec N (2 ^ k)) as [E|NE].
  - rewrite E. destruct (bits_power lg ACC k K) as [Q|(Q1 & Q2)].
    + left. rewrite Q. apply LP.
    + right. exists k. auto.
  - left. assert (K2 : (S k <= 31)%nat).
    { destruct (Nat.eq_dec k 31) as [E31|]; [|lia]. exfalso. rewrite E31 in *. apply NE. apply Nat2Z.inj. apply Z.le_antisymm; [|apply Nat2Z.inj_le; exact A].
      rewrite pow_Z. exact NU. }
    rewrite (bits_inside lg ACC N k); auto.
    + split; [lia|]. intros c Hc. apply Nat.lt_nge. intros Q. assert (2 ^ c <= 2 ^ k)%nat by (apply Nat.pow_le_mono_r; lia). lia.
    + rewrite <- INR_pow. change 1 with (INR 1). rewrite <- plus_INR. apply le_INR. lia.
    + rewrite <- INR_pow. change 1 with (INR 1). rewrite <- minus_INR by lia. apply le_INR. lia.
Qed.

Lemma bits_enough : forall lg N, accurate_log lg -> (1 <= N)%nat -> (Z.of_nat N <= 2 ^ 31)%Z -> (N <= 2 ^ log_bits lg N)%nat.
Proof.
  intros lg N ACC N1 NU. destruct (bits_all lg N ACC N1 NU) as [(H & _)|(k & K & E & ->)]; auto. rewrite E. apply Nat.pow_le_mono_r; lia.
Qed.
Lemma bits_31 : forall lg N, accurate_log lg -> (1 <= N)%nat -> (Z.of_nat N < 2 ^ 31)%Z -> (log_bits lg N <= 31)%nat.
Proof.
  intros lg N ACC N1 NU. destruct (bits_all lg N ACC N1 ltac:(lia)) as [(_ & H)|(k & K & E & ->)].
  - apply H. apply Nat2Z.inj_le. rewrite pow_Z. change (2 ^ Z.of_nat 31)%Z with (2 ^ 31)%Z. lia.
  - destruct (Nat.eq_dec k 31) as [->|]; [|lia]. exfalso. rewrite E, pow_Z in NU. change (2 ^ Z.of_nat 31)%Z with (2 ^ 31)%Z in NU. lia.
Qed.
Lemma bits_above : forall lg N, accurate_log lg -> (2 ^ 31 < Z.of_nat N)%Z -> (31 < log_bits lg N)%nat.
Proof.
  intros lg N ACC NU. apply bits_huge; auto. rewrite INR_IZR_INZ. apply (IZR_le 2147483649). lia.
Qed.

Lemma rounded_accurate : accurate_log (fun x => fl (ln x)).
Proof.
  intros n Hn. destruct (Nat.eq_dec n 1) as [->|].
  - change (INR 1) with 1. rewrite ln_1, (fl_double 0 double_0), Rminus_0_r, Rabs_R0. lra.
  - assert (N2 : 2 <= INR n) by (change 2 with (INR 2); apply le_INR; lia).
    assert (L : / 2 <= ln (INR n)).
    { destruct ln2_range. apply Rle_trans with (ln 2); auto. destruct (Req_dec (INR n) 2) as [->|NE]; [lra|]. left. apply ln_increasing; lra. }
    destruct (fl_rel (ln (INR n))) as (e & E & F).
    { rewrite Rabs_pos_eq by lra. apply Rle_trans with (bpow radix2 (-1)); [apply bpow_le; lia|]. simpl. lra. }
    rewrite F, u51. rewrite u53 in E. replace (ln (INR n) * (1 + e) - ln (INR n)) with (ln (INR n) * e) by ring.
    rewrite Rabs_mult, (Rabs_pos_eq (ln _)) by lra. apply Rmult_le_compat_l; [lra|]. eapply Rle_trans; [exact E|]. lra.
Qed.
