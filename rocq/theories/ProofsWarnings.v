(** * Which warnings are issued. *)
From Coq Require Import Reals List Arith ZArith Bool Lia Lra Psatz.
From Flocq Require Import Core.
From Verif Require Import Base ModelDouble ProofsDouble ModelCounts SpecCounts ProofsCounts ProofsCounts3 ProofsLevels2 ProofsCounts4 ModelWarnings.
Import ListNotations.
Local Open Scope R_scope.

(** ** The bit test *)
Lemma land_power : forall k, (0 <= k)%Z -> Z.land (2 ^ k) (2 ^ k - 1) = 0%Z.
Proof.
  intros k K. replace (2 ^ k - 1)%Z with (Z.ones k) by (rewrite Z.ones_equiv; lia). rewrite Z.land_ones by auto. apply Z.mod_same. lia.
Qed.
Lemma land_below : forall M, (1 <= M)%Z -> Z.land M (M - 1) = 0%Z -> M = (2 ^ Z.log2 M)%Z.
Proof.
  intros M HM H. destruct (Z.eq_dec M (2 ^ Z.log2 M)) as [|NE]; auto. exfalso.
  destruct (Z.log2_spec M ltac:(lia)) as (A & B). set (k := Z.log2 M) in *.
  assert (E : Z.log2 (M - 1) = k). { apply Z.log2_unique; [apply Z.log2_nonneg|]. lia. }
  assert (P : (0 < M - 1)%Z). { assert (0 < 2 ^ k)%Z by (apply Z.pow_pos_nonneg; [lia|apply Z.log2_nonneg]). lia. }
  assert (T : Z.testbit (Z.land M (M - 1)) k = true).
  { rewrite Z.land_spec. unfold k at 1. rewrite Z.bit_log2 by lia. rewrite <- E, Z.bit_log2 by lia. reflexivity. }
  rewrite H, Z.bits_0 in T. discriminate.
Qed.
Lemma flagged_iff : forall M, (0 <= M)%Z -> flagged M = false <-> exists k, (1 <= k)%Z /\ M = (2 ^ k)%Z.
Proof.
  intros M HM. unfold flagged. split.
  - intros H. apply negb_false_iff, andb_true_iff in H. destruct H as (H & Q). apply andb_true_iff in Q. destruct Q as (Q1 & Q2).
    apply Z.eqb_eq in H. apply negb_true_iff, Z.eqb_neq in Q1, Q2. pose proof (land_below M ltac:(lia) H) as E. exists (Z.log2 M). split; auto.
    assert (0 < Z.log2 M)%Z by (apply Z.log2_pos; lia). lia.
  - intros (k & K & ->). rewrite land_power by lia. assert (2 ^ 1 <= 2 ^ k)%Z by (apply Z.pow_le_mono_r; lia).
    replace (2 ^ 1)%Z with 2%Z in * by reflexivity.
    rewrite (proj2 (Z.eqb_neq (2 ^ k) 0)), (proj2 (Z.eqb_neq (2 ^ k - 1) 0)) by lia. reflexivity.
Qed.

(** ** The exponents *)
Lemma trunc_exp : forall x (k : nat), INR k <= x < INR k + 1 -> Ztrunc x = Z.of_nat k.
Proof.
  intros x k (A & B). pose proof (pos_INR k). rewrite Ztrunc_floor by lra. apply Zfloor_imp. rewrite plus_IZR, <- INR_IZR_INZ. lra.
Qed.

Lemma log2_cases : forall n, (1 <= n)%nat -> n = (2 ^ Nat.log2 n)%nat \/ 2 ^ Nat.log2 n + 1 <= INR n.
Proof.
  intros n H. destruct (Nat.log2_spec n ltac:(lia)) as (A & _). destruct (Nat.eq_dec n (2 ^ Nat.log2 n)) as [E|E]; [left; auto|right].
  rewrite <- INR_pow. change 1 with (INR 1). rewrite <- plus_INR. apply le_INR. lia.
Qed.
Lemma log2_above : forall n, (1 <= n)%nat -> INR n <= 2 ^ S (Nat.log2 n) - 1.
Proof.
  intros n H. destruct (Nat.log2_spec n ltac:(lia)) as (_ & B). assert (n + 1 <= 2 ^ S (Nat.log2 n))%nat as Q by lia. apply le_INR in Q.
  rewrite plus_INR, INR_pow in Q. change (INR 1) with 1 in Q. lra.
Qed.
Lemma log2_small : forall n, (1 <= n)%nat -> (Z.of_nat n < 2 ^ 31)%Z -> (S (Nat.log2 n) <= 31)%nat.
Proof.
  intros n H B. destruct (Nat.log2_spec n ltac:(lia)) as (A & _). apply Nat2Z.inj_le in A. rewrite Nat2Z.inj_pow in A. change (Z.of_nat 2) with 2%Z in A.
  assert (2 ^ Z.of_nat (Nat.log2 n) < 2 ^ 31)%Z as Q by lia. apply Z.pow_lt_mono_r_iff in Q; lia.
Qed.

(** Correctly rounded quotient of the logarithms of a power of two and of two. *)
Definition exp_of_power (k : Z) : option Z :=
  match ln_rnd k, ln_rnd 1 with
  | Some (a, b), Some (c, d) => match rnd ((a * d)%Z, (b * c)%Z) with Some (x, y) => Some (x / y)%Z | None => None end
  | _, _ => None
  end.
Lemma exp_of_power_spec : forall (k : nat) r, exp_of_power (Z.of_nat k) = Some r -> math_exp (fun x => fl (ln x)) (2 ^ k) = r.
Proof.
  intros k r. unfold exp_of_power. destruct (ln_rnd (Z.of_nat k)) as [[a b]|] eqn:L1; [|discriminate]. destruct (ln_rnd 1) as [[c d]|] eqn:L2; [|discriminate].
  destruct (rnd (a * d, b * c)%Z) as [[x y]|] eqn:R; [|discriminate]. intros H. injection H as <-.
  apply ln_rnd_spec in L1; [|lia]. apply ln_rnd_spec in L2; [|lia]. destruct L1 as (A & B & L1). destruct L2 as (C & D & L2). rewrite Rmult_1_l in L2.
  apply rnd_spec in R. destruct R as (X & Y & F). unfold math_exp. rewrite INR_pow, ln_pow2, INR_IZR_INZ, L1, L2.
  apply IZR_lt in A, B, C, D.
  replace (IZR a / IZR b / (IZR c / IZR d)) with (IZR (a * d) / IZR (b * c)) by (rewrite !mult_IZR; field; repeat split; lra).
  rewrite F. rewrite Ztrunc_floor; [apply Zfloor_div; lia|].
  apply IZR_lt in X, Y. apply Rmult_le_pos; [lra|left; apply Rinv_0_lt_compat; lra].
Qed.
Lemma math_powers : forall k, (k <= 31)%nat -> math_exp (fun x => fl (ln x)) (2 ^ k) = Z.of_nat k.
Proof.
  intros k K. destruct (Nat.eq_dec k 0) as [->|NZ].
  { unfold math_exp. cbn [Nat.pow INR]. rewrite ln_1, (fl_double 0 double_0). unfold Rdiv. rewrite Rmult_0_l, (fl_double 0 double_0). apply (Ztrunc_IZR 0). }
  assert (G : forallb (fun k => match exp_of_power (Z.of_nat k) with Some r => (r =? Z.of_nat k)%Z | None => false end) (seq 1 31) = true)
    by (vm_compute; reflexivity).
  rewrite forallb_forall in G. specialize (G k ltac:(apply in_seq; lia)).
  destruct (exp_of_power (Z.of_nat k)) as [r|] eqn:E; [|discriminate]. apply Z.eqb_eq in G. rewrite (exp_of_power_spec k r E), G. reflexivity.
Qed.

Lemma math_inside : forall lg n, accurate_log lg -> 2 ^ Nat.log2 n + 1 <= INR n -> (Z.of_nat n < 2 ^ 31)%Z -> math_exp lg n = Z.of_nat (Nat.log2 n).
Proof.
  intros lg n ACC L B. set (k := Nat.log2 n) in *. assert (P1 : 1 <= 2 ^ k) by (apply pow_R1_Rle; lra).
  assert (N2 : (2 <= n)%nat). { apply INR_le. change (INR 2) with 2. lra. }
  pose proof (log2_above n ltac:(lia)) as U. pose proof (log2_small n ltac:(lia) B) as K. fold k in U, K.
  assert (PU : 2 ^ S k <= 2 ^ 31) by (apply Rle_pow; [lra|auto]). replace (2 ^ 31) with 2147483648 in PU by (simpl; lra).
  pose proof (ln_lower n k L ltac:(lra)) as LL. pose proof (ln_upper n (S k) ltac:(lia) U K) as LU.
  destruct (log_quot lg ACC n N2) as (e & E & F). unfold math_exp. apply trunc_exp. rewrite F. set (x := ln (INR n) / ln 2) in *.
  assert (KU : INR (S k) <= 31) by (replace 31 with (INR 31) by (simpl; lra); apply le_INR; auto).
  rewrite S_INR in *. pose proof (pos_INR k). split; nra.
Qed.

Lemma math_rounded : forall n, (1 <= n)%nat -> (Z.of_nat n < 2 ^ 31)%Z -> math_exp (fun x => fl (ln x)) n = Z.of_nat (Nat.log2 n).
Proof.
  intros n H B. destruct (log2_cases n H) as [E|E].
  - rewrite E at 1. apply math_powers. pose proof (log2_small n H B). lia.
  - apply math_inside; auto. exact rounded_accurate.
Qed.

Lemma np_rounded : forall n, (1 <= n)%nat -> (Z.of_nat n < 2 ^ 31)%Z -> np_exp (fun x => fl (ln x / ln 2)) n = Z.of_nat (Nat.log2 n).
Proof.
  intros n H B. pose proof (log2_small n H B) as K. unfold np_exp. apply trunc_exp. set (k := Nat.log2 n) in *.
  destruct ln2_range as (L1 & L2).
  assert (DI : forall m, (m <= 31)%nat -> double (INR m)).
  { intros m M. rewrite INR_IZR_INZ. apply double_Z. rewrite Z.abs_eq by lia. apply Z.le_trans with 31%Z; [lia|]. vm_compute. discriminate. }
  split.
  - rewrite <- (fl_double (INR k)) at 1 by (apply DI; lia). apply fl_mono.
    replace (INR k) with (ln (2 ^ k) / ln 2) by (rewrite ln_pow2; field; lra).
    apply Rmult_le_compat_r; [left; apply Rinv_0_lt_compat; lra|].
    destruct (Nat.log2_spec n ltac:(lia)) as (A & _). apply le_INR in A. rewrite INR_pow in A. fold k in A.
    assert (0 < 2 ^ k) by (apply pow_lt; lra). destruct A as [A|A]; [left; apply ln_increasing; auto|rewrite A; lra].
  - pose proof (ln_upper n (S k) H (log2_above n H) K) as U. apply fl_mono in U. rewrite S_INR in *.
    assert (E : fl (INR k + 1 - / 2147483648) = INR k + 1 - / 2147483648).
    { apply fl_double. replace (INR k + 1 - / 2147483648) with (IZR ((Z.of_nat k + 1) * 2147483648 - 1) * bpow radix2 (-31)).
      - apply double_F; [|lia]. rewrite Z.abs_eq by lia. apply Z.le_lt_trans with (32 * 2147483648)%Z; [lia|reflexivity].
      - rewrite minus_IZR, mult_IZR, plus_IZR, <- INR_IZR_INZ. change (bpow radix2 (-31)) with (/ 2147483648). field. }
    rewrite E in U. lra.
Qed.

(** ** Which warnings *)
Lemma log2_gap : forall z n, (1 <= z)%nat -> (1 <= n)%nat -> (Nat.log2 z < Nat.log2 n)%nat <-> exists k, (z < 2 ^ k <= n)%nat.
Proof.
  intros z n Z1 N1. destruct (Nat.log2_spec z ltac:(lia)) as (A & B). destruct (Nat.log2_spec n ltac:(lia)) as (C & D). split.
  - intros H. exists (Nat.log2 n). split; auto. eapply Nat.lt_le_trans; [exact B|]. apply Nat.pow_le_mono_r; lia.
  - intros (k & K1 & K2). assert (Nat.log2 z < k)%nat. { apply (Nat.pow_lt_mono_r_iff 2); lia. }
    assert (k < S (Nat.log2 n))%nat. { apply (Nat.pow_lt_mono_r_iff 2); lia. } lia.
Qed.

Lemma skip_in : forall e N M, In FewSkipped (skip_warnings e N M) <-> (0 < N)%nat /\ (e (Z.to_nat M) < e N)%Z.
Proof.
  intros e N M. unfold skip_warnings. rewrite in_app_iff. split.
  - intros [H|H].
    + destruct (flagged M); [|contradiction]. destruct H as [H|[]]. discriminate.
    + destruct (Nat.eqb_spec N 0); [contradiction|]. destruct (Z.ltb_spec (e (Z.to_nat M)) (e N)); [|contradiction]. split; [lia|auto].
  - intros (H1 & H2). right. destruct (Nat.eqb_spec N 0); [lia|]. destruct (Z.ltb_spec (e (Z.to_nat M)) (e N)); [|lia]. left. auto.
Qed.
Lemma skip_power_in : forall e N M, In NotPowerSkip (skip_warnings e N M) <-> flagged M = true.
Proof.
  intros e N M. unfold skip_warnings. rewrite in_app_iff. destruct (flagged M).
  - split; auto. intros _. left. left. auto.
  - split; [|discriminate]. intros [[]|H]. destruct (N =? 0)%nat; [contradiction|]. destruct (_ <? _)%Z; [|contradiction]. destruct H as [H|[]]. discriminate.
Qed.
Lemma skip_only : forall e N M w, In w (skip_warnings e N M) -> w = NotPowerSkip \/ w = FewSkipped.
Proof.
  intros e N M w. unfold skip_warnings. rewrite in_app_iff. intros [H|H].
  - destruct (flagged M); [|contradiction]. destruct H as [H|[]]. auto.
  - destruct (N =? 0)%nat; [contradiction|]. destruct (_ <? _)%Z; [|contradiction]. destruct H as [H|[]]. auto.
Qed.
Lemma flagged_not : forall M, (0 <= M)%Z -> flagged M = true <-> ~ exists k, (1 <= k)%Z /\ M = (2 ^ k)%Z.
Proof. intros M H. rewrite <- (flagged_iff M H). destruct (flagged M); split; congruence. Qed.

Lemma saltelli_in : forall lg N skip w, In w (saltelli_warnings lg N skip) <->
  w = Deprecated \/ (w = NotPowerN /\ flagged (Z.of_nat N) = true) \/
  (exists z, skip = Some z /\ (0 < z)%Z /\ In w (skip_warnings (math_exp lg) N z)) \/ (skip = Some 0%Z /\ w = NoneSkipped).
Proof.
  intros lg N skip w. unfold saltelli_warnings. cbn [In]. rewrite in_app_iff. split.
  - intros [H|[H|H]]; auto.
    + destruct (flagged (Z.of_nat N)); [|contradiction]. destruct H as [H|[]]. auto.
    + destruct skip as [z|]; [|contradiction]. destruct (Z.ltb_spec 0 z) as [P|P]; [right; right; left; eauto|].
      destruct (Z.eqb_spec z 0) as [->|]; [|contradiction]. destruct H as [H|[]]. auto 6.
  - intros [H|[(-> & H)|[(z & -> & P & H)|(-> & ->)]]]; auto.
    + right. left. rewrite H. left. auto.
    + right. right. rewrite (proj2 (Z.ltb_lt 0 z) P). auto.
    + right. right. left. auto.
Qed.

Lemma powers_sobol : forall lg2 N M, (0 < M)%Z -> In NotPowerSkip (sobol_warnings lg2 N M) <-> ~ exists k, (1 <= k)%Z /\ M = (2 ^ k)%Z.
Proof. intros lg2 N M H. unfold sobol_warnings. rewrite (proj2 (Z.ltb_lt 0 M) H), skip_power_in. apply flagged_not. lia. Qed.
Lemma powers_saltelli : forall lg N M, (0 < M)%Z -> In NotPowerSkip (saltelli_warnings lg N (Some M)) <-> ~ exists k, (1 <= k)%Z /\ M = (2 ^ k)%Z.
Proof.
  intros lg N M H. rewrite saltelli_in, <- flagged_not by lia. split.
  - intros [Q|[(Q & _)|[(z & E & P & Q)|(_ & Q)]]]; try discriminate. injection E as <-. apply skip_power_in in Q. auto.
  - intros Q. right. right. left. exists M. split; auto. split; auto. apply skip_power_in. auto.
Qed.
Lemma powers_N : forall lg N skip, In NotPowerN (saltelli_warnings lg N skip) <-> ~ exists k, (1 <= k)%Z /\ Z.of_nat N = (2 ^ k)%Z.
Proof.
  intros lg N skip. rewrite saltelli_in, <- flagged_not by lia. split.
  - intros [Q|[(_ & Q)|[(z & E & P & Q)|(_ & Q)]]]; try discriminate; auto. apply skip_only in Q. destruct Q; discriminate.
  - intros Q. auto.
Qed.
Lemma none_saltelli : forall lg N skip, In NoneSkipped (saltelli_warnings lg N skip) <-> skip = Some 0%Z.
Proof.
  intros lg N skip. rewrite saltelli_in. split.
  - intros [Q|[(Q & _)|[(z & E & P & Q)|(Q & _)]]]; try discriminate; auto. apply skip_only in Q. destruct Q; discriminate.
  - intros Q. auto.
Qed.

Lemma few_sobol : forall lg2 N z, In FewSkipped (sobol_warnings lg2 N z) <-> (0 < N)%nat /\ (0 < z)%Z /\ (np_exp lg2 (Z.to_nat z) < np_exp lg2 N)%Z.
Proof.
  intros lg2 N z. unfold sobol_warnings. destruct (Z.ltb_spec 0 z) as [P|P]; [rewrite skip_in; tauto|]. simpl. split; [tauto|lia].
Qed.
Lemma few_saltelli : forall lg N z, In FewSkipped (saltelli_warnings lg N (Some z)) <-> (0 < N)%nat /\ (0 < z)%Z /\ (math_exp lg (Z.to_nat z) < math_exp lg N)%Z.
Proof.
  intros lg N z. rewrite saltelli_in. split.
  - intros [Q|[(Q & _)|[(y & E & P & Q)|(_ & Q)]]]; try discriminate. injection E as <-. apply skip_in in Q. tauto.
  - intros (A & B & C). right. right. left. exists z. split; auto. split; auto. apply skip_in. auto.
Qed.

Lemma few_rounded : forall N z, (1 <= N)%nat -> (Z.of_nat N < 2 ^ 31)%Z -> (0 < z < 2 ^ 31)%Z ->
  (In FewSkipped (sobol_warnings (fun x => fl (ln x / ln 2)) N z) <-> exists k, (z < 2 ^ Z.of_nat k <= Z.of_nat N)%Z) /\
  (In FewSkipped (saltelli_warnings (fun x => fl (ln x)) N (Some z)) <-> exists k, (z < 2 ^ Z.of_nat k <= Z.of_nat N)%Z).
Proof.
  intros N z N1 NB ZB. rewrite few_sobol, few_saltelli.
  rewrite !np_rounded, !math_rounded by lia. rewrite <- Nat2Z.inj_lt.
  assert (G : (0 < N)%nat /\ (0 < z)%Z /\ (Nat.log2 (Z.to_nat z) < Nat.log2 N)%nat <-> exists k, (z < 2 ^ Z.of_nat k <= Z.of_nat N)%Z); [|tauto].
  rewrite log2_gap by lia. split.
  - intros (_ & _ & k & K). exists k. change 2%Z with (Z.of_nat 2). rewrite <- Nat2Z.inj_pow. lia.
  - intros (k & K). split; [lia|]. split; [lia|]. exists k. change 2%Z with (Z.of_nat 2) in K. rewrite <- Nat2Z.inj_pow in K. lia.
Qed.

Lemma trunc_mono : forall x y, x <= y -> (Ztrunc x <= Ztrunc y)%Z.
Proof. exact Ztrunc_le. Qed.
Lemma few_sound : forall lg N z, (forall x y, 1 <= x <= y -> lg x <= lg y) ->
  (In FewSkipped (sobol_warnings lg N z) -> (z < Z.of_nat N)%Z) /\
  (0 < lg 2 -> In FewSkipped (saltelli_warnings lg N (Some z)) -> (z < Z.of_nat N)%Z).
Proof.
  intros lg N z M. rewrite few_sobol, few_saltelli.
  assert (G : (0 < N)%nat -> (Z.of_nat N <= z)%Z -> lg (INR N) <= lg (INR (Z.to_nat z))).
  { intros H Q. apply M. split; [change 1 with (INR 1); apply le_INR; lia|apply le_INR; lia]. }
  split.
  - intros (A & B & C). destruct (Z.le_gt_cases (Z.of_nat N) z) as [Q|Q]; [|lia]. pose proof (trunc_mono _ _ (G A Q)). unfold np_exp in C. lia.
  - intros P (A & B & C). destruct (Z.le_gt_cases (Z.of_nat N) z) as [Q|Q]; [|lia]. unfold math_exp in C.
    assert (fl (lg (INR N) / lg 2) <= fl (lg (INR (Z.to_nat z)) / lg 2)) as W.
    { apply fl_mono. apply Rmult_le_compat_r; [left; apply Rinv_0_lt_compat; auto|apply G; auto]. }
    apply trunc_mono in W. lia.
Qed.

Lemma missed : forall k N, (1 <= k)%nat -> (2 ^ k < N < 2 ^ S k)%nat -> (Z.of_nat N < 2 ^ 31)%Z ->
  sobol_warnings (fun x => fl (ln x / ln 2)) N (2 ^ Z.of_nat k) = [] /\
  saltelli_warnings (fun x => fl (ln x)) N (Some (2 ^ Z.of_nat k)%Z) = [Deprecated; NotPowerN].
Proof.
  intros k N K H B. pose proof (Nat.pow_nonzero 2 k ltac:(lia)) as NZ.
  assert (P : (2 ^ Z.of_nat k)%Z = Z.of_nat (2 ^ k)) by (rewrite Nat2Z.inj_pow; reflexivity).
  assert (F : flagged (2 ^ Z.of_nat k) = false). { apply flagged_iff; [lia|]. exists (Z.of_nat k). split; [lia|auto]. }
  assert (LN : Nat.log2 N = k) by (apply Nat.log2_unique; lia).
  assert (LK : Nat.log2 (2 ^ k) = k) by (apply Nat.log2_pow2; lia).
  assert (Z.of_nat (2 ^ k) < 2 ^ 31)%Z by lia.
  unfold sobol_warnings, saltelli_warnings, skip_warnings. rewrite F, P, (proj2 (Z.ltb_lt 0 (Z.of_nat (2 ^ k)))) by lia.
  rewrite Nat2Z.id, !np_rounded, !math_rounded by lia. rewrite LN, LK, Z.ltb_irrefl, (proj2 (Nat.eqb_neq N 0)) by lia.
  split; auto. assert (flagged (Z.of_nat N) = true) as ->; [|reflexivity].
  apply flagged_not; [lia|]. intros (j & J & E). assert (j = Z.of_nat k); [|subst; lia].
  assert (A1 : (2 ^ Z.of_nat k < 2 ^ j)%Z) by lia. apply Z.pow_lt_mono_r_iff in A1; [|lia|lia].
  assert (A2 : (2 ^ j < 2 ^ Z.of_nat (S k))%Z). { rewrite <- E. change 2%Z with (Z.of_nat 2). rewrite <- Nat2Z.inj_pow. lia. }
  apply Z.pow_lt_mono_r_iff in A2; lia.
Qed.
