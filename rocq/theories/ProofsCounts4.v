(** * Enclosure of ln 2; correctly rounded logarithms of the powers of two. *)
From Coq Require Import Reals List Arith ZArith Bool Lia Lra Psatz.
From Coquelicot Require Import Coquelicot.
From Flocq Require Import Core.
From Verif Require Import Base ModelDouble ProofsDouble ModelCounts SpecCounts ProofsCounts ProofsCounts3 ProofsLevels2.
Import ListNotations.
Local Open Scope R_scope.

(** ** The series 2 (x + x^3/3 + x^5/5 + ...) of ln ((1 + x) / (1 - x)) *)
Fixpoint series (n : nat) (x : R) : R :=
  match n with O => 0 | S m => series m x + 2 * x ^ (2 * m + 1) / INR (2 * m + 1) end.
Fixpoint dseries (n : nat) (x : R) : R :=
  match n with O => 0 | S m => dseries m x + 2 * x ^ (2 * m) end.

Lemma dseries_closed : forall n x, (1 - x ^ 2) * dseries n x = 2 * (1 - x ^ (2 * n)).
Proof.
  induction n as [|n IH]; intros x; cbn [dseries]; [simpl; ring|].
  rewrite Rmult_plus_distr_l, IH. replace (2 * S n)%nat with (2 * n + 2)%nat by lia. rewrite pow_add. ring.
Qed.

Lemma series_derive : forall n x, is_derive (series n) x (dseries n x).
Proof.
  induction n as [|n IH]; intros x; cbn [series dseries].
  - auto_derive; auto.
  - apply (is_derive_plus (series n) (fun x => 2 * x ^ (2 * n + 1) / INR (2 * n + 1))); auto.
    assert (P : INR (2 * n + 1) <> 0) by (apply not_0_INR; lia). auto_derive; auto.
    change (n + (n + 0))%nat with (2 * n)%nat. replace (Init.Nat.pred (2 * n + 1)) with (2 * n)%nat by lia. field. auto.
Qed.

Lemma log_derive : forall x, -1 < x < 1 -> is_derive (fun x => ln (1 + x) - ln (1 - x)) x (2 / (1 - x ^ 2)).
Proof. intros x H. auto_derive; [repeat split; lra|]. field. nra. Qed.

Lemma ln2_series : forall n, series n (/ 3) <= ln 2 <= series n (/ 3) + / 9 ^ n.
Proof.
  intros n. set (f := fun x => (ln (1 + x) - ln (1 - x)) - series n x).
  assert (D : forall x, 0 <= x <= / 3 -> is_derive f x (2 / (1 - x ^ 2) - dseries n x)).
  { intros x H. apply (is_derive_minus (fun x => ln (1 + x) - ln (1 - x)) (series n)); [apply log_derive; lra|apply series_derive]. }
  destruct (MVT_gen f 0 (/ 3) (fun x => 2 / (1 - x ^ 2) - dseries n x)) as (c & C & E).
  { intros x H. rewrite Rmin_left, Rmax_right in H by lra. apply D. lra. }
  { intros x H. rewrite Rmin_left, Rmax_right in H by lra. apply continuity_pt_filterlim, (ex_derive_continuous f). eexists. apply D. lra. }
  rewrite Rmin_left, Rmax_right in C by lra.
  assert (S0 : forall m, series m 0 = 0).
  { induction m as [|m IH]; cbn [series]; auto. rewrite IH, pow_i by lia. unfold Rdiv. ring. }
  assert (F0 : f 0 = 0). { unfold f. rewrite S0, Rplus_0_r. replace (1 - 0) with 1 by ring. rewrite ln_1. ring. }
  assert (F3 : f (/ 3) = ln 2 - series n (/ 3)).
  { unfold f. replace 2 with ((1 + / 3) * / (1 - / 3)) at 1 by field. rewrite ln_mult, ln_Rinv by lra. ring. }
  rewrite F0, F3 in E.
  assert (V : 2 / (1 - c ^ 2) - dseries n c = 2 * c ^ (2 * n) / (1 - c ^ 2)).
  { pose proof (dseries_closed n c) as Q. assert (NZ : 1 - c ^ 2 <> 0) by nra.
    replace (dseries n c) with ((1 - c ^ 2) * dseries n c / (1 - c ^ 2)) by (field; auto). rewrite Q. field. auto. }
  rewrite V in E.
  assert (CN : 0 <= c ^ (2 * n) <= / 9 ^ n).
  { split; [apply pow_le; lra|]. rewrite pow_mult. rewrite <- pow_inv. apply pow_incr. split; nra. }
  assert (DN : 8 / 9 <= 1 - c ^ 2) by nra.
  assert (DI : 0 < / (1 - c ^ 2) <= 9 / 8).
  { split; [apply Rinv_0_lt_compat; lra|]. replace (9 / 8) with (/ (8 / 9)) by field. apply Rinv_le; lra. }
  assert (T : 0 <= c ^ (2 * n) * / (1 - c ^ 2) <= / 9 ^ n * (9 / 8)).
  { split; [apply Rmult_le_pos; lra|apply Rmult_le_compat; lra]. }
  replace (2 * c ^ (2 * n) / (1 - c ^ 2)) with (2 * (c ^ (2 * n) * / (1 - c ^ 2))) in E by (unfold Rdiv; ring). lra.
Qed.

(** The partial sums, scaled by 2^120 and rounded down term by term. *)
Definition term (m : nat) : Z := (2 * 2 ^ 120 / (Z.of_nat (2 * m + 1) * 3 ^ Z.of_nat (2 * m + 1)))%Z.
Fixpoint zseries (n : nat) : Z := match n with O => 0%Z | S m => (zseries m + term m)%Z end.

Lemma term_bounds : forall m, IZR (term m) <= 2 * (/ 3) ^ (2 * m + 1) / INR (2 * m + 1) * IZR (2 ^ 120) <= IZR (term m) + 1.
Proof.
  intros m. unfold term. set (d := (Z.of_nat (2 * m + 1) * 3 ^ Z.of_nat (2 * m + 1))%Z).
  assert (DP : (0 < d)%Z) by (unfold d; apply Z.mul_pos_pos; [lia|apply Z.pow_pos_nonneg; lia]).
  assert (DR : IZR d = INR (2 * m + 1) * 3 ^ (2 * m + 1)).
  { unfold d. rewrite mult_IZR, <- INR_IZR_INZ. f_equal. rewrite <- pow_IZR. reflexivity. }
  assert (P1 : 0 < INR (2 * m + 1)) by (apply lt_0_INR; lia). assert (P2 : 0 < 3 ^ (2 * m + 1)) by (apply pow_lt; lra).
  assert (DR0 : 0 < IZR d) by (apply IZR_lt; auto).
  set (A := (2 * 2 ^ 120)%Z). assert (AR : IZR A = 2 * IZR (2 ^ 120)) by (unfold A; rewrite mult_IZR; reflexivity).
  replace (2 * (/ 3) ^ (2 * m + 1) / INR (2 * m + 1) * IZR (2 ^ 120)) with (IZR A / IZR d).
  2:{ rewrite AR, DR, pow_inv. field. split; apply Rgt_not_eq; auto. }
  pose proof (Z.div_mod A d ltac:(lia)) as E. pose proof (Z.mod_pos_bound A d DP) as M. apply (f_equal IZR) in E. rewrite plus_IZR, mult_IZR in E.
  destruct M as (M1 & M2). apply IZR_le in M1. apply IZR_lt in M2.
  split; (apply (Rmult_le_reg_r (IZR d)); [auto|]); unfold Rdiv; rewrite Rmult_assoc, Rinv_l, Rmult_1_r by lra; lra.
Qed.
Lemma zseries_bounds : forall n, IZR (zseries n) <= series n (/ 3) * IZR (2 ^ 120) <= IZR (zseries n) + INR n.
Proof.
  induction n as [|n IH]; cbn [zseries series]; [simpl; lra|]. rewrite plus_IZR, S_INR, Rmult_plus_distr_r. pose proof (term_bounds n). lra.
Qed.

Definition ln2_lo : Z := 921350637599661305226344307672478437.
Definition ln2_hi : Z := (ln2_lo + 50)%Z.
Lemma ln2_enclosure : IZR ln2_lo / IZR (2 ^ 120) <= ln 2 <= IZR ln2_hi / IZR (2 ^ 120).
Proof.
  pose proof (ln2_series 40) as (A & B). pose proof (zseries_bounds 40) as (C & D).
  replace (zseries 40) with ln2_lo in C, D by (vm_compute; reflexivity).
  assert (P : 0 < IZR (2 ^ 120)) by (apply IZR_lt; reflexivity).
  assert (Q : / 9 ^ 40 <= / IZR (2 ^ 120)).
  { apply Rinv_le; auto. rewrite (pow_IZR 9 40). apply IZR_le. vm_compute. discriminate. }
  replace (INR 40) with 40 in D by (simpl; lra). unfold ln2_hi. rewrite plus_IZR.
  split; (apply (Rmult_le_reg_r (IZR (2 ^ 120))); [auto|]); unfold Rdiv; rewrite Rmult_assoc, Rinv_l, Rmult_1_r by lra.
  - nra.
  - assert (/ 9 ^ 40 * IZR (2 ^ 120) <= 1). { apply Rle_trans with (/ IZR (2 ^ 120) * IZR (2 ^ 120)); [apply Rmult_le_compat_r; lra|]. rewrite Rinv_l by lra. lra. }
    nra.
Qed.

(** The double nearest to [k * ln 2]. *)
Definition ln_rnd (k : Z) : option (Z * Z) :=
  match rnd ((k * ln2_lo)%Z, (2 ^ 120)%Z), rnd ((k * ln2_hi)%Z, (2 ^ 120)%Z) with
  | Some (a, b), Some (c, d) => if ((a =? c) && (b =? d))%Z then Some (a, b) else None
  | _, _ => None
  end.
Lemma ln_rnd_spec : forall k a b, (0 <= k)%Z -> ln_rnd k = Some (a, b) -> (0 < a)%Z /\ (0 < b)%Z /\ fl (IZR k * ln 2) = IZR a / IZR b.
Proof.
  intros k a b K. unfold ln_rnd. destruct (rnd (k * ln2_lo, 2 ^ 120)%Z) as [[a1 b1]|] eqn:R1; [|discriminate].
  destruct (rnd (k * ln2_hi, 2 ^ 120)%Z) as [[c d]|] eqn:R2; [|discriminate].
  destruct ((a1 =? c) && (b1 =? d))%Z eqn:E; [|discriminate]. intros H. injection H as -> ->.
  apply andb_true_iff in E. destruct E as (E1 & E2). apply Z.eqb_eq in E1, E2. subst c d.
  apply rnd_spec in R1, R2. destruct R1 as (A & B & F1). destruct R2 as (_ & _ & F2). repeat split; auto.
  destruct ln2_enclosure as (L & U). assert (KR : 0 <= IZR k) by (apply IZR_le; auto). rewrite mult_IZR in F1, F2.
  apply Rle_antisym.
  - rewrite <- F2. apply fl_mono. replace (IZR k * IZR ln2_hi / IZR (2 ^ 120)) with (IZR k * (IZR ln2_hi / IZR (2 ^ 120))) by (unfold Rdiv; ring). apply Rmult_le_compat_l; auto.
  - rewrite <- F1. apply fl_mono. replace (IZR k * IZR ln2_lo / IZR (2 ^ 120)) with (IZR k * (IZR ln2_lo / IZR (2 ^ 120))) by (unfold Rdiv; ring). apply Rmult_le_compat_l; auto.
Qed.

Definition bits_of_power (k : Z) : option Z :=
  match ln_rnd k, ln_rnd 1 with
  | Some (a, b), Some (c, d) => match rnd ((a * d)%Z, (b * c)%Z) with Some (x, y) => Some (- (- x / y))%Z | None => None end
  | _, _ => None
  end.
Lemma bits_of_power_spec : forall (k : nat) r, bits_of_power (Z.of_nat k) = Some r -> log_bits (fun x => fl (ln x)) (2 ^ k) = Z.to_nat r.
Proof.
  intros k r. unfold bits_of_power. destruct (ln_rnd (Z.of_nat k)) as [[a b]|] eqn:L1; [|discriminate]. destruct (ln_rnd 1) as [[c d]|] eqn:L2; [|discriminate].
  destruct (rnd (a * d, b * c)%Z) as [[x y]|] eqn:R; [|discriminate]. intros H. injection H as <-.
  apply ln_rnd_spec in L1; [|lia]. apply ln_rnd_spec in L2; [|lia]. destruct L1 as (A & B & L1). destruct L2 as (C & D & L2). rewrite Rmult_1_l in L2.
  apply rnd_spec in R. destruct R as (X & Y & F). unfold log_bits. rewrite INR_pow, ln_pow2, INR_IZR_INZ, L1, L2.
  apply IZR_lt in A, B, C, D.
  replace (IZR a / IZR b / (IZR c / IZR d)) with (IZR (a * d) / IZR (b * c)) by (rewrite !mult_IZR; field; repeat split; lra).
  rewrite F. f_equal. unfold Zceil. f_equal.
  replace (- (IZR x / IZR y)) with (IZR (- x) / IZR y) by (rewrite opp_IZR; unfold Rdiv; ring).
  apply Zfloor_div. lia.
Qed.

Lemma rounded_powers : forall k, (k <= 31)%nat ->
  log_bits (fun x => fl (ln x)) (2 ^ k) = (if (k =? 29)%nat || (k =? 31)%nat then k + 1 else k)%nat.
Proof.
  intros k K. destruct (Nat.eq_dec k 0) as [->|NZ]; [exact (bits_one _ rounded_accurate)|].
  assert (G : forallb (fun k => match bits_of_power (Z.of_nat k) with Some r => (r =? Z.of_nat (if (k =? 29)%nat || (k =? 31)%nat then k + 1 else k))%Z | None => false end)
                (seq 1 31) = true) by (vm_compute; reflexivity).
  rewrite forallb_forall in G. specialize (G k ltac:(apply in_seq; lia)).
  destruct (bits_of_power (Z.of_nat k)) as [r|] eqn:E; [|discriminate]. apply Z.eqb_eq in G. rewrite (bits_of_power_spec k r E), G. apply Nat2Z.id.
Qed.
