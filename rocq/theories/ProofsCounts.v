(** * Sizes computed in floating point: quotients of integers. *)
From Coq Require Import Reals List Arith ZArith Bool Lia Lra Psatz.
From Flocq Require Import Core.
From Verif Require Import Base ModelDouble ProofsDouble ModelCounts ProofsLevels2.
Import ListNotations.
Local Open Scope R_scope.

Lemma u53 : bpow radix2 (-53) = / 9007199254740992.
Proof. reflexivity. Qed.

(** Rounding stays below an integer that the exact value is far enough below. *)
Lemma fl_below : forall x (k : Z), 0 <= x -> double (IZR k) -> x + x * / 9007199254740992 < IZR k -> fl x < IZR k.
Proof.
  intros x k X D H. destruct (Rle_or_lt x (/ 4)) as [S|S].
  - assert (DQ : double (/ 4)). { replace (/ 4) with (IZR 1 * bpow radix2 (-2)) by (simpl; lra). apply double_F; lia. }
    assert (K : 1 <= IZR k). { apply (IZR_le 1). assert (0 < k)%Z; [|lia]. apply lt_IZR. lra. }
    pose proof (fl_le x (/ 4) DQ S). lra.
  - destruct (fl_rel x) as (e & E & F).
    + rewrite Rabs_pos_eq by lra. apply Rle_trans with (bpow radix2 (-2)); [apply bpow_le; lia|]. simpl. lra.
    + rewrite F. rewrite u53 in E. apply Rabs_le_inv in E. nra.
Qed.

Lemma trunc_between : forall x (k : nat), INR k <= x < INR k + 1 -> Z.to_nat (Ztrunc x) = k.
Proof.
  intros x k (A & B). pose proof (pos_INR k). rewrite Ztrunc_floor by lra. rewrite (Zfloor_imp (Z.of_nat k)); [apply Nat2Z.id|].
  rewrite plus_IZR, <- INR_IZR_INZ. auto.
Qed.

Lemma int_div_exact : forall a b, (0 < b)%nat -> (Z.of_nat a < 2 ^ 53)%Z -> int_div a b = (a / b)%nat.
Proof.
  intros a b Hb HU. unfold int_div. set (k := (a / b)%nat).
  assert (D : a = (b * k + a mod b)%nat) by (apply Nat.div_mod; lia).
  assert (M : (a mod b < b)%nat) by (apply Nat.mod_upper_bound; lia).
  assert (B0 : 0 < INR b) by (apply lt_0_INR; auto). pose proof (pos_INR a) as A0.
  assert (IB : 0 < / INR b) by (apply Rinv_0_lt_compat; auto).
  assert (KA : (k <= a)%nat) by nia.
  apply trunc_between. split.
  - apply fl_ge; [apply double_INR; lia|]. apply (Rmult_le_reg_r (INR b)); auto. unfold Rdiv. rewrite Rmult_assoc, Rinv_l, Rmult_1_r by lra.
    rewrite <- mult_INR. apply le_INR. nia.
  - rewrite (INR_IZR_INZ k), <- plus_IZR. apply fl_below.
    + apply Rmult_le_pos; lra.
    + apply double_Z. lia.
    + rewrite plus_IZR, <- INR_IZR_INZ.
      assert (UP : INR a <= (INR k + 1) * INR b - 1).
      { change 1 with (INR 1) at 1. rewrite <- plus_INR, <- mult_INR. change 1 with (INR 1). rewrite <- minus_INR by nia. apply le_INR. nia. }
      assert (AU : INR a < 9007199254740992) by (rewrite INR_IZR_INZ; apply (IZR_lt _ 9007199254740992); lia).
      apply (Rmult_lt_reg_r (INR b)); auto. unfold Rdiv. rewrite Rmult_plus_distr_r.
      replace (INR a * / INR b * / 9007199254740992 * INR b) with (INR a / 9007199254740992) by (field; lra).
      replace (INR a * / INR b * INR b) with (INR a) by (field; lra). lra.
Qed.

Lemma int_div_large_of : forall p, (Z.of_nat p = 2 ^ 54 - 1)%Z -> int_div p 2 <> (p / 2)%nat.
Proof.
  intros p P.
  assert (E : int_div p 2 = Z.to_nat (2 ^ 53)).
  { unfold int_div. rewrite (INR_IZR_INZ p), P. replace (INR 2) with (IZR 2) by (simpl; lra).
    destruct (rnd ((2 ^ 54 - 1)%Z, 2%Z)) as [[a q]|] eqn:R; [|vm_compute in R; discriminate].
    pose proof R as R'. apply rnd_spec in R'. destruct R' as (_ & _ & F). rewrite F. vm_compute in R. injection R as <- <-.
    unfold Rdiv. rewrite Rinv_1, Rmult_1_r, Ztrunc_IZR. reflexivity. }
  intros H. rewrite E in H. apply (f_equal Z.of_nat) in H. rewrite Nat2Z.inj_div, P, Z2Nat.id in H by lia. vm_compute in H. discriminate.
Qed.
Lemma int_div_large : int_div (Z.to_nat (2 ^ 54 - 1)) 2 <> (Z.to_nat (2 ^ 54 - 1) / 2)%nat.
Proof. apply int_div_large_of. apply Z2Nat.id. lia. Qed.

(** ** Halves *)
Lemma half_double : forall n, (Z.of_nat n <= 2 ^ 53)%Z -> double (INR n / 2).
Proof.
  intros n H. destruct (Nat.eq_dec n 0) as [->|NZ]; [simpl; replace (0 / 2) with 0 by lra; apply double_0|].
  apply double_half; [apply double_INR; auto|]. assert (1 <= INR n) by (change 1 with (INR 1); apply le_INR; lia).
  rewrite Rabs_pos_eq by lra. apply Rle_trans with (bpow radix2 0); [apply bpow_le; lia|]. simpl. auto.
Qed.

Lemma half_ceil : forall n, Zceil (INR n / 2) = Z.of_nat ((n + 1) / 2).
Proof.
  intros n. apply Zceil_imp. rewrite minus_IZR, <- INR_IZR_INZ. pose proof (Nat.div_mod (n + 1) 2 ltac:(lia)) as D. pose proof (Nat.mod_upper_bound (n + 1) 2 ltac:(lia)).
  assert (E : INR n + 1 = 2 * INR ((n + 1) / 2) + INR ((n + 1) mod 2)).
  { change 1 with (INR 1) at 1. change 2 with (INR 2) at 1. rewrite <- mult_INR, <- !plus_INR. f_equal. auto. }
  assert (0 <= INR ((n + 1) mod 2) <= 1). { split; [apply pos_INR|]. change 1 with (INR 1). apply le_INR. lia. }
  lra.
Qed.
Lemma half_floor : forall n, Z.to_nat (Ztrunc (INR n / 2)) = (n / 2)%nat.
Proof.
  intros n. apply trunc_between. pose proof (Nat.div_mod n 2 ltac:(lia)) as D. pose proof (Nat.mod_upper_bound n 2 ltac:(lia)).
  assert (E : INR n = 2 * INR (n / 2) + INR (n mod 2)).
  { change 2 with (INR 2) at 1. rewrite <- mult_INR, <- !plus_INR. f_equal. auto. }
  assert (0 <= INR (n mod 2) <= 1). { split; [apply pos_INR|]. change 1 with (INR 1). apply le_INR. lia. }
  lra.
Qed.

Lemma halves_exact : forall n, (Z.of_nat n <= 2 ^ 53)%Z ->
  ceil_half n = ((n + 1) / 2)%nat /\ ceil_times_half n = ((n + 1) / 2)%nat /\ int_times_half n = (n / 2)%nat.
Proof.
  intros n H. unfold ceil_half, ceil_times_half, int_times_half. replace (INR n * (1 / 2)) with (INR n / 2) by field.
  rewrite (fl_double (INR n / 2)) by (apply half_double; auto). rewrite half_ceil, Nat2Z.id. auto using half_floor.
Qed.

(** ** A two-hundredth: the double nearest to 0.005 is above it, so that multiples of 200 are not lost. *)
Lemma rate_value : fl (5 / 1000) = 5764607523034235 / 1152921504606846976.
Proof.
  destruct (rnd (5, 1000)%Z) as [[p q]|] eqn:R; [|vm_compute in R; discriminate].
  pose proof R as R'. apply rnd_spec in R'. destruct R' as (_ & _ & F). rewrite F. vm_compute in R. injection R as <- <-. reflexivity.
Qed.

Lemma min_class_size_exact : forall n, (Z.of_nat n <= 2 ^ 50)%Z -> min_class_size n = Nat.max (n / 200) 10.
Proof.
  intros n H. unfold min_class_size. f_equal. rewrite rate_value.
  assert (D : n = (200 * (n / 200) + n mod 200)%nat) by (apply Nat.div_mod; lia).
  assert (M : (n mod 200 < 200)%nat) by (apply Nat.mod_upper_bound; lia). set (k := (n / 200)%nat) in *.
  assert (NU : INR n <= 1125899906842624) by (rewrite INR_IZR_INZ; apply (IZR_le _ 1125899906842624); lia).
  assert (L : 200 * INR k <= INR n).
  { replace 200 with (INR 200) by (simpl; lra). rewrite <- mult_INR. apply le_INR. lia. }
  assert (U : INR n <= 200 * (INR k + 1) - 1).
  { replace 200 with (INR 200) by (simpl; lra). change 1 with (INR 1). rewrite <- plus_INR, <- mult_INR, <- minus_INR by lia. apply le_INR. lia. }
  pose proof (pos_INR n). pose proof (pos_INR k).
  apply trunc_between. split.
  - apply fl_ge; [apply double_INR; lia|]. lra.
  - rewrite (INR_IZR_INZ k), <- plus_IZR. apply fl_below.
    + lra.
    + apply double_Z. lia.
    + rewrite plus_IZR, <- INR_IZR_INZ. lra.
Qed.
