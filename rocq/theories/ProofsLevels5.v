(** * Twice as many bins. *)
From Coq Require Import Reals String List Arith ZArith Bool Lia Lra Psatz.
From Flocq Require Import Core.
From Verif Require Import Base Arrays ModelDouble ProofsDouble ProofsDouble11 ModelLevels SpecLevels ProofsLevels ProofsLevels2 ProofsLevels4.
Import ListNotations.
Local Open Scope R_scope.

Lemma normal_big : forall x, bpow radix2 (-100) <= x -> normal x.
Proof.
  intros x H. right. assert (0 < bpow radix2 (-100)) by apply bpow_gt_0. rewrite Rabs_pos_eq by lra.
  eapply Rle_trans; [|exact H]. apply bpow_le. lia.
Qed.

Lemma fits_scale : forall n k, (1 <= n)%nat -> (Z.of_nat (n * 2 ^ k) <= 2 ^ 49)%Z -> rsa_fits (n * 2 ^ k) <-> rsa_fits n.
Proof.
  intros n k N1 NU. pose proof (Nat.pow_nonzero 2 k ltac:(lia)) as PZ.
  assert (K49 : (k <= 49)%nat).
  { assert (2 ^ Z.of_nat k <= 2 ^ 49)%Z as Q; [|apply Z.pow_le_mono_r_iff in Q; lia].
    rewrite Nat2Z.inj_mul, Nat2Z.inj_pow in NU. change (Z.of_nat 2) with 2%Z in NU. assert (0 < 2 ^ Z.of_nat k)%Z by (apply Z.pow_pos_nonneg; lia). nia. }
  assert (NU' : (Z.of_nat n <= 2 ^ 49)%Z) by nia.
  destruct (pow_step k K49) as (_ & PE). pose proof (nr n N1 NU') as NR. pose proof (step_lt n N1 NU') as ST.
  set (c := bpow radix2 (Z.of_nat k)) in *. set (d := bpow radix2 (- Z.of_nat k)).
  assert (CP : 0 < c) by apply bpow_gt_0. assert (DP : 0 < d) by apply bpow_gt_0.
  assert (CD : c * d = 1). { unfold c, d. rewrite <- bpow_plus, Z.add_opp_diag_r. reflexivity. }
  assert (C1 : 1 <= c). { unfold c. change 1 with (bpow radix2 0). apply bpow_le. lia. }
  assert (DL : bpow radix2 (-49) <= d). { unfold d. apply bpow_le. lia. }
  assert (IN : bpow radix2 (-49) <= 1 / INR n).
  { change (bpow radix2 (-49)) with (/ 562949953421312). unfold Rdiv. rewrite Rmult_1_l. apply Rinv_le; lra. }
  assert (N0 : normal (1 / INR n)). { apply normal_big. eapply Rle_trans; [|exact IN]. apply bpow_le. lia. }
  unfold rsa_fits. set (h := fl (1 / INR n)) in *.
  assert (E1 : 1 / INR (n * 2 ^ k) = d * (1 / INR n)).
  { rewrite mult_INR, PE. apply (Rmult_eq_reg_r c); [|lra]. replace (d * (1 / INR n) * c) with (c * d * (1 / INR n)) by ring. rewrite CD. field. lra. }
  rewrite E1. unfold d. rewrite fl_scale; auto.
  2:{ apply normal_big. fold d. apply Rle_trans with (bpow radix2 (-49) * bpow radix2 (-49)).
      - rewrite <- bpow_plus. apply bpow_le. lia.
      - apply Rmult_le_compat; auto; apply bpow_ge_0. }
  fold d h. assert (H1 : 1 <= 1 / h).
  { apply (Rmult_le_reg_r h); [lra|]. unfold Rdiv. rewrite Rmult_1_l, Rmult_1_l, Rinv_l by lra. lra. }
  assert (E2 : 1 / (d * h) = c * (1 / h)). { apply (Rmult_eq_reg_r (d * h)); [|apply Rgt_not_eq; apply Rmult_lt_0_compat; lra].
    replace (c * (1 / h) * (d * h)) with (c * d * (/ h * h)) by (unfold Rdiv; ring). rewrite CD, Rinv_l by lra. field. split; lra. }
  rewrite E2. unfold c at 1. rewrite fl_scale.
  - fold c. rewrite mult_INR, PE. rewrite (Rmult_comm (INR n)). split; intros Q; [apply (Rmult_le_reg_l c); auto|apply Rmult_le_compat_l; lra].
  - apply normal_big. eapply Rle_trans; [|exact H1]. change 1 with (bpow radix2 0). apply bpow_le. lia.
  - apply normal_big. fold c. apply Rle_trans with 1; [change 1 with (bpow radix2 0); apply bpow_le; lia|]. nra.
Qed.

Lemma edges_scale : forall n k, (1 <= n)%nat -> (Z.of_nat (n * 2 ^ k) <= 2 ^ 49)%Z ->
  (length (rsa_edges (n * 2 ^ k)) = n * 2 ^ k <-> length (rsa_edges n) = n)%nat.
Proof.
  intros n k N1 NU. pose proof (fits_scale n k N1 NU) as F. pose proof (Nat.pow_nonzero 2 k ltac:(lia)) as PZ.
  assert (G : forall m, (1 <= m)%nat -> (Z.of_nat m <= 2 ^ 49)%Z -> (length (rsa_edges m) = m <-> rsa_fits m)).
  { intros m M1 MU. split.
    - intros L. destruct (Rle_dec (fl (1 / fl (1 / INR m))) (INR m)) as [Q|Q]; [exact Q|]. pose proof (edges_wrong m M1 MU Q). lia.
    - intros Q. rewrite (edges_right m M1 MU Q), map_length, seq_length. auto. }
  rewrite (G (n * 2 ^ k)%nat), (G n); auto; nia.
Qed.

Lemma wrong_49 : forall k, (k <= 43)%nat -> ~ rsa_fits (49 * 2 ^ k).
Proof.
  intros k K F. apply fits_scale in F; [|lia|].
  - apply (rsa_fits_100 49 ltac:(lia)) in F. apply F. left. reflexivity.
  - rewrite Nat2Z.inj_mul, Nat2Z.inj_pow. change (Z.of_nat 49) with 49%Z. change (Z.of_nat 2) with 2%Z.
    assert (2 ^ Z.of_nat k <= 2 ^ 43)%Z by (apply Z.pow_le_mono_r; lia). apply Z.le_trans with (49 * 2 ^ 43)%Z; [lia|vm_compute; discriminate].
Qed.
