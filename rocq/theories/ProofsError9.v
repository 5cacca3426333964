(** * Forward errors of standard deviations in double precision. *)
From Coq Require Import Reals String List Arith ZArith Bool Lia Lra Psatz Permutation.
From Flocq Require Import Core Relative.
From Verif Require Import Base Arrays ListFacts ModelScale ProofsScale Stats Sums ModelDouble ModelDouble4 SpecError ProofsDouble ProofsDouble5 ProofsDouble10 ProofsSingle3 ProofsRidge ProofsError ProofsError6.
Import ListNotations.
Local Open Scope R_scope.

(** ** Roots *)
Lemma root_sum : forall x y, 0 <= x -> 0 <= y -> sqrt (x + y) <= sqrt x + sqrt y.
Proof.
  intros x y X Y. pose proof (sqrt_pos x). pose proof (sqrt_pos y). apply Rsqr_incr_0_var; [|lra].
  rewrite Rsqr_sqrt by lra. unfold Rsqr. pose proof (sqrt_sqrt x X). pose proof (sqrt_sqrt y Y). nra.
Qed.
Definition small4 : R := bpow radix2 (-1020).
Lemma small4_pos : 0 < small4. Proof. apply bpow_gt_0. Qed.
Lemma small4_is : small4 = 4 * tiny.
Proof. unfold small4, tiny. change (-1020)%Z with (2 + -1022)%Z. rewrite bpow_plus. f_equal. Qed.
Lemma root_small : sqrt small4 = bpow radix2 (-510).
Proof. unfold small4. change (-1020)%Z with (-510 + -510)%Z. rewrite bpow_plus. apply sqrt_square. apply bpow_ge_0. Qed.
Lemma root_off : forall e x y, 0 <= e -> 0 <= x -> 0 <= y -> Rabs (y - x) <= e * (x + small4) -> Rabs (sqrt y - sqrt x) <= e * sqrt x + (1 + e) * bpow radix2 (-510).
Proof.
  intros e x y E X Y H. pose proof small4_pos as T. pose proof (sqrt_pos x) as PX. pose proof (sqrt_pos y) as PY. rewrite <- root_small. pose proof (sqrt_pos small4) as PT.
  apply Rabs_le_inv in H.
  assert (S1 : forall a, 0 <= a -> sqrt ((1 + e) * a) <= (1 + e) * sqrt a).
  { intros a A. pose proof (sqrt_pos a). apply Rsqr_incr_0_var; [|nra]. rewrite Rsqr_sqrt by nra. unfold Rsqr. pose proof (sqrt_sqrt a A).
    replace ((1 + e) * sqrt a * ((1 + e) * sqrt a)) with ((1 + e) * (1 + e) * (sqrt a * sqrt a)) by ring. rewrite H1.
    assert (0 <= (1 + e) * (e * a)) by (apply Rmult_le_pos; [lra|apply Rmult_le_pos; lra]). lra. }
  apply Rabs_le. split.
  - destruct (Rle_lt_dec 1 e) as [L|L]; [nra|].
    assert (A : (1 - e) * sqrt x <= sqrt ((1 - e) * x)).
    { apply Rsqr_incr_0_var; [|apply sqrt_pos]. rewrite Rsqr_sqrt by nra. unfold Rsqr. pose proof (sqrt_sqrt x X).
      replace ((1 - e) * sqrt x * ((1 - e) * sqrt x)) with ((1 - e) * (1 - e) * (sqrt x * sqrt x)) by ring. rewrite H0.
      assert (0 <= (1 - e) * (e * x)) by (apply Rmult_le_pos; [lra|apply Rmult_le_pos; lra]). lra. }
    assert (B : sqrt ((1 - e) * x) <= sqrt y + sqrt (e * small4)).
    { eapply Rle_trans; [|apply root_sum; nra]. apply sqrt_le_1_alt. nra. }
    assert (C : sqrt (e * small4) <= (1 + e) * sqrt small4). { eapply Rle_trans; [|apply S1; lra]. apply sqrt_le_1_alt. nra. }
    lra.
  - assert (A : sqrt y <= sqrt ((1 + e) * (x + small4))) by (apply sqrt_le_1_alt; nra).
    pose proof (S1 (x + small4) ltac:(lra)) as B. pose proof (root_sum x small4 X ltac:(lra)) as C. nra.
Qed.

Lemma sum_about : forall l m, l <> [] -> Rsum (map (fun x => (x - m) ^ 2) l) = Rsum (map (fun x => (x - mean l) ^ 2) l) + INR (length l) * (m - mean l) ^ 2.
Proof.
  intros l m NE. pose proof (var_about l m NE) as V. unfold var in V. unfold mean at 1 2 in V. rewrite !map_length in V.
  pose proof (INR_length_pos R l NE) as P. apply (f_equal (fun z => z * INR (length l))) in V. unfold Rdiv in V.
  rewrite Rmult_plus_distr_r, !Rmult_assoc, Rinv_l, !Rmult_1_r in V by lra. rewrite V. ring.
Qed.

Section Sd.
Variable arr : nat -> tree.
Hypothesis A : arrangement arr.

(** The sum of squares divided by [d], one of n and n - 1. *)
Lemma spread_off : forall l d, l <> [] -> List.Forall double l -> 1 <= d -> d <= INR (length l) <= 2 * d ->
  let S := sqrt (Rsum (map (fun x => (x - mean l) ^ 2) l) / d) in
  Rabs (fl (sqrt (fl (sum_fl arr (squares_fl (mean_fl arr l) l) / d))) - S) <= err (2 * length l + 5) * (S + 2 * mean (map Rabs l) + bpow radix2 (-456)).
Proof using A.
  intros l d NE D D1 DL S. set (n := length l) in *. pose proof tiny_pos as T. pose proof u_pos as U.
  pose proof (mean_error arr A l NE D) as MB. fold n in MB. unfold off in MB. set (b := mean_fl arr l - mean l) in *.
  set (m := mean_fl arr l) in *. assert (L1 : (0 < n)%nat) by (unfold n; destruct l; [congruence|simpl; lia]).
  assert (PI : 0 < / d) by (apply Rinv_0_lt_compat; lra).
  set (Q := Rsum (map (fun x => (x - mean l) ^ 2) l)) in *.
  assert (Q0 : 0 <= Q) by (apply Rsum_nonneg; intros x Hx; apply in_map_iff in Hx as (a & <- & _); apply pow2_ge_0).
  set (x := (Q + INR n * b ^ 2) / d).
  assert (X0 : 0 <= x). { unfold x, Rdiv. apply Rmult_le_pos; [|lra]. pose proof (pow2_ge_0 b). pose proof (pos_INR n). nra. }
  set (y := fl (sum_fl arr (squares_fl m l) / d)).
  (* the variance *)
  assert (V : off (n + 3) (x + small4) x y).
  { destruct (sum_off arr A R (fun z => (z - m) ^ 2) (fun z => fl (fl (z - m) * fl (z - m))) (fun z => (z - m) ^ 2 + tiny) 3 l NE) as (DS & OS).
    { intros z Hz. rewrite Forall_forall in D. split; [apply double_fl|]. split; [rewrite Rabs_pos_eq by apply pow2_ge_0; lra|]. apply square_off; [auto|apply double_fl]. }
    fold n in OS. rewrite (sum_about l m NE) in OS. fold Q n in OS. fold b in OS.
    assert (W : Rsum (map (fun z => (z - m) ^ 2 + tiny) l) = Q + INR n * b ^ 2 + INR n * tiny).
    { rewrite (Rsum_map_plus _ (fun z => (z - m) ^ 2) (fun _ => tiny)). rewrite (sum_about l m NE). fold Q n b. f_equal.
      unfold n. clear. induction l; unfold Rsum in *; cbn [map fold_right length]; [simpl; ring|]. rewrite S_INR, IHl. ring. }
    rewrite W in OS. replace (n + 3)%nat with (Datatypes.S (3 + (n - 1))) by lia. unfold y. apply off_weaken with (Datatypes.S (3 + (n - 1))) ((Q + INR n * b ^ 2 + INR n * tiny) / d + tiny); auto.
    - pose proof (pow2_ge_0 b). pose proof (pos_INR n). assert (0 <= (Q + INR n * b ^ 2 + INR n * tiny) * / d) by (apply Rmult_le_pos; nra). unfold Rdiv. lra.
    - rewrite small4_is. apply Rle_trans with (x + 2 * tiny + tiny); [|lra]. unfold x. apply Rplus_le_compat_r. unfold Rdiv. rewrite (Rmult_plus_distr_r (Q + INR n * b ^ 2)). apply Rplus_le_compat_l.
      apply Rmult_le_reg_r with d; [lra|]. rewrite Rmult_assoc, Rinv_l by lra. nra.
    - unfold x. apply (div_off (3 + (n - 1))); [lra| |exact OS]. rewrite Rabs_pos_eq; [|pose proof (pow2_ge_0 b); pose proof (pos_INR n); nra].
      pose proof (pos_INR n). nra. }
  assert (Y0 : 0 <= y).
  { unfold y. apply fl_pos. unfold Rdiv. apply Rmult_le_pos; [|lra]. apply tsum_pos. apply squares_pos. }
  unfold off in V. pose proof (err_pos (n + 3)) as E3. pose proof (root_off _ x y E3 X0 Y0 V) as RO.
  (* the root of the exact spread about the computed mean *)
  assert (S0 : 0 <= S) by apply sqrt_pos.
  assert (TS : S <= sqrt x <= S + 2 * Rabs b).
  { split.
    - apply sqrt_le_1_alt. unfold x, Rdiv. apply Rmult_le_compat_r; [lra|]. pose proof (pow2_ge_0 b). pose proof (pos_INR n). nra.
    - assert (X4 : x <= Q / d + (2 * Rabs b) * (2 * Rabs b)).
      { unfold x, Rdiv. rewrite Rmult_plus_distr_r. apply Rplus_le_compat_l. apply Rmult_le_reg_r with d; [lra|]. rewrite Rmult_assoc, Rinv_l by lra.
        pose proof (pow2_abs b) as PB. pose proof (pow2_ge_0 b). replace (2 * Rabs b * (2 * Rabs b)) with (4 * b ^ 2) by (rewrite <- PB; ring). nra. }
      eapply Rle_trans; [apply sqrt_le_1_alt, X4|]. pose proof (Rabs_pos b).
      eapply Rle_trans; [apply root_sum; [unfold Rdiv; apply Rmult_le_pos; lra|nra]|]. rewrite (sqrt_square (2 * Rabs b)) by lra. fold S. lra. }
  set (t := sqrt x) in *. set (r := sqrt y) in *. assert (R0 : 0 <= r) by apply sqrt_pos.
  pose proof (fl_err r) as FR. rewrite (Rabs_pos_eq r) in FR by auto.
  set (M := mean (map Rabs l)) in *. set (th := bpow radix2 (-510)) in *. assert (TH : 0 < th) by apply bpow_gt_0.
  assert (M0 : 0 <= M). { unfold M. apply mean_nonneg. intros z Hz. apply in_map_iff in Hz as (a & <- & _). apply Rabs_pos. }
  set (e3 := err (n + 3)) in *. set (e4 := err (n + 4)).
  assert (E4 : e4 = u * (1 + e3) + e3) by (unfold e4, e3; replace (n + 4)%nat with (Datatypes.S (n + 3)) by lia; apply err_S).
  assert (B1 : Rabs (fl r - S) <= e4 * S + 2 * (1 + e4) * Rabs b + (1 + e4) * th + u * tiny).
  { apply Rabs_le_inv in RO. apply Rabs_le_inv in FR. pose proof (Rabs_pos b).
    assert (UR : u * r <= u * ((1 + e3) * t + (1 + e3) * th)) by (apply Rmult_le_compat_l; lra).
    assert (ET : e4 * t <= e4 * (S + 2 * Rabs b)) by (apply Rmult_le_compat_l; [rewrite E4; nra|lra]).
    assert (EQ : u * ((1 + e3) * t + (1 + e3) * th) + e3 * t + (1 + e3) * th = e4 * t + (1 + e4) * th) by (rewrite E4; ring).
    apply Rabs_le. split; lra. }
  set (N := (2 * n + 5)%nat). assert (EN : err n * (1 + e4) <= err N).
  { pose proof (err_add n (n + 4)) as EA. fold e4 in EA. assert (e4 >= 0) by (apply Rle_ge, err_pos). pose proof (err_le (n + (n + 4)) N ltac:(unfold N; lia)). pose proof (err_pos n). nra. }
  assert (EN4 : e4 <= err N) by (apply err_le; unfold N; lia).
  assert (EU : u <= err N). { apply Rle_trans with (err 1); [rewrite err_S, err_0; lra|apply err_le; unfold N; lia]. }
  assert (BB : (1 + e4) * Rabs b <= err N * (M + tiny)).
  { assert (0 <= e4) by apply err_pos. apply Rle_trans with ((1 + e4) * (err n * (M + tiny))); [apply Rmult_le_compat_l; lra|].
    replace ((1 + e4) * (err n * (M + tiny))) with (err n * (1 + e4) * (M + tiny)) by ring. apply Rmult_le_compat_r; lra. }
  assert (TU : th = u * bpow radix2 (-457)) by (unfold th, u; rewrite <- bpow_plus; reflexivity).
  assert (TI : 3 * tiny <= th).
  { unfold th, tiny. apply Rle_trans with (bpow radix2 2 * bpow radix2 (-1022)); [pose proof tiny_pos; simpl (bpow radix2 2); unfold tiny in *; lra|]. rewrite <- bpow_plus. apply bpow_le. lia. }
  assert (T2 : 2 * th <= bpow radix2 (-457)). { change 2 with (bpow radix2 1) at 1. unfold th. rewrite <- bpow_plus. apply bpow_le. lia. }
  assert (P7 : bpow radix2 (-456) = 2 * bpow radix2 (-457)) by (change 2 with (bpow radix2 1); rewrite <- bpow_plus; reflexivity).
  pose proof (bpow_gt_0 radix2 (-457)) as P57. set (q := bpow radix2 (-457)) in *. rewrite P7. change (2 * length l + 5)%nat with N. pose proof (err_pos N) as NP. set (e := err N) in *.
  assert (A1 : e4 * S <= e * S) by (apply Rmult_le_compat_r; lra).
  assert (A2 : e4 * th <= e * th) by (apply Rmult_le_compat_r; lra).
  assert (A3 : u * q <= e * q) by (apply Rmult_le_compat_r; lra).
  assert (A4 : u * tiny <= e * tiny) by (apply Rmult_le_compat_r; lra).
  assert (A5 : e * (th + 3 * tiny) <= e * q) by (apply Rmult_le_compat_l; lra).
  nra.
Qed.

(** np.std, with ddof 0 and 1. *)
Lemma std_error : forall l, l <> [] -> List.Forall double l ->
  Rabs (std_fl arr l - sqrt (var l)) <= err (2 * length l + 5) * (sqrt (var l) + 2 * mean (map Rabs l) + bpow radix2 (-456)).
Proof using A.
  intros l NE D. assert (P : 1 <= INR (length l)) by (destruct l; [congruence|]; simpl length; rewrite S_INR; pose proof (pos_INR (length l)); lra).
  unfold std_fl, var_fl, var. unfold mean at 1 3. rewrite map_length. apply (spread_off l (INR (length l)) NE D); lra.
Qed.
Lemma std1_error : forall l v s, List.Forall double l -> std1_fl arr l = Some v -> sd1 l = Some s ->
  Rabs (v - s) <= err (2 * length l + 5) * (s + 2 * mean (map Rabs l) + bpow radix2 (-456)).
Proof using A.
  intros l v s D. unfold std1_fl, sd1. destruct (length l <? 2)%nat eqn:E; [discriminate|]. apply Nat.ltb_ge in E. intros H H'. injection H as <-. injection H' as <-.
  assert (P : INR (length l) = INR (length l - 1) + 1) by (rewrite <- S_INR; f_equal; lia).
  assert (P1 : 1 <= INR (length l - 1)) by (change 1 with (INR 1); apply le_INR; lia).
  assert (NE : l <> []) by (intros ->; simpl in E; lia).
  apply (spread_off l (INR (length l - 1)) NE D); lra.
Qed.
End Sd.
