(** * Constant outputs of the Sobol' analysis in double precision. *)
From Coq Require Import Reals String List Arith ZArith Bool Lia Lra Psatz Permutation.
From Flocq Require Import Core.
From Verif Require Import Base Arrays ListFacts ModelGroups ModelScale ProofsScale ModelSobol ProofsSobol5 ProofsSobol7 ModelDouble ModelDouble3 ProofsDouble ProofsDouble2 ProofsDouble5 ProofsDouble6.
Import ListNotations.
Local Open Scope R_scope.

(** ** Sums *)

Lemma sums_length : forall l s, sums_to l s -> (1 <= length l)%nat.
Proof. induction 1; [simpl; lia|]. apply Permutation_length in H. rewrite H, app_length. lia. Qed.

Lemma sums_parts : forall (P : R -> Prop) l l1 l2, Permutation l (l1 ++ l2) -> (forall x, In x l -> P x) -> (forall x, In x l1 -> P x) /\ (forall x, In x l2 -> P x).
Proof.
  intros P l l1 l2 H A. split; intros x Hx; apply A; eapply Permutation_in; try (apply Permutation_sym; exact H); apply in_or_app; auto.
Qed.

Lemma sums_zero : forall l s, sums_to l s -> (forall x, In x l -> x = 0) -> s = 0.
Proof.
  induction 1; intros A; [apply A; simpl; auto|]. destruct (sums_parts _ _ _ _ H A) as (A1 & A2). rewrite IHsums_to1, IHsums_to2 by auto.
  rewrite Rplus_0_r. apply fl_double, double_0.
Qed.

Lemma sums_above : forall m, double m -> 0 <= m -> forall l s, sums_to l s -> (forall x, In x l -> m <= x) -> m <= s.
Proof.
  intros m D M. induction 1; intros A; [apply A; simpl; auto|]. destruct (sums_parts _ _ _ _ H A) as (A1 & A2). specialize (IHsums_to1 A1). specialize (IHsums_to2 A2).
  apply fl_ge; auto. lra.
Qed.

Lemma double_F' : forall m e, (Z.abs m <= 2 ^ 53)%Z -> (-1074 <= e)%Z -> double (IZR m * bpow radix2 e).
Proof.
  intros m e Hm He. destruct (Z.eq_dec (Z.abs m) (2 ^ 53)) as [E|E]; [|apply double_F; lia].
  assert (Q : exists t, (Z.abs t < 2 ^ 53)%Z /\ IZR m * bpow radix2 e = IZR t * bpow radix2 (e + 53)).
  { assert (B : bpow radix2 (e + 53) = bpow radix2 e * 9007199254740992) by (rewrite bpow_plus; f_equal; simpl; lra).
    assert (m = 2 ^ 53 \/ m = - 2 ^ 53)%Z as [->| ->] by lia; [exists 1%Z|exists (-1)%Z]; (split; [simpl; lia|]); rewrite B; simpl; lra. }
  destruct Q as (t & T & ->). apply double_F; auto. lia.
Qed.

Lemma sums_exact : forall k e l s, (-1074 <= e)%Z -> sums_to l s -> (forall x, In x l -> x = IZR k * bpow radix2 e) -> (Z.abs k * Z.of_nat (length l) <= 2 ^ 53)%Z ->
  s = INR (length l) * (IZR k * bpow radix2 e).
Proof.
  intros k e l s E. induction 1; intros A B.
  - rewrite (A x) by (simpl; auto). simpl. lra.
  - destruct (sums_parts _ _ _ _ H A) as (A1 & A2). pose proof (Permutation_length H) as L. rewrite app_length in L.
    rewrite IHsums_to1, IHsums_to2 by (auto; nia). rewrite L, plus_INR.
    replace (INR (length l1) * (IZR k * bpow radix2 e) + INR (length l2) * (IZR k * bpow radix2 e)) with (IZR ((Z.of_nat (length l1) + Z.of_nat (length l2)) * k) * bpow radix2 e)
      by (rewrite mult_IZR, plus_IZR, <- !INR_IZR_INZ; ring).
    rewrite fl_double; [rewrite mult_IZR, plus_IZR, <- !INR_IZR_INZ; ring|]. apply double_F'; auto. rewrite Z.abs_mul. nia.
Qed.

(** Numbers from left to right. *)
Lemma sum_left_ok : forall l x0 l0, sums_to l0 x0 -> sums_to (l0 ++ l) (sum_left x0 l).
Proof.
  induction l as [|y l IH]; intros x0 l0 H; cbn [sum_left fold_left]; [rewrite app_nil_r; auto|].
  change (y :: l) with ([y] ++ l). rewrite app_assoc. apply IH. eapply sums_two; [apply Permutation_refl|exact H|constructor].
Qed.

(** ** Mean and standard deviation of a constant *)

Lemma mean_exact : forall k e Y mu, (-1074 <= e)%Z -> (forall y, In y Y -> y = IZR k * bpow radix2 e) -> (Z.abs k * Z.of_nat (length Y) <= 2 ^ 53)%Z ->
  np_mean Y mu -> mu = IZR k * bpow radix2 e.
Proof.
  intros k e Y mu E A B (s & S & ->). pose proof (sums_length _ _ S) as L. rewrite (sums_exact k e Y s E S A B).
  assert (0 < INR (length Y)) by (apply lt_0_INR; lia).
  replace (INR (length Y) * (IZR k * bpow radix2 e) / INR (length Y)) with (IZR k * bpow radix2 e) by (field; lra). apply fl_double. apply double_F'; auto. nia.
Qed.

Lemma std_zero : forall c Y sigma, (forall y, In y Y -> y = c) -> np_std c Y sigma -> sigma = 0.
Proof.
  intros c Y sigma A (s & S & ->). assert (E : s = 0).
  { apply (sums_zero _ _ S). intros x Hx. apply in_map_iff in Hx. destruct Hx as (y & <- & Hy). rewrite (A y Hy), Rminus_diag_eq, (fl_double 0 double_0), Rmult_0_l by auto. apply fl_double, double_0. }
  rewrite E. unfold Rdiv. rewrite Rmult_0_l, (fl_double 0 double_0), sqrt_0. apply fl_double, double_0.
Qed.

Lemma gap_pos : forall c mu, double c -> double mu -> bpow radix2 (-400) <= c -> mu <> c -> bpow radix2 (-454) <= Rabs (c - mu).
Proof.
  intros c mu C M L N. pose proof (bpow_gt_0 radix2 (-400)) as P.
  assert (B : forall t, / 2 * bpow radix2 (-400) <= Rabs t -> bpow radix2 (-454) <= ulp radix2 fexp t).
  { intros t T. apply Rle_trans with (Rabs t * bpow radix2 (- 53)).
    - apply Rle_trans with (/ 2 * bpow radix2 (-400) * bpow radix2 (-53)); [|apply Rmult_le_compat_r; [apply bpow_ge_0|auto]].
      change (/ 2) with (bpow radix2 (-1)). rewrite <- !bpow_plus. apply bpow_le. lia.
    - left. exact (ulp_FLT_gt radix2 (-1074) 53 t). }
  destruct (Rtotal_order mu c) as [H|[H|H]]; [|contradiction|].
  - rewrite Rabs_pos_eq by lra. pose proof (pred_ge_gt radix2 fexp mu c M C H) as Q.
    assert (H2 : c / 2 <= pred radix2 fexp c).
    { apply (pred_ge_gt radix2 fexp (c / 2) c); [apply double_half; auto|auto|lra]. rewrite Rabs_pos_eq by lra. eapply Rle_trans; [|exact L]. apply bpow_le. lia. }
    assert (E : c = pred radix2 fexp c + ulp radix2 fexp (pred radix2 fexp c)).
    { rewrite <- succ_eq_pos by lra. symmetry. apply succ_pred; auto with typeclass_instances. }
    pose proof (B (pred radix2 fexp c)) as Q2. rewrite Rabs_pos_eq in Q2 by lra. specialize (Q2 ltac:(lra)). lra.
  - rewrite Rabs_left by lra. pose proof (succ_le_lt radix2 fexp c mu C M H) as Q. rewrite succ_eq_pos in Q by lra.
    pose proof (B c) as Q2. rewrite Rabs_pos_eq in Q2 by lra. specialize (Q2 ltac:(lra)). lra.
Qed.

Lemma gap : forall c mu, double c -> double mu -> bpow radix2 (-400) <= Rabs c -> mu <> c -> bpow radix2 (-454) <= Rabs (c - mu).
Proof.
  intros c mu C M L N. destruct (Rle_or_lt 0 c) as [H|H].
  - rewrite Rabs_pos_eq in L by auto. apply gap_pos; auto.
  - rewrite Rabs_left in L by auto. replace (c - mu) with (- (- c - - mu)) by ring. rewrite Rabs_Ropp. apply gap_pos; auto; try (apply double_opp; auto). lra.
Qed.

Lemma std_nonzero : forall c mu Y sigma, double c -> double mu -> bpow radix2 (-400) <= Rabs c -> (Z.of_nat (length Y) <= 2 ^ 53)%Z -> (forall y, In y Y -> y = c) ->
  mu <> c -> np_std mu Y sigma -> 0 < sigma.
Proof.
  intros c mu Y sigma C M L LY A N (s & S & ->). pose proof (gap c mu C M L N) as G.
  pose proof (sums_length _ _ S) as LS. rewrite map_length in LS.
  assert (P908 : double (bpow radix2 (-908))) by (apply generic_format_FLT_bpow; [reflexivity|lia]).
  assert (S0 : bpow radix2 (-908) <= s).
  { apply (sums_above _ P908 (bpow_ge_0 _ _) _ _ S). intros x Hx. apply in_map_iff in Hx. destruct Hx as (y & <- & Hy). rewrite (A y Hy). apply fl_ge; auto.
    assert (F : bpow radix2 (-454) <= Rabs (fl (c - mu))).
    { unfold fl. apply abs_round_ge_generic; auto with typeclass_instances. apply generic_format_FLT_bpow; [reflexivity|lia]. }
    rewrite <- (Rabs_pos_eq (fl (c - mu) * fl (c - mu))) by (apply Rle_0_sqr). rewrite Rabs_mult. replace (-908)%Z with (-454 + -454)%Z by lia. rewrite bpow_plus.
    apply Rmult_le_compat; auto using bpow_ge_0. }
  assert (NR : 1 <= INR (length Y) <= 9007199254740992).
  { split; [change 1 with (INR 1); apply le_INR; lia|]. rewrite INR_IZR_INZ. apply (IZR_le _ 9007199254740992). auto. }
  assert (V : bpow radix2 (-962) <= fl (s / INR (length Y))).
  { apply fl_ge; [apply generic_format_FLT_bpow; [reflexivity|lia]|]. apply (Rmult_le_reg_r (INR (length Y))); [lra|]. unfold Rdiv. rewrite Rmult_assoc, Rinv_l, Rmult_1_r by lra.
    apply Rle_trans with (bpow radix2 (-962) * 9007199254740992); [apply Rmult_le_compat_l; [apply bpow_ge_0|lra]|]. apply Rle_trans with (bpow radix2 (-908)); auto.
    replace 9007199254740992 with (bpow radix2 53) by (simpl; lra). rewrite <- bpow_plus. apply bpow_le. lia. }
  apply Rlt_le_trans with (bpow radix2 (-481)); [apply bpow_gt_0|]. apply fl_ge; [apply generic_format_FLT_bpow; [reflexivity|lia]|].
  replace (bpow radix2 (-481)) with (sqrt (bpow radix2 (-962))); [apply sqrt_le_1_alt; auto|].
  replace (-962)%Z with (-481 + -481)%Z by lia. rewrite bpow_plus. apply sqrt_square, bpow_ge_0.
Qed.

(** ** The analysis *)

Lemma analyze_fl_constant : forall mu sigma Zq resample cpus p Y c second conf keep workers, sigma <> 0 -> (forall y, In y Y -> y = c) ->
  sobol_analyze_fl mu sigma Zq resample cpus p Y second conf keep workers =
  analyze_with (c - fl (fl (c - mu) / sigma)) 1 Zq resample cpus p Y second conf keep workers.
Proof.
  intros mu sigma Zq resample cpus p Y c second conf keep workers S A. unfold sobol_analyze_fl, analyze_with. cbv zeta.
  assert (E : map (fun y => fl (fl (y - mu) / sigma)) Y = map (fun y => (y - (c - fl (fl (c - mu) / sigma))) / 1) Y).
  { apply map_ext_in. intros y Hy. rewrite (A y Hy). field. }
  rewrite E. unfold Reqb. destruct (Req_EM_T sigma 0); [contradiction|]. destruct (Req_EM_T 1 0); [lra|]. reflexivity.
Qed.

Lemma analyze_fl_nan : forall mu Zq resample cpus p Y second conf keep workers,
  sobol_analyze_fl mu 0 Zq resample cpus p Y second conf keep workers = analyze_with mu 0 Zq resample cpus p Y second conf keep workers.
Proof. intros. unfold sobol_analyze_fl, analyze_with, Reqb. cbv zeta. destruct (Req_EM_T 0 0); [reflexivity|congruence]. Qed.

(** ** Six outputs of 0.1 *)

Definition tenth : R := fl (1 / 10).
Definition tenths : list R := repeat tenth 6.
