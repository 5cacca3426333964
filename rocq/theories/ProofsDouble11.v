(** * Rescaled outputs in double precision. *)
From Coq Require Import Reals String List Arith ZArith Bool Lia Lra Permutation.
From Flocq Require Import Core.
From Verif Require Import Base Arrays ListFacts ModelGroups ModelScale ProofsScale Stats ModelSobol SpecSobol ProofsSobol ProofsSobol2 ProofsSobol4 ModelDouble ModelDouble4 SpecDouble2
  ProofsDouble ProofsDouble5 ProofsDouble6 ProofsDouble8 ProofsDouble10.
Import ListNotations.
Local Open Scope R_scope.

(** ** Powers of two *)
Lemma flx_scale : forall x k, round radix2 (FLX_exp 53) ZnearestE (bpow radix2 k * x) = bpow radix2 k * round radix2 (FLX_exp 53) ZnearestE x.
Proof.
  intros x k. destruct (Req_dec x 0) as [->|N]; [rewrite Rmult_0_r, round_0 by apply valid_rnd_N; ring|].
  unfold round, F2R, scaled_mantissa, cexp. cbn [Fnum Fexp]. rewrite (Rmult_comm (bpow radix2 k) x), mag_mult_bpow by auto. unfold FLX_exp.
  replace (x * bpow radix2 k * bpow radix2 (- (mag radix2 x + k - 53))) with (x * bpow radix2 (- (mag radix2 x - 53))).
  - replace (mag radix2 x + k - 53)%Z with (k + (mag radix2 x - 53))%Z by ring. rewrite bpow_plus. ring.
  - rewrite Rmult_assoc, <- bpow_plus. do 2 f_equal. ring.
Qed.

Definition normal (x : R) : Prop := x = 0 \/ bpow radix2 (-1022) <= Rabs x.

Lemma fl_scale : forall x k, normal x -> normal (bpow radix2 k * x) -> fl (bpow radix2 k * x) = bpow radix2 k * fl x.
Proof.
  intros x k [->|H] H'; [rewrite Rmult_0_r, fl_0; ring|]. pose proof (bpow_gt_0 radix2 (-1022)). pose proof (bpow_gt_0 radix2 k).
  destruct H' as [E|H']; [apply Rmult_integral in E; destruct E as [E|E]; [lra|subst; rewrite Rabs_R0 in H; lra]|].
  unfold fl. rewrite !round_FLT_FLX by auto. apply flx_scale.
Qed.

(** Multiples of powers of two. *)
Definition mult (e : Z) (x : R) : Prop := exists m : Z, x = IZR m * bpow radix2 e.

Lemma mult_0 : forall e, mult e 0.
Proof. intros e. exists 0%Z. ring. Qed.
Lemma mult_plus : forall e x y, mult e x -> mult e y -> mult e (x + y).
Proof. intros e x y (a & ->) (b & ->). exists (a + b)%Z. rewrite plus_IZR. ring. Qed.
Lemma mult_minus : forall e x y, mult e x -> mult e y -> mult e (x - y).
Proof. intros e x y (a & ->) (b & ->). exists (a - b)%Z. rewrite minus_IZR. ring. Qed.
Lemma mult_weaken : forall e e' x, (e' <= e)%Z -> mult e x -> mult e' x.
Proof.
  intros e e' x H (m & ->). exists (m * 2 ^ (e - e'))%Z. rewrite mult_IZR, (IZR_Zpower radix2) by lia. rewrite Rmult_assoc, <- bpow_plus. do 2 f_equal. ring.
Qed.
Lemma mult_big : forall e x, mult e x -> x = 0 \/ bpow radix2 e <= Rabs x.
Proof.
  intros e x (m & ->). destruct (Z.eq_dec m 0) as [->|N]; [left; ring|right]. rewrite Rabs_mult, (Rabs_pos_eq (bpow _ _)) by apply bpow_ge_0.
  rewrite <- (Rmult_1_l (bpow radix2 e)) at 1. apply Rmult_le_compat_r; [apply bpow_ge_0|]. rewrite <- abs_IZR. apply IZR_le. lia.
Qed.
Lemma mult_fl : forall e x, (-1074 <= e)%Z -> mult e x -> mult e (fl x).
Proof.
  intros e x He (m & ->). destruct (Z.lt_ge_cases (Z.abs m) (2 ^ 53)) as [L|G].
  - exists m. apply fl_double, double_F; auto.
  - set (x := IZR m * bpow radix2 e). assert (NZ : x <> 0).
    { unfold x. apply Rmult_integral_contrapositive_currified; [apply not_0_IZR; lia|apply Rgt_not_eq, bpow_gt_0]. }
    assert (B : bpow radix2 (e + 53) <= Rabs x).
    { unfold x. rewrite Rabs_mult, (Rabs_pos_eq (bpow _ _)) by apply bpow_ge_0. rewrite bpow_plus, Rmult_comm. apply Rmult_le_compat_r; [apply bpow_ge_0|].
      rewrite <- abs_IZR. change (bpow radix2 53) with (IZR (2 ^ 53)). apply IZR_le. exact G. }
    assert (M : (e + 54 <= mag radix2 x)%Z) by (apply mag_ge_bpow; replace (e + 54 - 1)%Z with (e + 53)%Z by ring; exact B).
    apply (mult_weaken (cexp radix2 (FLT_exp (-1074) 53) x)); [unfold cexp, FLT_exp; lia|].
    exists (ZnearestE (scaled_mantissa radix2 (FLT_exp (-1074) 53) x)). reflexivity.
Qed.
Lemma double_mult : forall e x, double x -> x = 0 \/ bpow radix2 e <= Rabs x -> mult (e - 52) x.
Proof.
  intros e x D [->|H]; [apply mult_0|]. assert (M : (e + 1 <= mag radix2 x)%Z) by (apply mag_ge_bpow; replace (e + 1 - 1)%Z with e by ring; exact H).
  apply (mult_weaken (cexp radix2 (FLT_exp (-1074) 53) x)); [unfold cexp, FLT_exp; lia|].
  exists (Ztrunc (scaled_mantissa radix2 (FLT_exp (-1074) 53) x)). exact D.
Qed.
Lemma mult_normal : forall e x, (-1022 <= e)%Z -> mult e x -> normal x.
Proof. intros e x He M. destruct (mult_big e x M) as [->|H]; [left; auto|right]. eapply Rle_trans; [apply bpow_le; exact He|exact H]. Qed.
(** A number of at least 2^e that is divided by n <= 2^53 … *)
Lemma div_big : forall e x n, (1 <= n)%nat -> (Z.of_nat n <= 2 ^ 53)%Z -> x = 0 \/ bpow radix2 e <= Rabs x -> x / INR n = 0 \/ bpow radix2 (e - 53) <= Rabs (x / INR n).
Proof.
  intros e x n N1 N2 [->|H]; [left; unfold Rdiv; ring|right].
  assert (P : 0 < INR n) by (apply lt_0_INR; lia). assert (B : INR n <= bpow radix2 53).
  { rewrite INR_IZR_INZ. change (bpow radix2 53) with (IZR (2 ^ 53)). apply IZR_le. exact N2. }
  unfold Rdiv. rewrite Rabs_mult, (Rabs_pos_eq (/ INR n)) by (left; apply Rinv_0_lt_compat; auto).
  apply Rmult_le_reg_r with (INR n); auto. rewrite Rmult_assoc, Rinv_l, Rmult_1_r by lra.
  eapply Rle_trans; [|exact H]. replace (bpow radix2 e) with (bpow radix2 (e - 53) * bpow radix2 53) by (rewrite <- bpow_plus; f_equal; ring).
  apply Rmult_le_compat_l; [apply bpow_ge_0|exact B].
Qed.
Lemma fl_big : forall e x, (-1074 <= e)%Z -> x = 0 \/ bpow radix2 e <= Rabs x -> fl x = 0 \/ bpow radix2 e <= Rabs (fl x).
Proof.
  intros e x He [->|H]; [left; apply fl_0|right]. assert (D : double (bpow radix2 e)) by (apply generic_format_FLT_bpow; [reflexivity|lia]).
  destruct (Rle_dec 0 x).
  - rewrite Rabs_pos_eq in H by auto. rewrite Rabs_pos_eq by (apply fl_pos; auto). apply fl_ge; auto.
  - rewrite Rabs_left in H by lra. rewrite <- Rabs_Ropp, <- fl_opp. rewrite Rabs_pos_eq by (apply fl_pos; lra). apply fl_ge; auto.
Qed.

Section Scale.
Variable arr : nat -> tree.
Variable k : Z.
Notation c := (bpow radix2 k).

Lemma c_pos : 0 < c.
Proof. apply bpow_gt_0. Qed.

Lemma tsum_mult : forall e t l, (-1074 <= e)%Z -> (forall x, In x l -> mult e x) -> mult e (tsum t l).
Proof.
  intros e t l He H. induction t; cbn [tsum].
  - destruct (nth_in_or_default i l 0) as [I| ->]; [auto|apply mult_0].
  - apply mult_fl; auto. apply mult_plus; auto.
Qed.
Lemma nth_scaled : forall i l d, nth i (map (fun x => d * x) l) 0 = d * nth i l 0.
Proof. intros i l d. transitivity (nth i (map (fun x => d * x) l) (d * 0)); [f_equal; ring|]. apply (map_nth (fun x => d * x)). Qed.

Lemma tsum_scale : forall e t l, (-1022 <= e)%Z -> (forall x, In x l -> mult e x) -> (forall x, In x l -> mult e (c * x)) ->
  tsum t (map (fun x => c * x) l) = c * tsum t l.
Proof.
  intros e t l He H H'. assert (H'' : forall x, In x (map (fun x => c * x) l) -> mult e x) by (intros x Hx; apply in_map_iff in Hx; destruct Hx as (y & <- & Hy); auto).
  induction t; cbn [tsum]; [apply nth_scaled|].
  assert (E : tsum t1 (map (fun x => c * x) l) + tsum t2 (map (fun x => c * x) l) = c * (tsum t1 l + tsum t2 l)) by (rewrite IHt1, IHt2; ring).
  pose proof (mult_normal e _ He (mult_plus _ _ _ (tsum_mult e t1 _ ltac:(lia) H'') (tsum_mult e t2 _ ltac:(lia) H''))) as N.
  rewrite E in *. apply fl_scale; auto. apply (mult_normal e); auto. apply mult_plus; apply tsum_mult; auto; lia.
Qed.

Lemma quotient_scale : forall e s n, (-969 <= e)%Z -> (1 <= n)%nat -> (Z.of_nat n <= 2 ^ 53)%Z -> mult e s -> mult e (c * s) ->
  fl (c * s / INR n) = c * fl (s / INR n) /\ (fl (s / INR n) = 0 \/ bpow radix2 (e - 53) <= Rabs (fl (s / INR n))).
Proof.
  intros e s n He N1 N2 M M'. pose proof (div_big e s n N1 N2 (mult_big _ _ M)) as B. pose proof (div_big e _ n N1 N2 (mult_big _ _ M')) as B'.
  split; [|apply fl_big; auto; lia]. replace (c * s / INR n) with (c * (s / INR n)) in * by (unfold Rdiv; ring).
  assert (L : bpow radix2 (-1022) <= bpow radix2 (e - 53)) by (apply bpow_le; lia).
  apply fl_scale; [destruct B|destruct B']; [left|right|left|right]; auto; lra.
Qed.
End Scale.

(** ** Outputs multiplied by a power of two *)
Lemma moderate_eq : forall x, moderate x -> double x /\ (x = 0 \/ bpow radix2 (-300) <= Rabs x).
Proof. intros x [D H]. split; auto. rewrite bpow_powerRZ. exact H. Qed.

Lemma normalised_scale : forall arr k Y, (Z.of_nat (length Y) <= 2 ^ 53)%Z -> Y <> [] ->
  (forall y, In y Y -> moderate y /\ moderate (bpow radix2 k * y)) ->
  let Y' := map (fun y => bpow radix2 k * y) Y in
  mean_fl arr Y' = bpow radix2 k * mean_fl arr Y /\
  (forall y, In y Y -> fl (bpow radix2 k * y - bpow radix2 k * mean_fl arr Y) = bpow radix2 k * fl (y - mean_fl arr Y)) /\ std_fl arr Y' = bpow radix2 k * std_fl arr Y.
Proof.
  intros arr k Y N2 NE H Y'. set (c := bpow radix2 k). assert (C : 0 < c) by apply bpow_gt_0.
  assert (N1 : (1 <= length Y)%nat) by (destruct Y; [congruence|simpl; lia]).
  assert (L : length Y' = length Y) by apply map_length.
  assert (M : forall y, In y Y -> mult (-352) y) by (intros y Hy; destruct (H y Hy) as [X _]; apply moderate_eq in X; destruct X as [D B]; apply (double_mult (-300)); auto).
  assert (M' : forall y, In y Y -> mult (-352) (c * y)) by (intros y Hy; destruct (H y Hy) as [_ X]; apply moderate_eq in X; destruct X as [D B]; apply (double_mult (-300)); auto).
  assert (M2 : forall y, In y Y' -> mult (-352) y) by (intros y Hy; apply in_map_iff in Hy; destruct Hy as (z & <- & Hz); auto).
  assert (S : sum_fl arr Y' = c * sum_fl arr Y) by (unfold sum_fl; rewrite L; apply (tsum_scale k (-352)); auto; lia).
  assert (MS : mult (-352) (sum_fl arr Y)) by (apply tsum_mult; auto; lia).
  assert (MS' : mult (-352) (c * sum_fl arr Y)) by (rewrite <- S; apply tsum_mult; auto; lia).
  destruct (quotient_scale k (-352) _ (length Y) ltac:(lia) N1 N2 MS MS') as [E B].
  assert (Mu : mean_fl arr Y' = c * mean_fl arr Y) by (unfold mean_fl; rewrite L, S; exact E).
  split; [exact Mu|].
  assert (MM : mult (-457) (mean_fl arr Y)) by (apply (double_mult (-405)); [apply double_fl|exact B]).
  assert (MM' : mult (-457) (c * mean_fl arr Y)).
  { rewrite <- Mu. apply (double_mult (-405)); [apply double_fl|]. unfold mean_fl. rewrite S, L. apply fl_big; [lia|]. apply (div_big (-352)); auto. apply mult_big; auto. }
  set (mu := mean_fl arr Y) in *.
  assert (D1 : forall y, In y Y -> mult (-457) (y - mu)) by (intros y Hy; apply mult_minus; auto; apply (mult_weaken (-352)); [lia|auto]).
  assert (D2 : forall y, In y Y -> mult (-457) (c * y - c * mu)) by (intros y Hy; apply mult_minus; auto; apply (mult_weaken (-352)); [lia|auto]).
  assert (DE : forall y, In y Y -> fl (c * y - c * mu) = c * fl (y - mu)).
  { intros y Hy. pose proof (D2 y Hy) as X. replace (c * y - c * mu) with (c * (y - mu)) in * by ring. apply fl_scale; apply (mult_normal (-457)); auto; lia. }
  split; [exact DE|].
  assert (SQ : forall d, mult (-457) d -> d * d = 0 \/ bpow radix2 (-914) <= Rabs (d * d)).
  { intros d Md. destruct (mult_big _ _ Md) as [->|Bd]; [left; ring|right]. rewrite Rabs_mult. replace (bpow radix2 (-914)) with (bpow radix2 (-457) * bpow radix2 (-457)) by (rewrite <- bpow_plus; reflexivity).
    pose proof (bpow_ge_0 radix2 (-457)). apply Rmult_le_compat; auto. }
  assert (SN : forall d, mult (-457) d -> normal (d * d)).
  { intros d Md. destruct (SQ d Md) as [->|Bd]; [left; auto|right]. eapply Rle_trans; [|exact Bd]. apply bpow_le. lia. }
  assert (SM : forall d, mult (-457) d -> mult (-966) (fl (d * d))) by (intros d Md; apply (double_mult (-914)); [apply double_fl|apply fl_big; [lia|auto]]).
  assert (C2 : c * c = bpow radix2 (2 * k)) by (unfold c; rewrite <- bpow_plus; f_equal; ring).
  assert (F1 : forall y, In y Y -> mult (-457) (fl (y - mu))) by (intros y Hy; apply mult_fl; auto; lia).
  assert (F2 : forall y, In y Y -> mult (-457) (c * fl (y - mu))) by (intros y Hy; rewrite <- DE by auto; apply mult_fl; auto; lia).
  assert (SE : forall y, In y Y -> fl (c * fl (y - mu) * (c * fl (y - mu))) = bpow radix2 (2 * k) * fl (fl (y - mu) * fl (y - mu))).
  { intros y Hy. pose proof (SN _ (F2 y Hy)) as X. replace (c * fl (y - mu) * (c * fl (y - mu))) with (bpow radix2 (2 * k) * (fl (y - mu) * fl (y - mu))) in * by (rewrite <- C2; ring).
    apply fl_scale; auto. }
  assert (SL : squares_fl (c * mu) Y' = map (fun x => bpow radix2 (2 * k) * x) (squares_fl mu Y)).
  { unfold squares_fl, Y'. rewrite !map_map. apply map_ext_in. intros y Hy. fold c. rewrite DE by auto. apply SE; auto. }
  assert (Q1 : forall x, In x (squares_fl mu Y) -> mult (-966) x) by (intros x Hx; apply in_map_iff in Hx; destruct Hx as (y & <- & Hy); auto).
  assert (Q2 : forall x, In x (squares_fl mu Y) -> mult (-966) (bpow radix2 (2 * k) * x)).
  { intros x Hx. apply in_map_iff in Hx. destruct Hx as (y & <- & Hy). rewrite <- SE by auto. apply SM; auto. }
  assert (SS : sum_fl arr (squares_fl (c * mu) Y') = bpow radix2 (2 * k) * sum_fl arr (squares_fl mu Y)).
  { rewrite SL. unfold sum_fl. rewrite map_length. apply (tsum_scale (2 * k) (-966)); auto; lia. }
  assert (T1 : mult (-966) (sum_fl arr (squares_fl mu Y))) by (apply tsum_mult; auto; lia).
  assert (T2 : mult (-966) (bpow radix2 (2 * k) * sum_fl arr (squares_fl mu Y))).
  { rewrite <- SS, SL. apply tsum_mult; [lia|]. intros x Hx. apply in_map_iff in Hx. destruct Hx as (y & <- & Hy). auto. }
  destruct (quotient_scale (2 * k) (-966) _ (length Y) ltac:(lia) N1 N2 T1 T2) as [VE VB].
  assert (V : var_fl arr Y' = bpow radix2 (2 * k) * var_fl arr Y) by (unfold var_fl; rewrite Mu, L, SS; exact VE).
  assert (VP : 0 <= var_fl arr Y) by apply var_pos.
  unfold std_fl. rewrite V, sqrt_mult by (auto; apply bpow_ge_0). rewrite <- C2, sqrt_square by lra.
  assert (SB : forall v, 0 <= v -> v = 0 \/ bpow radix2 (-1020) <= Rabs v -> normal (sqrt v)).
  { intros v Pv [->|Bv]; [left; apply sqrt_0|right]. rewrite Rabs_pos_eq in Bv by auto. rewrite Rabs_pos_eq by apply sqrt_pos.
    apply Rle_trans with (bpow radix2 (-510)); [apply bpow_le; lia|]. rewrite <- (sqrt_square (bpow radix2 (-510))) by apply bpow_ge_0. apply sqrt_le_1_alt.
    rewrite <- bpow_plus. exact Bv. }
  apply fl_scale.
  - apply SB; auto. destruct VB as [VB|VB]; [left; exact VB|right]. eapply Rle_trans; [|exact VB]. apply bpow_le. lia.
  - replace (bpow radix2 k * sqrt (var_fl arr Y)) with (sqrt (var_fl arr Y')) by (rewrite V, sqrt_mult by (auto; apply bpow_ge_0); rewrite <- C2, sqrt_square by lra; reflexivity).
    apply SB; [apply var_pos|]. rewrite V. unfold var_fl in *. fold mu.
    pose proof (div_big (-966) _ (length Y) N1 N2 (mult_big _ _ T2)) as DB. pose proof (fl_big (-1019) _ ltac:(lia) DB) as FB.
    fold mu in VE. rewrite <- VE. destruct FB as [FB|FB]; [left; exact FB|right]. eapply Rle_trans; [|exact FB]. apply bpow_le. lia.
Qed.
