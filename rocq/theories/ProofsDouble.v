(** * Rounding to doubles, scaling. *)
From Coq Require Import Reals List Arith ZArith Bool Lia Lra Psatz.
From Flocq Require Import Core Plus_error Relative Sterbenz.
From Verif Require Import Base ModelDouble.
Import ListNotations.
Local Open Scope R_scope.

Notation fexp := (FLT_exp (-1074) 53).
Global Instance prec53 : Prec_gt_0 53 := eq_refl.
Global Instance vfexp : Valid_exp fexp := FLT_exp_valid (-1074) 53.
Global Instance mfexp : Monotone_exp fexp := FLT_exp_monotone (-1074) 53.

Lemma fl_mono : forall x y, x <= y -> fl x <= fl y.
Proof. intros. apply round_le; auto with typeclass_instances. Qed.
Lemma fl_double : forall x, double x -> fl x = x.
Proof. intros. apply round_generic; auto with typeclass_instances. Qed.
Lemma double_fl : forall x, double (fl x).
Proof. intros. apply generic_format_round; auto with typeclass_instances. Qed.
Lemma fl_le : forall x y, double y -> x <= y -> fl x <= y.
Proof. intros x y Hy H. rewrite <- (fl_double y Hy). apply fl_mono; auto. Qed.
Lemma fl_ge : forall x y, double x -> x <= y -> x <= fl y.
Proof. intros x y Hy H. rewrite <- (fl_double x Hy). apply fl_mono; auto. Qed.

Lemma double_F : forall m e, (Z.abs m < 2 ^ 53)%Z -> (-1074 <= e)%Z -> double (IZR m * bpow radix2 e).
Proof.
  intros m e Hm He. change (double (F2R (Float radix2 m e))). apply generic_format_FLT. exists (Float radix2 m e); auto.
Qed.
Lemma double_Z : forall m, (Z.abs m <= 2 ^ 53)%Z -> double (IZR m).
Proof.
  intros m Hm. destruct (Z.eq_dec (Z.abs m) (2 ^ 53)) as [E|E].
  - replace (IZR m) with (IZR (m / 2 ^ 53) * bpow radix2 53).
    + apply double_F; [|lia]. assert (m = 2 ^ 53 \/ m = - 2 ^ 53)%Z as [->| ->] by lia; reflexivity.
    + change (bpow radix2 53) with (IZR (2 ^ 53)). rewrite <- mult_IZR. f_equal. assert (m = 2 ^ 53 \/ m = - 2 ^ 53)%Z as [->| ->] by lia; reflexivity.
  - replace (IZR m) with (IZR m * bpow radix2 0) by (simpl; lra). apply double_F; lia.
Qed.
Lemma double_0 : double 0.
Proof. apply (double_Z 0). simpl. lia. Qed.
Lemma double_1 : double 1.
Proof. apply (double_Z 1). simpl. lia. Qed.
Lemma double_INR : forall n, (Z.of_nat n <= 2 ^ 53)%Z -> double (INR n).
Proof. intros n H. rewrite INR_IZR_INZ. apply double_Z. lia. Qed.
Lemma double_opp : forall x, double x -> double (- x).
Proof. intros. apply generic_format_opp; auto. Qed.
Lemma double_half : forall x, double x -> bpow radix2 (-1021) <= Rabs x -> double (x / 2).
Proof.
  intros x H B. apply FLT_format_generic in H; [|reflexivity]. destruct H as [[m e] H1 H2 H3]. simpl in H2, H3. subst x. unfold F2R in *. simpl Fnum in *. simpl Fexp in *.
  assert (NZ : 0 < Rabs (IZR m * bpow radix2 e)) by (eapply Rlt_le_trans; [apply bpow_gt_0|exact B]).
  replace (IZR m * bpow radix2 e / 2) with (IZR m * bpow radix2 (e - 1)).
  2:{ unfold Zminus. rewrite bpow_plus. change (bpow radix2 (-(1))) with (/ 2). field. }
  destruct (Z_lt_le_dec (-1074) e) as [G|G]; [apply double_F; [exact H2|lia]|].
  assert (e = -1074)%Z as -> by lia.
  (* then |m| >= 2^53, impossible *)
  exfalso. rewrite Rabs_mult, (Rabs_pos_eq (bpow _ _)) in B by apply bpow_ge_0.
  assert (Q : bpow radix2 53 <= Rabs (IZR m)).
  { apply (Rmult_le_reg_r (bpow radix2 (-1074))); [apply bpow_gt_0|]. rewrite <- bpow_plus. exact B. }
  change (bpow radix2 53) with (IZR (2 ^ 53)) in Q. rewrite <- abs_IZR in Q. apply le_IZR in Q. change (Z.pow_pos 2 53) with (2 ^ 53)%Z in H2. change (radix_val radix2) with 2%Z in H2. lia.
Qed.

(** Relative error of a rounding in the normal range. *)
Lemma fl_rel : forall x, bpow radix2 (-1022) <= Rabs x -> exists e, Rabs e <= bpow radix2 (-53) /\ fl x = x * (1 + e).
Proof.
  intros x H. destruct (relative_error_N_FLT_ex radix2 (-1074) 53 ltac:(reflexivity) (fun t => negb (Z.even t)) x H) as (e & E1 & E2).
  exists e. split; [|exact E2]. eapply Rle_trans; [exact E1|]. simpl. lra.
Qed.
(** Sums of doubles have no underflow. *)
Lemma fl_plus_rel : forall x y, double x -> double y -> exists e, Rabs e <= bpow radix2 (-53) /\ fl (x + y) = (x + y) * (1 + e).
Proof.
  intros x y Hx Hy. destruct (FLT_plus_error_N_ex radix2 (-1074) 53 (fun t => negb (Z.even t)) x y Hx Hy) as (e & E1 & E2).
  exists e. split; [|exact E2]. eapply Rle_trans; [exact E1|]. unfold u_ro. simpl (bpow radix2 (- (53) + 1)).
  pose proof (u_rod1pu_ro_le_u_ro radix2 53) as Q. unfold u_ro in Q. simpl (bpow radix2 (- (53) + 1)) in Q. eapply Rle_trans; [exact Q|]. simpl. lra.
Qed.

(** ** Scaling *)
Lemma fl_pos : forall x, 0 <= x -> 0 <= fl x.
Proof. intros. apply fl_ge; auto. apply double_0. Qed.

Lemma scale_zero : forall lb ub, double lb -> scale_fl lb ub 0 = lb.
Proof. intros lb ub H. unfold scale_fl. rewrite Rmult_0_l, (fl_double 0 double_0), Rplus_0_l. apply fl_double; auto. Qed.

Lemma scale_mono : forall lb ub x y, lb <= ub -> x <= y -> scale_fl lb ub x <= scale_fl lb ub y.
Proof.
  intros lb ub x y B H. unfold scale_fl. apply fl_mono, Rplus_le_compat_r, fl_mono, Rmult_le_compat_r; auto. apply fl_pos. lra.
Qed.

Lemma scale_lower : forall lb ub x, double lb -> lb <= ub -> 0 <= x -> lb <= scale_fl lb ub x.
Proof. intros lb ub x D B X. rewrite <- (scale_zero lb ub D) at 1. apply scale_mono; auto. Qed.

(** Doubles below one are at most one minus 2^-53. *)
Lemma double_below_one : forall x, double x -> x < 1 -> x <= 1 - bpow radix2 (-53).
Proof.
  intros x D H. pose proof (pred_ge_gt radix2 fexp x 1 D double_1 H) as Q.
  replace (1 - bpow radix2 (-53)) with (pred radix2 fexp 1); auto.
  change 1 with (bpow radix2 0) at 1. rewrite pred_bpow. reflexivity.
Qed.

(** The rounded width is at most the exact one, or it is greater and rounding [x] times it, [x] a double below one, goes below the exact one. *)
Lemma scale_width : forall w x, (exists a b, double a /\ double b /\ w = a - b) -> 0 < w -> double x -> 0 <= x < 1 -> fl (x * fl w) <= w.
Proof.
  intros w x (a & b & Da & Db & Ew) W Dx (X0 & X1). set (d := fl w).
  assert (D0 : 0 <= d) by (apply fl_pos; lra).
  destruct (Rle_or_lt d w) as [L|L].
  { apply Rle_trans with d; auto. apply fl_le; [apply double_fl|]. rewrite <- (Rmult_1_l d) at 2. apply Rmult_le_compat_r; lra. }
  assert (NW : bpow radix2 (-1022) < w).
  { apply Rnot_le_lt. intros Q. apply (Rlt_irrefl w). rewrite <- (fl_double w) at 2; [exact L|].
    rewrite Ew. unfold Rminus. apply FLT_format_plus_small; auto with typeclass_instances; [apply double_opp; auto|].
    change (a + - b) with (a - b). rewrite <- Ew, Rabs_pos_eq by lra. eapply Rle_trans; [exact Q|]. apply bpow_le. lia. }
  assert (PD : 0 < d) by lra.
  assert (Dd : double d) by apply double_fl.
  assert (PW : pred radix2 fexp d <= w).
  { apply Rnot_lt_le. intros Q. assert (F : fl w <= pred radix2 fexp d) by (apply fl_le; [apply generic_format_pred; auto with typeclass_instances|lra]).
    fold d in F. assert (ND : d <> 0) by lra. pose proof (pred_lt_id radix2 fexp d ND). lra. }
  apply Rle_trans with (pred radix2 fexp d); auto.
  assert (FP : double (pred radix2 fexp d)) by (apply generic_format_pred; auto with typeclass_instances).
  assert (NP : bpow radix2 (-1022) <= pred radix2 fexp d).
  { apply pred_ge_gt; auto with typeclass_instances; [apply generic_format_FLT_bpow; [reflexivity|lia]|lra]. }
  apply (round_N_le_midp radix2 fexp); auto.
  rewrite succ_pred by auto with typeclass_instances.
  pose proof (double_below_one x Dx X1) as XB.
  assert (NZ : pred radix2 fexp d <> 0) by (pose proof (bpow_gt_0 radix2 (-1022)); lra).
  pose proof (pred_plus_ulp radix2 fexp d PD Dd) as PU.
  pose proof (bpow_gt_0 radix2 (-1022)) as B0.
  assert (UL : ulp radix2 fexp (pred radix2 fexp d) <= pred radix2 fexp d * bpow radix2 (-52)).
  { pose proof (ulp_FLT_le radix2 (-1074) 53 (pred radix2 fexp d)) as UL. rewrite Rabs_pos_eq in UL by lra. apply UL. exact NP. }
  assert (B53 : bpow radix2 (-52) = 2 * bpow radix2 (-53)).
  { change 2 with (bpow radix2 1). rewrite <- bpow_plus. reflexivity. }
  assert (P53 : 0 < bpow radix2 (-53)) by apply bpow_gt_0. rewrite B53 in UL.
  assert (LT : pred radix2 fexp d < d) by (apply pred_lt_id; lra).
  assert (x * d <= (1 - bpow radix2 (-53)) * d) by (apply Rmult_le_compat_r; lra).
  assert (bpow radix2 (-53) * pred radix2 fexp d < bpow radix2 (-53) * d) by (apply Rmult_lt_compat_l; auto).
  lra.
Qed.

Lemma scale_upper : forall lb ub x, double lb -> double ub -> lb < ub -> double x -> 0 <= x < 1 -> scale_fl lb ub x <= ub.
Proof.
  intros lb ub x L U B D X. unfold scale_fl. apply fl_le; auto.
  pose proof (scale_width (ub - lb) x (ex_intro _ ub (ex_intro _ lb (conj U (conj L eq_refl)))) ltac:(lra) D X). lra.
Qed.

(** At the upper end: how far the bound can be missed. *)
Lemma scale_one : forall lb ub, double lb -> double ub -> lb < ub -> Rabs (scale_fl lb ub 1 - ub) <= bpow radix2 (-51) * (Rabs lb + Rabs ub).
Proof.
  intros lb ub L U B. unfold scale_fl. rewrite Rmult_1_l, (fl_double (fl (ub - lb))) by apply double_fl.
  destruct (fl_plus_rel ub (- lb) U (double_opp _ L)) as (e1 & E1 & F1). change (ub + - lb) with (ub - lb) in F1.
  destruct (fl_plus_rel (fl (ub - lb)) lb (double_fl _) L) as (e2 & E2 & F2). rewrite F2, F1.
  replace (((ub - lb) * (1 + e1) + lb) * (1 + e2) - ub) with ((ub - lb) * e1 * (1 + e2) + ub * e2) by ring.
  eapply Rle_trans; [apply Rabs_triang|]. rewrite !Rabs_mult.
  set (u := bpow radix2 (-53)) in *. assert (PU : 0 < u) by apply bpow_gt_0. assert (U1 : u <= 1) by (change 1 with (bpow radix2 0); apply bpow_le; lia).
  assert (B4 : bpow radix2 (-51) = 4 * u) by (change 4 with (bpow radix2 2); unfold u; rewrite <- bpow_plus; reflexivity).
  assert (W : Rabs (ub - lb) <= Rabs lb + Rabs ub) by (unfold Rminus; eapply Rle_trans; [apply Rabs_triang|]; rewrite Rabs_Ropp; lra).
  assert (O : Rabs (1 + e2) <= 2) by (eapply Rle_trans; [apply Rabs_triang|]; rewrite Rabs_R1; lra).
  pose proof (Rabs_pos lb). pose proof (Rabs_pos ub). pose proof (Rabs_pos e1). pose proof (Rabs_pos e2). pose proof (Rabs_pos (1 + e2)). pose proof (Rabs_pos (ub - lb)).
  assert (Rabs (ub - lb) * Rabs e1 * Rabs (1 + e2) <= (Rabs lb + Rabs ub) * u * 2).
  { apply Rmult_le_compat; auto. apply Rmult_le_pos; auto. apply Rmult_le_compat; auto. }
  assert (Rabs ub * Rabs e2 <= Rabs ub * u) by (apply Rmult_le_compat_l; auto).
  assert (0 <= Rabs lb * u) by (apply Rmult_le_pos; lra).
  assert (0 <= Rabs ub * u) by (apply Rmult_le_pos; lra).
  rewrite B4. lra.
Qed.
