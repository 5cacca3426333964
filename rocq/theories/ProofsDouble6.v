(** * Steps of half the range or more survive scaling in double precision. *)
From Coq Require Import Reals ZArith Lia Lra Psatz.
From Flocq Require Import Core.
From Verif Require Import ModelDouble ProofsDouble ProofsDouble2 ProofsDouble5.
Local Open Scope R_scope.

Notation fexp := (FLT_exp (-1074) 53).

Lemma next_above : forall v, v < succ radix2 fexp v.
Proof.
  intros v. destruct (Req_dec v 0) as [->|Z].
  - rewrite succ_0, ulp_FLT_0 by reflexivity. apply bpow_gt_0.
  - apply succ_gt_id. auto.
Qed.
Lemma next_below : forall v, pred radix2 fexp v < v.
Proof. intros v. unfold pred. pose proof (next_above (- v)). lra. Qed.

(** Numbers that round to [v] lie within half of the distances to the neighbours of [v]. *)
Lemma cell_up : forall x v, double v -> fl x = v -> x <= (v + succ radix2 fexp v) / 2.
Proof.
  intros x v D E. apply Rnot_lt_le. intros H. pose proof (next_above v) as N.
  assert (Q : succ radix2 fexp v <= fl x).
  { apply round_N_ge_midp; auto with typeclass_instances. { apply generic_format_succ; auto with typeclass_instances. }
    rewrite pred_succ by (auto with typeclass_instances). lra. }
  lra.
Qed.
Lemma cell_down : forall x v, double v -> fl x = v -> (v + pred radix2 fexp v) / 2 <= x.
Proof.
  intros x v D E. apply Rnot_lt_le. intros H. pose proof (next_below v) as N.
  assert (Q : fl x <= pred radix2 fexp v).
  { apply round_N_le_midp; auto with typeclass_instances. { apply generic_format_pred; auto with typeclass_instances. }
    rewrite succ_pred by (auto with typeclass_instances). lra. }
  lra.
Qed.

(** Between two doubles, a step of more than half their distance (and a bit for a slight excess above the upper one) changes the rounding. *)
Lemma step_rounds : forall lb ub s t c, double lb -> double ub -> lb < ub -> lb <= s <= ub -> t <= ub + c -> 0 <= c -> (ub - lb) / 2 + c < t - s -> fl s < fl t.
Proof.
  intros lb ub s t c L U B S T C H.
  assert (M : fl s <= fl t) by (apply fl_mono; lra). destruct (Rle_lt_or_eq_dec _ _ M) as [|E]; auto. exfalso.
  set (v := fl s) in *. assert (D : double v) by apply double_fl. symmetry in E.
  assert (V1 : lb <= v) by (apply fl_ge; auto; lra). assert (V2 : v <= ub) by (apply fl_le; auto; lra).
  assert (Hs : lb <= v /\ (v = lb \/ (lb + v) / 2 <= s)).
  { split; auto. destruct (Rle_lt_or_eq_dec _ _ V1) as [V|V]; [|left; auto]. right. pose proof (cell_down s v D eq_refl) as Q.
    pose proof (pred_ge_gt radix2 fexp lb v L D V). lra. }
  assert (Ht : v = ub \/ t <= (v + ub) / 2).
  { destruct (Rle_lt_or_eq_dec _ _ V2) as [V|V]; [|left; auto]. right. pose proof (cell_up t v D E) as Q.
    pose proof (succ_le_lt radix2 fexp v ub D U V). lra. }
  destruct Hs as (_ & [Hs|Hs]), Ht as [Ht|Ht]; lra.
Qed.

(** Two points of [0, 1] more than one half (plus 2^-49) apart stay in order when scaled. *)
Lemma scale_step : forall lb ub x y, double lb -> double ub -> bpow radix2 (-1000) <= ub - lb -> double x -> double y -> 0 <= x -> y <= 1 ->
  / 2 + bpow radix2 (-49) <= y - x -> scale_fl lb ub x < scale_fl lb ub y.
Proof.
  intros lb ub x y L U W Dx Dy X Y H. pose proof (bpow_gt_0 radix2 (-1000)) as P0. set (w := ub - lb) in *. assert (Ew : w = ub - lb) by reflexivity.
  assert (B : lb < ub) by lra. assert (W0 : 0 < w) by lra.
  assert (U49 : bpow radix2 (-49) = 16 * bpow radix2 (-53)) by (rewrite u_small; change (bpow radix2 (-49)) with (/ 562949953421312); lra).
  rewrite U49 in H. set (u := bpow radix2 (-53)) in *. assert (U0 : 0 < u < / 1000000) by (unfold u; rewrite u_small; lra).
  unfold scale_fl. fold w.
  destruct (fl_plus_rel ub (- lb) U (double_opp _ L)) as (e1 & E1 & F1). change (ub + - lb) with w in F1. fold u in E1. apply Rabs_le_inv in E1.
  destruct (fl_err (x * fl w)) as (e2 & t2 & E2 & T2 & F2). destruct (fl_err (y * fl w)) as (e3 & t3 & E3 & T3 & F3). fold u in E2, E3.
  apply Rabs_le_inv in E2. apply Rabs_le_inv in E3. apply Rabs_le_inv in T2. apply Rabs_le_inv in T3.
  assert (TW : bpow radix2 (-1075) <= u * w).
  { apply Rle_trans with (u * bpow radix2 (-1000)); [|apply Rmult_le_compat_l; lra]. unfold u. rewrite <- bpow_plus. apply bpow_le. lia. }
  apply (step_rounds lb ub _ _ (u * w)); auto.
  - assert (Wx : fl (x * fl w) <= w). { apply scale_width; [exists ub, lb; auto|auto|auto|]. split; [lra|]. lra. }
    assert (0 <= fl (x * fl w)) by (apply fl_pos, Rmult_le_pos; [lra|apply fl_pos; lra]). lra.
  - assert (Wy : fl (y * fl w) <= fl w). { apply fl_le; [apply double_fl|]. assert (0 <= fl w) by (apply fl_pos; lra). nra. }
    rewrite F1 in Wy at 2. assert (w * (1 + e1) <= w + u * w) by nra. lra.
  - nra.
  - replace (fl (y * fl w) + lb - (fl (x * fl w) + lb)) with (fl (y * fl w) - fl (x * fl w)) by ring. rewrite F2, F3, F1.
    assert (A : y * (w * (1 + e1)) * (1 + e3) + t3 - (x * (w * (1 + e1)) * (1 + e2) + t2) = w * ((1 + e1) * (y - x + y * e3 - x * e2)) + (t3 - t2)) by ring.
    rewrite A. assert (Q : / 2 + 13 * u <= y - x + y * e3 - x * e2) by nra.
    assert (Q2 : / 2 + 12 * u <= (1 + e1) * (y - x + y * e3 - x * e2)).
    { apply Rle_trans with ((1 + e1) * (/ 2 + 13 * u)); [nra|apply Rmult_le_compat_l; lra]. }
    apply Rlt_le_trans with (w * (/ 2 + 12 * u) - 2 * (u * w)); [nra|]. assert (w * (/ 2 + 12 * u) <= w * ((1 + e1) * (y - x + y * e3 - x * e2))) by (apply Rmult_le_compat_l; lra). lra.
Qed.

(** The difference of two doubles is rounded to a number of the same sign. *)
Lemma fl_minus_sign : forall x y, double x -> double y -> (0 < fl (y - x) <-> x < y) /\ (fl (y - x) < 0 <-> y < x).
Proof.
  intros x y X Y. destruct (fl_plus_rel y (- x) Y (double_opp _ X)) as (e & E & F). change (y + - x) with (y - x) in F. rewrite F.
  rewrite u_small in E. apply Rabs_le_inv in E. split; split; intros H.
  - apply Rnot_le_lt. intros N. assert ((y - x) * (1 + e) <= 0) by nra. lra.
  - nra.
  - apply Rnot_le_lt. intros N. assert (0 <= (y - x) * (1 + e)) by nra. lra.
  - nra.
Qed.
