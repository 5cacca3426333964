(** * Decimal and binary rounding. *)
From Coq Require Import Reals List Arith ZArith Lia Lra Psatz.
From Flocq Require Import Core Relative.
From Verif Require Import Base Arrays ModelDouble ModelFiles SpecFiles ProofsDouble ProofsDouble2 ProofsDouble5.
Import ListNotations.
Local Open Scope R_scope.

(** ** Distinct numbers of a format with [prec] digits are at least beta^-prec apart, relatively *)
Section Gap.
Variable beta : radix.
Variable fexp : Z -> Z.
Variable prec : Z.
Context { valid : Valid_exp fexp }.
Context { monotone : Monotone_exp fexp }.
Hypothesis digits : forall e, (e - prec <= fexp e)%Z.
Hypothesis prec_pos : (0 < prec)%Z.

Lemma mantissa_bound : forall v, generic_format beta fexp v -> v <> 0 -> Rabs v + ulp beta fexp v <= bpow beta prec * ulp beta fexp v.
Proof using digits prec_pos.
  intros v F N. rewrite ulp_neq_0 by auto. set (e := cexp beta fexp v). set (n := Ztrunc (scaled_mantissa beta fexp v)).
  assert (E : v = IZR n * bpow beta e) by (unfold n, e; exact F).
  pose proof (bpow_gt_0 beta e) as P. assert (A : Rabs v = IZR (Z.abs n) * bpow beta e) by (rewrite E, Rabs_mult, abs_IZR, (Rabs_pos_eq (bpow beta e)) by lra; reflexivity).
  assert (B : Rabs v < bpow beta prec * bpow beta e).
  { eapply Rlt_le_trans; [apply bpow_mag_gt|]. rewrite <- bpow_plus. apply bpow_le. pose proof (digits (mag beta v)). unfold e, cexp. lia. }
  rewrite A in B. apply Rmult_lt_reg_r in B; auto. rewrite A.
  assert (C : (Z.abs n + 1 <= beta ^ prec)%Z). { apply Zlt_le_succ, lt_IZR. rewrite IZR_Zpower by lia. auto. }
  apply IZR_le in C. rewrite plus_IZR, IZR_Zpower in C by lia. nra.
Qed.

Lemma gap_pos : forall x y, generic_format beta fexp x -> generic_format beta fexp y -> 0 < x -> x <> y -> x * bpow beta (- prec) <= Rabs (x - y).
Proof using digits prec_pos monotone valid.
  intros x y Fx Fy X N. pose proof (bpow_gt_0 beta prec) as P. pose proof (bpow_gt_0 beta (- prec)) as P'.
  assert (I : bpow beta prec * bpow beta (- prec) = 1) by (rewrite <- bpow_plus; replace (prec + - prec)%Z with 0%Z by lia; reflexivity).
  assert (P1 : bpow beta (- prec) <= 1) by (change 1 with (bpow beta 0); apply bpow_le; lia).
  destruct (Rtotal_order y x) as [H|[H|H]]; [|congruence|].
  - rewrite Rabs_pos_eq by lra. pose proof (pred_ge_gt beta fexp y x Fy Fx H) as Q.
    apply Rle_trans with (x - pred beta fexp x); [|lra].
    assert (Q0 : 0 <= pred beta fexp x) by (apply pred_ge_0; auto with typeclass_instances).
    destruct (Req_dec (pred beta fexp x) 0) as [Z|Z]; [rewrite Z; nra|].
    assert (E : x = pred beta fexp x + ulp beta fexp (pred beta fexp x)).
    { rewrite <- succ_eq_pos by lra. symmetry. apply succ_pred; auto with typeclass_instances. }
    assert (Fp : generic_format beta fexp (pred beta fexp x)) by (apply generic_format_pred; auto with typeclass_instances).
    pose proof (mantissa_bound _ Fp Z) as M. rewrite Rabs_pos_eq in M by lra. rewrite <- E in M.
    apply Rle_trans with (bpow beta prec * ulp beta fexp (pred beta fexp x) * bpow beta (- prec)); [apply Rmult_le_compat_r; lra|].
    replace (bpow beta prec * ulp beta fexp (pred beta fexp x) * bpow beta (- prec)) with (ulp beta fexp (pred beta fexp x) * (bpow beta prec * bpow beta (- prec))) by ring.
    rewrite I. lra.
  - rewrite Rabs_left by lra. pose proof (succ_le_lt beta fexp x y Fx Fy H) as Q. rewrite succ_eq_pos in Q by lra.
    pose proof (mantissa_bound x Fx ltac:(lra)) as M. rewrite Rabs_pos_eq in M by lra. pose proof (ulp_ge_0 beta fexp x) as U.
    assert (x * bpow beta (- prec) <= ulp beta fexp x); [|lra].
    apply Rle_trans with (bpow beta prec * ulp beta fexp x * bpow beta (- prec)); [apply Rmult_le_compat_r; lra|].
    replace (bpow beta prec * ulp beta fexp x * bpow beta (- prec)) with (ulp beta fexp x * (bpow beta prec * bpow beta (- prec))) by ring. rewrite I. lra.
Qed.

Lemma gap : forall x y, generic_format beta fexp x -> generic_format beta fexp y -> x <> y -> Rabs x * bpow beta (- prec) <= Rabs (x - y).
Proof using digits prec_pos monotone valid.
  intros x y Fx Fy N. destruct (Rtotal_order x 0) as [H|[H|H]].
  - rewrite Rabs_left by auto. replace (x - y) with (- (- x - - y)) by ring. rewrite Rabs_Ropp. apply gap_pos; try apply generic_format_opp; auto; lra.
  - rewrite H, Rabs_R0, Rmult_0_l. apply Rabs_pos.
  - rewrite Rabs_pos_eq by lra. apply gap_pos; auto.
Qed.

(** A number closer to a number of the format than half this distance is rounded to it. *)
Lemma near : forall x d, generic_format beta fexp x -> Rabs (d - x) < / 2 * (Rabs x * bpow beta (- prec)) -> round beta fexp ZnearestE d = x.
Proof using digits prec_pos monotone valid.
  intros x d F H. destruct (Req_dec (round beta fexp ZnearestE d) x) as [E|E]; auto. exfalso.
  assert (Fr : generic_format beta fexp (round beta fexp ZnearestE d)) by (apply generic_format_round; auto with typeclass_instances).
  destruct (round_N_pt beta fexp (fun t => negb (Z.even t)) d) as [_ M]. specialize (M x F). fold ZnearestE in M.
  pose proof (gap x _ F Fr (not_eq_sym E)) as G.
  assert (T : Rabs (x - round beta fexp ZnearestE d) <= Rabs (d - x) + Rabs (round beta fexp ZnearestE d - d)).
  { replace (x - round beta fexp ZnearestE d) with (- (d - x) + - (round beta fexp ZnearestE d - d)) by ring. eapply Rle_trans; [apply Rabs_triang|]. rewrite !Rabs_Ropp. lra. }
  rewrite (Rabs_minus_sym x d) in M. lra.
Qed.
End Gap.

(** ** Doubles *)

Lemma near_double : forall x d, double x -> Rabs (d - x) < / 2 * (Rabs x * bpow radix2 (- 53)) -> fl d = x.
Proof.
  intros x d D H. unfold fl. apply (near radix2 (FLT_exp (-1074) 53) 53); auto.
  - intros e. unfold FLT_exp. lia.
  - lia.
Qed.

(** ** Decimal numbers *)
Section Decimal.
Variable p : nat.
Let n : Z := (Z.of_nat p + 1)%Z.
Local Notation dec := (generic_format radix10 (FLX_exp n)).

Instance n_pos : Prec_gt_0 n.
Proof. unfold Prec_gt_0, n. lia. Qed.

Lemma printed_dec : forall x, dec (printed p x).
Proof. intros x. unfold printed. fold n. apply generic_format_round; auto with typeclass_instances. Qed.
Lemma printed_mono : forall x y, x <= y -> printed p x <= printed p y.
Proof. intros x y H. unfold printed. fold n. apply round_le; auto with typeclass_instances. Qed.
Lemma printed_self : forall d, dec d -> printed p d = d.
Proof. intros d H. unfold printed. fold n. apply round_generic; auto with typeclass_instances. Qed.
Lemma printed_0 : printed p 0 = 0.
Proof. apply printed_self, generic_format_0. Qed.
Lemma printed_near : forall d r, dec d -> Rabs (r - d) < / 2 * (Rabs d * bpow radix10 (- n)) -> printed p r = d.
Proof.
  intros d r D H. unfold printed. fold n. apply (near radix10 (FLX_exp n) n); auto with typeclass_instances.
  - intros e. unfold FLX_exp. lia.
  - unfold n. lia.
Qed.
Lemma printed_error : forall x, Rabs (printed p x - x) <= / 2 * (bpow radix10 (- Z.of_nat p) * Rabs x).
Proof.
  intros x. unfold printed. fold n. eapply Rle_trans; [apply error_le_half_ulp; auto with typeclass_instances|].
  apply Rmult_le_compat_l; [lra|]. rewrite Rmult_comm. replace (- Z.of_nat p)%Z with (1 - n)%Z by (unfold n; lia). apply ulp_FLX_le. auto with typeclass_instances.
Qed.
Lemma printed_opp : forall x, printed p (- x) = - printed p x.
Proof. intros x. unfold printed. apply round_NE_opp. Qed.

Lemma dec_digits : forall d, has_digits (p + 1) d <-> dec d.
Proof.
  intros d. split.
  - intros (m & e & B & ->). apply generic_format_FLX. apply (FLX_spec _ _ _ (Float radix10 m e)).
    + unfold F2R. simpl Fnum. simpl Fexp. rewrite bpow_powerRZ. reflexivity.
    + simpl Fnum. replace n with (Z.of_nat (p + 1)) by (unfold n; lia). exact B.
  - intros F. apply FLX_format_generic in F; auto with typeclass_instances. destruct F as [[m e] E B]. exists m, e. simpl in B. split.
    + replace n with (Z.of_nat (p + 1)) in B by (unfold n; lia). exact B.
    + rewrite E. unfold F2R. simpl Fnum. simpl Fexp. rewrite bpow_powerRZ. reflexivity.
Qed.
End Decimal.

Lemma pow10_le : forall p q, (p <= q)%nat -> bpow radix10 (- Z.of_nat q) <= bpow radix10 (- Z.of_nat p).
Proof. intros p q H. apply bpow_le. lia. Qed.
Lemma pow10_one : forall p, 0 < bpow radix10 (- Z.of_nat p) <= 1.
Proof. intros p. split; [apply bpow_gt_0|]. change 1 with (bpow radix10 0). apply bpow_le. lia. Qed.
Lemma pow10_16 : bpow radix10 (- Z.of_nat 16) = / 10000000000000000.
Proof. reflexivity. Qed.
Lemma pow10_15 : bpow radix10 (- 15) = / 1000000000000000.
Proof. reflexivity. Qed.

(** Seventeen digits identify a double. *)
Lemma reread_exact : forall p x, (16 <= p)%nat -> double x -> reread p x = x.
Proof.
  intros p x P D. unfold reread, read_number. destruct (Req_dec x 0) as [->|N]. { rewrite printed_0. apply fl_double, double_0. }
  apply near_double; auto. pose proof (printed_error p x) as E. pose proof (pow10_le 16 p P) as B. rewrite pow10_16 in B.
  change (- (53))%Z with (-53)%Z. rewrite u_small. assert (A : 0 < Rabs x) by (apply Rabs_pos_lt; auto).
  eapply Rle_lt_trans; [exact E|]. apply Rmult_lt_compat_l; [lra|]. rewrite (Rmult_comm _ (Rabs x)). apply Rmult_lt_compat_l; auto. lra.
Qed.

(** Fifteen digits survive being read as a double. *)
Lemma dec_survives : forall p d, (p <= 14)%nat -> generic_format radix10 (FLX_exp (Z.of_nat p + 1)) d -> d = 0 \/ bpow radix2 (-1022) <= Rabs d ->
  printed p (fl d) = d.
Proof.
  intros p d P D [->|B]. { rewrite (fl_double 0 double_0). apply printed_0. }
  apply printed_near; auto. destruct (fl_rel d B) as (e & E & F). rewrite F. replace (d * (1 + e) - d) with (d * e) by ring. rewrite Rabs_mult.
  pose proof (bpow_gt_0 radix2 (-1022)) as Z. assert (A : 0 < Rabs d) by lra. rewrite u_small in E.
  assert (Q : / 1000000000000000 <= bpow radix10 (- (Z.of_nat p + 1))) by (rewrite <- pow10_15; apply bpow_le; lia).
  replace (/ 2 * (Rabs d * bpow radix10 (- (Z.of_nat p + 1)))) with (Rabs d * (/ 2 * bpow radix10 (- (Z.of_nat p + 1)))) by ring.
  apply Rmult_lt_compat_l; auto. lra.
Qed.

Lemma reread_mono : forall p x y, x <= y -> reread p x <= reread p y.
Proof. intros p x y H. apply fl_mono, printed_mono; auto. Qed.
Lemma reread_double : forall p x, double (reread p x).
Proof. intros. apply double_fl. Qed.
Lemma reread_opp : forall p x, reread p (- x) = - reread p x.
Proof. intros p x. unfold reread, read_number. rewrite printed_opp. apply fl_opp. Qed.

Lemma printed_magnitude : forall p x, / 2 * Rabs x <= Rabs (printed p x) <= 3 / 2 * Rabs x.
Proof.
  intros p x. pose proof (printed_error p x) as E. pose proof (pow10_one p) as O. pose proof (Rabs_pos x) as A.
  assert (E' : Rabs (printed p x - x) <= / 2 * Rabs x) by nra.
  assert (T1 : Rabs x <= Rabs (printed p x) + Rabs (printed p x - x)).
  { replace x with (printed p x + - (printed p x - x)) at 1 by ring. eapply Rle_trans; [apply Rabs_triang|]. rewrite Rabs_Ropp. lra. }
  assert (T2 : Rabs (printed p x) <= Rabs x + Rabs (printed p x - x)).
  { replace (printed p x) with (x + (printed p x - x)) at 1 by ring. apply Rabs_triang. }
  lra.
Qed.

(** Writing what was read gives the same text. *)
Lemma resave : forall p x, double x -> p <> 15%nat -> x = 0 \/ bpow radix2 (-1021) <= Rabs x -> printed p (reread p x) = printed p x.
Proof.
  intros p x D P B. destruct (le_lt_dec p 14) as [H|H].
  - unfold reread, read_number. apply dec_survives; auto; [apply printed_dec|]. destruct B as [->|B]; [left; apply printed_0|right].
    pose proof (printed_magnitude p x) as M. apply Rle_trans with (/ 2 * Rabs x); [|lra].
    replace (bpow radix2 (-1022)) with (/ 2 * bpow radix2 (-1021)) by (change (/ 2) with (bpow radix2 (-1)); rewrite <- bpow_plus; reflexivity). lra.
  - rewrite reread_exact; auto. lia.
Qed.

(** Bounds with few digits are respected. *)
Lemma reread_bounds : forall p dlo dhi x, (p <= 14)%nat -> has_digits (p + 1) dlo -> has_digits (p + 1) dhi ->
  (dlo = 0 \/ bpow radix2 (-1022) <= Rabs dlo) -> (dhi = 0 \/ bpow radix2 (-1022) <= Rabs dhi) ->
  read_number dlo <= x <= read_number dhi -> read_number dlo <= reread p x <= read_number dhi.
Proof.
  intros p dlo dhi x P L U NL NU [A B]. apply dec_digits in L. apply dec_digits in U. unfold reread, read_number in *.
  split; apply fl_mono.
  - rewrite <- (dec_survives p dlo) by auto. apply printed_mono; auto.
  - rewrite <- (dec_survives p dhi) by auto. apply printed_mono; auto.
Qed.

Lemma reread_error : forall p x, bpow radix2 (-1021) <= Rabs x \/ x = 0 -> Rabs (reread p x - x) <= (bpow radix10 (- Z.of_nat p) / 2 + bpow radix2 (-52)) * Rabs x.
Proof.
  intros p x [B| ->].
  - pose proof (printed_magnitude p x) as M. pose proof (printed_error p x) as E. unfold reread, read_number.
    destruct (fl_rel (printed p x)) as (e & Ee & F).
    { apply Rle_trans with (/ 2 * Rabs x); [|lra].
      replace (bpow radix2 (-1022)) with (/ 2 * bpow radix2 (-1021)) by (change (/ 2) with (bpow radix2 (-1)); rewrite <- bpow_plus; reflexivity). lra. }
    rewrite F. replace (printed p x * (1 + e) - x) with ((printed p x - x) + printed p x * e) by ring. eapply Rle_trans; [apply Rabs_triang|]. rewrite Rabs_mult.
    replace (bpow radix2 (-52)) with (2 * bpow radix2 (-53)) by (change 2 with (bpow radix2 1); rewrite <- bpow_plus; reflexivity).
    assert (Rabs (printed p x) * Rabs e <= 3 / 2 * Rabs x * bpow radix2 (-53)) by (apply Rmult_le_compat; try apply Rabs_pos; lra).
    pose proof (bpow_gt_0 radix2 (-53)). pose proof (Rabs_pos x). nra.
  - unfold reread, read_number. rewrite printed_0, (fl_double 0 double_0), Rminus_0_r, Rabs_R0. lra.
Qed.

(** ** Sixteen digits: 10^23 is halfway between two doubles *)

Lemma above_1e23 : double 100000000000000008388608.
Proof. replace 100000000000000008388608 with (IZR 5960464477539063 * bpow radix2 24) by (simpl; lra). apply double_F; [reflexivity|lia]. Qed.
Lemma fl_1e23 : fl 100000000000000000000000 = 99999999999999991611392.
Proof.
  replace 99999999999999991611392 with (IZR 5960464477539062 * bpow radix2 24) by (simpl; lra).
  unfold fl, round, scaled_mantissa, cexp. rewrite (mag_unique_pos radix2 _ 77) by (simpl; lra).
  replace (FLT_exp (-1074) 53 77) with 24%Z by reflexivity. unfold F2R. cbn [Fnum Fexp]. f_equal. f_equal.
  replace (100000000000000000000000 * bpow radix2 (Z.opp 24)) with (IZR 5960464477539062 + / 2) by (simpl; lra).
  unfold Znearest. rewrite (Zfloor_imp 5960464477539062) by (rewrite plus_IZR; simpl; lra).
  replace (IZR 5960464477539062 + / 2 - IZR 5960464477539062) with (/ 2) by ring. rewrite Rcompare_Eq by reflexivity. reflexivity.
Qed.
Lemma printed_above : printed 15 100000000000000008388608 = 100000000000000000000000.
Proof.
  unfold printed, round, scaled_mantissa, cexp. rewrite (mag_unique_pos radix10 _ 24) by (simpl; lra).
  replace (FLX_exp (Z.of_nat 15 + 1) 24) with 8%Z by reflexivity. unfold F2R. cbn [Fnum Fexp].
  rewrite (Znearest_imp _ _ 1000000000000000).
  - simpl. lra.
  - simpl. rewrite Rabs_pos_eq; lra.
Qed.
Lemma printed_below : printed 15 99999999999999991611392 = 99999999999999990000000.
Proof.
  unfold printed, round, scaled_mantissa, cexp. rewrite (mag_unique_pos radix10 _ 23) by (simpl; lra).
  replace (FLX_exp (Z.of_nat 15 + 1) 23) with 7%Z by reflexivity. unfold F2R. cbn [Fnum Fexp].
  rewrite (Znearest_imp _ _ 9999999999999999).
  - simpl. lra.
  - simpl. rewrite Rabs_pos_eq; lra.
Qed.
