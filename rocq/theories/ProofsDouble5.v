(** * Latin hypercube draws, Sobol' points, finite differences and witnesses in double precision. *)
From Coq Require Import Reals String List Arith ZArith Bool Lia Lra Psatz.
From Flocq Require Import Core Plus_error Relative Sterbenz.
From Verif Require Import Base Arrays ListFacts ModelMorris ModelFast ModelDouble ProofsDouble ProofsDouble2 ProofsDouble4.
Import ListNotations.
Local Open Scope R_scope.

(** ** Up to half a unit above one *)
Lemma fl_tie_one : fl (1 + bpow radix2 (-53)) = 1.
Proof.
  unfold fl, round, F2R, scaled_mantissa. cbn [Fnum Fexp].
  assert (C : cexp radix2 (FLT_exp (-1074) 53) (1 + bpow radix2 (-53)) = (-52)%Z).
  { unfold cexp. rewrite (mag_unique radix2 _ 1); [reflexivity|]. rewrite u_small. rewrite Rabs_pos_eq by lra. simpl. lra. }
  rewrite C. change (- -52)%Z with 52%Z.
  assert (FL : Zfloor ((1 + bpow radix2 (-53)) * bpow radix2 52) = (2 ^ 52)%Z).
  { apply Zfloor_imp. rewrite plus_IZR, u_small. change (bpow radix2 52) with 4503599627370496. change (IZR (2 ^ 52)) with 4503599627370496. lra. }
  unfold Znearest. rewrite FL. rewrite Rcompare_Eq.
  - change (negb (Z.even (2 ^ 52))) with false. cbv iota. change (IZR (2 ^ 52)) with (bpow radix2 52). rewrite <- bpow_plus. reflexivity.
  - rewrite u_small. change (bpow radix2 52) with 4503599627370496. change (IZR (2 ^ 52)) with 4503599627370496. lra.
Qed.

Lemma fl_below_one : forall x, x <= 1 + bpow radix2 (-53) -> fl x <= 1.
Proof. intros x H. rewrite <- fl_tie_one. apply fl_mono. auto. Qed.

(** ** Latin hypercubes *)
Section Latin.
Variable n : nat.
Hypothesis N1 : (1 <= n)%nat.
Hypothesis NU : (Z.of_nat n <= 2 ^ 51)%Z.

(** The lower edge of stratum [s], as computed. *)
Definition edge (s : nat) : R := fl (INR s * fl (1 / INR n)).

Lemma one_big : bpow radix2 (-900) <= 1.
Proof. change 1 with (bpow radix2 0). apply bpow_le. lia. Qed.
Lemma n_real : 1 <= INR n <= 2251799813685248.
Proof. split; [change 1 with (INR 1); apply le_INR; auto|]. rewrite INR_IZR_INZ. apply (IZR_le _ 2251799813685248). auto. Qed.
Lemma d_pos : 0 < fl (1 / INR n).
Proof. destruct (step_facts 1 n 1 ltac:(lra) one_big N1 NU ltac:(lia)) as (e1 & e2 & _ & _ & P & _). auto. Qed.

Lemma edge_0 : edge 0 = 0.
Proof. unfold edge. simpl INR. rewrite Rmult_0_l. apply fl_double, double_0. Qed.
Lemma edge_mono : forall s t, (s <= t)%nat -> edge s <= edge t.
Proof. intros s t H. unfold edge. apply fl_mono, Rmult_le_compat_r; [left; apply d_pos|apply le_INR; auto]. Qed.
Lemma edge_double : forall s, double (edge s).
Proof. intros. apply double_fl. Qed.

Lemma edge_top : edge n <= 1.
Proof.
  unfold edge. apply fl_below_one. pose proof n_real as NR.
  destruct (fl_rel (1 / INR n)) as (e & E & F).
  { rewrite Rabs_pos_eq by (apply Rmult_le_pos; [lra|left; apply Rinv_0_lt_compat; lra]). apply Rle_trans with (bpow radix2 (-51)); [apply bpow_le; lia|].
    change (bpow radix2 (-51)) with (/ 2251799813685248). unfold Rdiv. rewrite Rmult_1_l. apply Rinv_le; lra. }
  rewrite F. replace (INR n * (1 / INR n * (1 + e))) with (1 + e) by (field; lra). apply Rabs_le_inv in E. lra.
Qed.
Lemma edge_range : forall s, (s <= n)%nat -> 0 <= edge s <= 1.
Proof.
  intros s H. split; [rewrite <- edge_0; apply edge_mono; lia|]. apply Rle_trans with (edge n); [apply edge_mono; auto|apply edge_top].
Qed.

Lemma edge_close : forall s, (s <= n)%nat -> Rabs (edge s - INR s / INR n) <= bpow radix2 (-51).
Proof.
  intros s H. pose proof n_real as NR. destruct (Nat.eq_dec s 0) as [->|NZ].
  { rewrite edge_0. simpl INR. unfold Rdiv. rewrite Rmult_0_l, Rminus_0_r, Rabs_R0. apply bpow_ge_0. }
  unfold edge. destruct (step_facts 1 n s ltac:(lra) one_big N1 NU ltac:(lia)) as (e1 & e2 & E1 & E2 & P & F). rewrite F.
  replace (INR s * (1 / INR n) * (1 + e1) * (1 + e2) - INR s / INR n) with (INR s / INR n * (e1 + e2 + e1 * e2)) by (field; lra).
  rewrite Rabs_mult. assert (Q : 0 <= INR s / INR n <= 1).
  { split; [apply Rmult_le_pos; [apply pos_INR|left; apply Rinv_0_lt_compat; lra]|]. apply (Rmult_le_reg_r (INR n)); [lra|]. unfold Rdiv. rewrite Rmult_assoc, Rinv_l, Rmult_1_l, Rmult_1_r by lra. apply le_INR. auto. }
  rewrite (Rabs_pos_eq (_ / _)) by lra. rewrite <- (Rmult_1_l (bpow radix2 (-51))). apply Rmult_le_compat; try lra; [apply Rabs_pos|].
  pose proof (Rabs_pos e1). pose proof (Rabs_pos e2). assert (Rabs e1 * Rabs e2 <= bpow radix2 (-53) * bpow radix2 (-53)) by (apply Rmult_le_compat; auto).
  eapply Rle_trans; [apply Rabs_triang|]. rewrite Rabs_mult. eapply Rle_trans; [apply Rplus_le_compat_r, Rabs_triang|].
  change (bpow radix2 (-51)) with (/ 2251799813685248). rewrite u_small in *. lra.
Qed.

(** The width of a stratum is computed without rounding. *)
Lemma edge_width : forall s, (s < n)%nat -> double (edge (s + 1) - edge s).
Proof.
  intros s H. destruct (Nat.eq_dec s 0) as [->|NZ]. { rewrite edge_0, Rminus_0_r. apply edge_double. }
  apply sterbenz; auto with typeclass_instances; try apply edge_double.
  pose proof (edge_mono s (s + 1) ltac:(lia)) as M. pose proof (edge_range s ltac:(lia)) as R0.
  split; [lra|]. destruct (Nat.eq_dec s 1) as [->|N2].
  { unfold edge. simpl (1 + 1)%nat. simpl INR. rewrite Rmult_1_l, (fl_double (fl (1 / INR n))) by apply double_fl.
    apply Req_le. apply fl_double. replace ((1 + 1) * fl (1 / INR n)) with (2 * fl (1 / INR n)) by ring.
    pose proof (double_fl (1 / INR n)) as D. apply FLT_format_generic in D; [|reflexivity]. destruct D as [[mm ee] H1 H2 H3].
    rewrite H1. unfold F2R. simpl Fnum in *. simpl Fexp in *. replace (2 * (IZR mm * bpow radix2 ee)) with (IZR mm * bpow radix2 (ee + 1)) by (rewrite bpow_plus; change (bpow radix2 1) with 2; ring).
    apply double_F; auto. lia. }
  unfold edge. destruct (step_facts 1 n s ltac:(lra) one_big N1 NU ltac:(lia)) as (e1 & e2 & E1 & E2 & P & F).
  destruct (fl_rel (INR (s + 1) * fl (1 / INR n))) as (e3 & E3 & F3).
  { pose proof n_real as NR. rewrite Rabs_pos_eq by (apply Rmult_le_pos; [apply pos_INR|lra]).
    apply Rle_trans with (1 * bpow radix2 (-60)); [rewrite Rmult_1_l; apply bpow_le; lia|]. apply Rmult_le_compat; [lra|apply bpow_ge_0|change 1 with (INR 1); apply le_INR; lia|].
    apply fl_ge; [apply generic_format_FLT_bpow; [reflexivity|lia]|]. apply Rle_trans with (bpow radix2 (-51)); [apply bpow_le; lia|].
    change (bpow radix2 (-51)) with (/ 2251799813685248). unfold Rdiv. rewrite Rmult_1_l. apply Rinv_le; lra. }
  destruct (fl_rel (INR s * fl (1 / INR n))) as (e4 & E4 & F4).
  { pose proof n_real as NR. rewrite Rabs_pos_eq by (apply Rmult_le_pos; [apply pos_INR|lra]).
    apply Rle_trans with (1 * bpow radix2 (-60)); [rewrite Rmult_1_l; apply bpow_le; lia|]. apply Rmult_le_compat; [lra|apply bpow_ge_0|change 1 with (INR 1); apply le_INR; lia|].
    apply fl_ge; [apply generic_format_FLT_bpow; [reflexivity|lia]|]. apply Rle_trans with (bpow radix2 (-51)); [apply bpow_le; lia|].
    change (bpow radix2 (-51)) with (/ 2251799813685248). unfold Rdiv. rewrite Rmult_1_l. apply Rinv_le; lra. }
  rewrite F3, F4. rewrite u_small in *. apply Rabs_le_inv in E3, E4.
  assert (S2 : 2 <= INR s) by (change 2 with (INR 2); apply le_INR; lia). rewrite plus_INR. simpl (INR 1).
  apply Rle_trans with ((3 / 2 * INR s * fl (1 / INR n)) * (5 / 4)).
  - apply Rmult_le_compat; try lra; [apply Rmult_le_pos; lra|]. apply Rmult_le_compat_r; lra.
  - assert (INR s * fl (1 / INR n) * (15 / 16) <= INR s * fl (1 / INR n) * (1 + e4)) by (apply Rmult_le_compat_l; [apply Rmult_le_pos; lra|lra]). lra.
Qed.

Lemma latin_draw_range : forall s u, (s < n)%nat -> 0 <= u <= 1 -> edge s <= latin_draw_fl n s u <= edge (s + 1).
Proof.
  intros s u H U. unfold latin_draw_fl. fold (edge s). fold (edge (s + 1)).
  rewrite (fl_double (edge (s + 1) - edge s)) by (apply edge_width; auto). pose proof (edge_mono s (s + 1) ltac:(lia)) as M.
  assert (W : 0 <= fl ((edge (s + 1) - edge s) * u) <= edge (s + 1) - edge s).
  { split; [apply fl_pos, Rmult_le_pos; lra|]. apply fl_le; [apply edge_width; auto|]. rewrite <- (Rmult_1_r (edge (s + 1) - edge s)) at 2. apply Rmult_le_compat_l; lra. }
  split; [apply fl_ge; [apply edge_double|lra]|apply fl_le; [apply edge_double|lra]].
Qed.

Lemma latin_draw_facts : forall s u, (s < n)%nat -> 0 <= u <= 1 ->
  0 <= latin_draw_fl n s u <= 1 /\ double (latin_draw_fl n s u) /\
  INR s / INR n - bpow radix2 (-51) <= latin_draw_fl n s u <= INR (s + 1) / INR n + bpow radix2 (-51) /\
  forall t v, (s < t)%nat -> (t < n)%nat -> 0 <= v <= 1 -> latin_draw_fl n s u <= latin_draw_fl n t v.
Proof.
  intros s u H U. pose proof (latin_draw_range s u H U) as L. pose proof (edge_range s ltac:(lia)). pose proof (edge_range (s + 1) ltac:(lia)).
  pose proof (edge_close s ltac:(lia)) as C1. pose proof (edge_close (s + 1) ltac:(lia)) as C2. apply Rabs_le_inv in C1, C2.
  split; [lra|]. split; [apply double_fl|]. split; [lra|]. intros t v Ht1 Ht2 V. pose proof (latin_draw_range t v Ht2 V). pose proof (edge_mono (s + 1) t ltac:(lia)). lra.
Qed.
End Latin.

(** A draw below its stratum. *)
Lemma fl_third : fl (1 / 3) = IZR 6004799503160661 * bpow radix2 (-54).
Proof.
  apply fl_eq; [lia| |].
  - change (bpow radix2 (-54 + 52)) with (/ 4). change (bpow radix2 (-54 + 53)) with (/ 2). lra.
  - change (bpow radix2 (- -54)) with 18014398509481984. apply Rabs_def1; lra.
Qed.
Lemma latin_below : latin_draw_fl 3 1 0 < 1 / 3.
Proof.
  unfold latin_draw_fl. simpl (1 + 1)%nat. replace (INR 3) with 3 by (simpl; lra). simpl (INR 1).
  rewrite Rmult_1_l, (fl_double (fl (1 / 3))), Rmult_0_r, (fl_double 0 double_0), Rplus_0_r by apply double_fl.
  rewrite (fl_double (fl (1 / 3))) by apply double_fl. rewrite fl_third. change (bpow radix2 (-54)) with (/ 18014398509481984). lra.
Qed.

(** A draw that reaches one. *)
Lemma fl_pow : forall e, (-1074 <= e)%Z -> fl (bpow radix2 e) = bpow radix2 e.
Proof. intros. apply fl_double, generic_format_FLT_bpow; auto. reflexivity. Qed.

Lemma latin_one : latin_draw_fl 4 3 (1 - bpow radix2 (-53)) = 1.
Proof.
  unfold latin_draw_fl. simpl (3 + 1)%nat. replace (INR 4) with 4 by (simpl; lra). replace (INR 3) with 3 by (simpl; lra).
  replace (1 / 4) with (bpow radix2 (-2)) by (simpl; lra). rewrite fl_pow by lia.
  replace (4 * bpow radix2 (-2)) with 1 by (simpl; lra). rewrite (fl_double 1 double_1).
  rewrite (fl_double (3 * bpow radix2 (-2))) by (apply (double_F 3); [vm_compute; reflexivity|lia]).
  replace (1 - 3 * bpow radix2 (-2)) with (bpow radix2 (-2)) by (simpl; lra). rewrite fl_pow by lia.
  replace (bpow radix2 (-2) * (1 - bpow radix2 (-53))) with (IZR 9007199254740991 * bpow radix2 (-55)).
  2: { rewrite u_small. change (bpow radix2 (-2)) with (/ 4). change (bpow radix2 (-55)) with (/ 36028797018963968). lra. }
  rewrite (fl_double (IZR 9007199254740991 * bpow radix2 (-55))) by (apply double_F; [vm_compute; reflexivity|lia]).
  rewrite (fl_eq 9007199254740992 (-53)).
  - rewrite u_small. lra.
  - lia.
  - change (bpow radix2 (-53 + 52)) with (/ 2). change (bpow radix2 (-53 + 53)) with 1. change (bpow radix2 (-2)) with (/ 4). change (bpow radix2 (-55)) with (/ 36028797018963968). lra.
  - change (bpow radix2 (- -53)) with 9007199254740992. change (bpow radix2 (-2)) with (/ 4). change (bpow radix2 (-55)) with (/ 36028797018963968). apply Rabs_def1; lra.
Qed.

(** ** Sobol' points *)
Lemma sobol_exact : forall x, (x < 2 ^ 53)%N -> sobol_point_fl x = IZR (Z.of_N x) / 2 ^ 31.
Proof.
  intros x H. unfold sobol_point_fl. replace (IZR (Z.of_N x) / bpow radix2 31) with (IZR (Z.of_N x) * bpow radix2 (-31)).
  - rewrite fl_double by (apply double_F; lia). change (bpow radix2 (-31)) with (/ 2147483648). unfold Rdiv. f_equal. f_equal. simpl. lra.
  - unfold Rdiv. f_equal.
Qed.

Lemma sobol_scaled : forall lb ub x, double lb -> double ub -> lb < ub -> (x < 2 ^ 31)%N -> lb <= scale_fl lb ub (sobol_point_fl x) <= ub.
Proof.
  intros lb ub x L U B X. rewrite sobol_exact by (eapply N.lt_trans; [exact X|reflexivity]).
  assert (P : 0 <= IZR (Z.of_N x) / 2 ^ 31 < 1).
  { replace (2 ^ 31) with 2147483648 by lra. assert (0 <= IZR (Z.of_N x)) by (apply IZR_le; lia). assert (IZR (Z.of_N x) < 2147483648) by (apply IZR_lt; lia). lra. }
  split; [apply scale_lower; auto; lra|]. apply scale_upper; auto.
  rewrite <- sobol_exact by (eapply N.lt_trans; [exact X|reflexivity]). apply double_fl.
Qed.

(** ** Scaling the number one *)
Lemma fl_tenth : fl (1 / 10) = IZR 7205759403792794 * bpow radix2 (-56).
Proof.
  apply fl_eq; [lia| |].
  - change (bpow radix2 (-56 + 52)) with (/ 16). change (bpow radix2 (-56 + 53)) with (/ 8). lra.
  - change (bpow radix2 (- -56)) with 72057594037927936. apply Rabs_def1; lra.
Qed.
Lemma scale_slips : fl (1 / 10) < scale_fl (-1) (fl (1 / 10)) 1.
Proof.
  unfold scale_fl. rewrite Rmult_1_l, (fl_double (fl (fl (1 / 10) - -1))) by apply double_fl.
  assert (E : fl (fl (1 / 10) - -1) = IZR 4953959590107546 * bpow radix2 (-52)).
  { rewrite fl_tenth. apply fl_eq; [lia| |]; change (bpow radix2 (-56)) with (/ 72057594037927936).
    - change (bpow radix2 (-52 + 52)) with 1. change (bpow radix2 (-52 + 53)) with 2. lra.
    - change (bpow radix2 (- -52)) with 4503599627370496. apply Rabs_def1; lra. }
  rewrite E. replace (IZR 4953959590107546 * bpow radix2 (-52) + -1) with (IZR 450359962737050 * bpow radix2 (-52)).
  2: { change (bpow radix2 (-52)) with (/ 4503599627370496). lra. }
  rewrite (fl_double (IZR 450359962737050 * bpow radix2 (-52))) by (apply double_F; [vm_compute; reflexivity|lia]).
  rewrite fl_tenth. change (bpow radix2 (-52)) with (/ 4503599627370496). change (bpow radix2 (-56)) with (/ 72057594037927936). lra.
Qed.

(** ** Finite differences *)
Lemma perturb_range : forall lb ub delta x, lb <= ub -> lb <= perturb_fl lb ub delta x <= ub.
Proof.
  intros lb ub delta x H. unfold perturb_fl. split; [apply Rmax_r|]. apply Rmax_lub; [apply Rmin_r|auto].
Qed.

Lemma perturb_up : forall delta x, double x -> bpow radix2 (-900) <= x -> bpow radix2 (-51) <= delta -> x < fl (x + fl (x * delta)).
Proof.
  intros delta x D X DL. pose proof (bpow_gt_0 radix2 (-900)). pose proof (bpow_gt_0 radix2 (-51)).
  assert (P : bpow radix2 (-951) <= x * delta).
  { replace (bpow radix2 (-951)) with (bpow radix2 (-900) * bpow radix2 (-51)) by (rewrite <- bpow_plus; reflexivity). apply Rmult_le_compat; lra. }
  destruct (fl_rel (x * delta)) as (e1 & E1 & F1).
  { pose proof (bpow_gt_0 radix2 (-951)). rewrite Rabs_pos_eq by lra. eapply Rle_trans; [apply bpow_le|exact P]. lia. }
  destruct (fl_plus_rel x (fl (x * delta)) D (double_fl _)) as (e2 & E2 & F2). rewrite F2, F1.
  apply Rabs_le_inv in E1, E2. rewrite u_small in *. change (bpow radix2 (-51)) with (/ 2251799813685248) in *.
  set (y := x * delta * (1 + e1)).
  assert (Y : x * / 2251799813685248 * (3 / 4) <= y).
  { unfold y. apply Rmult_le_compat; try lra. apply Rmult_le_compat_l; lra. }
  assert ((x + y) * (1 - / 9007199254740992) <= (x + y) * (1 + e2)) by (apply Rmult_le_compat_l; lra).
  lra.
Qed.

Lemma fl_opp : forall x, fl (- x) = - fl x.
Proof. intros x. unfold fl. apply round_NE_opp. Qed.

Lemma perturb_down : forall delta x, double x -> x <= - bpow radix2 (-900) -> bpow radix2 (-51) <= delta -> fl (x + fl (x * delta)) < x.
Proof.
  intros delta x D X DL. pose proof (perturb_up delta (- x) (double_opp _ D) ltac:(lra) DL) as P.
  replace (- x * delta) with (- (x * delta)) in P by ring. rewrite fl_opp in P. replace (- x + - fl (x * delta)) with (- (x + fl (x * delta))) in P by ring.
  rewrite fl_opp in P. lra.
Qed.

(** Clipping keeps the coordinate where it was only at a bound. *)
Lemma perturb_moves : forall lb ub delta x, double x -> lb <= x <= ub -> bpow radix2 (-900) <= Rabs x -> bpow radix2 (-51) <= delta ->
  perturb_fl lb ub delta x = x -> (0 < x /\ x = ub) \/ (x < 0 /\ x = lb).
Proof.
  intros lb ub delta x D B X DL E. unfold perturb_fl in E. pose proof (bpow_gt_0 radix2 (-900)) as BP.
  destruct (Rle_lt_dec 0 x) as [S|S].
  - rewrite Rabs_pos_eq in X by auto. pose proof (perturb_up delta x D X DL) as P. left. split; [lra|].
    revert E. unfold Rmax, Rmin. destruct (Rle_dec _ ub); destruct (Rle_dec _ lb); lra.
  - rewrite Rabs_left in X by auto. pose proof (perturb_down delta x D ltac:(lra) DL) as P. right. split; auto.
    revert E. unfold Rmax, Rmin. destruct (Rle_dec _ ub); destruct (Rle_dec _ lb); lra.
Qed.

Lemma perturb_stays : perturb_fl 0 2 (bpow radix2 (-60)) 1 = 1.
Proof.
  unfold perturb_fl. rewrite Rmult_1_l, fl_pow by lia.
  assert (E : fl (1 + bpow radix2 (-60)) = 1).
  { apply Rle_antisym.
    - apply fl_below_one. apply Rplus_le_compat_l, bpow_le. lia.
    - apply fl_ge; [apply double_1|]. pose proof (bpow_gt_0 radix2 (-60)). lra. }
  rewrite E. rewrite Rmin_left, Rmax_left; lra.
Qed.

(** ** A frequency one too low *)
Lemma frequency_differs : exists comp, fast_frequencies_fl 125 1 24 = Ok (62%Z, comp) /\ nth_error comp 11 = Some 15%Z /\
  fast_frequencies 125 1 24 = Ok (62%nat, floor_linspace 31 23) /\ nth_error (floor_linspace 31 23) 11 = Some 16%nat.
Proof.
  unfold fast_frequencies_fl. simpl (_ <=? _)%nat. simpl (1 =? 0)%nat. simpl (24 =? 0)%nat. cbv iota.
  rewrite (floor_div (125 - 1) (2 * 1)) by (simpl; lia). change (Z.of_nat ((125 - 1) / (2 * 1))) with 62%Z.
  replace (IZR 62) with (INR 62) by (rewrite INR_IZR_INZ; reflexivity). rewrite (floor_div 62 (2 * 1)) by (simpl; lia). change (Z.of_nat (62 / (2 * 1))) with 31%Z.
  change (Z.of_nat (24 - 1) <=? 31)%Z with true. cbv iota. replace (IZR 31) with (INR 31) by (rewrite INR_IZR_INZ; reflexivity).
  change (24 - 1)%nat with 23%nat. rewrite linspace_lin by (try lia; vm_compute; discriminate). eexists. split; [reflexivity|]. split.
  - rewrite !nth_error_map'. rewrite nth_error_seq. simpl (11 <? 23)%nat. cbv iota. simpl option_map. f_equal.
    unfold lin. simpl (_ =? _)%nat. cbv iota. simpl (31 - 1)%nat. simpl (23 - 1)%nat.
    replace (INR 30) with 30 by (rewrite INR_IZR_INZ; reflexivity). replace (INR 22) with 22 by (rewrite INR_IZR_INZ; reflexivity).
    replace (INR 11) with 11 by (rewrite INR_IZR_INZ; reflexivity).
    rewrite (fl_eq 6141272219141585 (-52) (30 / 22)).
    2: lia.
    2: { change (bpow radix2 (-52 + 52)) with 1. change (bpow radix2 (-52 + 53)) with 2. lra. }
    2: { change (bpow radix2 (- -52)) with 4503599627370496. apply Rabs_def1; lra. }
    change (bpow radix2 (-52)) with (/ 4503599627370496).
    rewrite (fl_eq 8444249301319679 (-49) (11 * (6141272219141585 * / 4503599627370496))).
    2: lia.
    2: { change (bpow radix2 (-49 + 52)) with 8. change (bpow radix2 (-49 + 53)) with 16. lra. }
    2: { change (bpow radix2 (- -49)) with 562949953421312. apply Rabs_def1; lra. }
    rewrite fl_double.
    + apply Zfloor_imp. simpl (15 + 1)%Z. change (bpow radix2 (-49)) with (/ 562949953421312). lra.
    + replace (IZR 8444249301319679 * bpow radix2 (-49) + 1) with (IZR 9007199254740991 * bpow radix2 (-49)) by (change (bpow radix2 (-49)) with (/ 562949953421312); lra).
      apply double_F; [vm_compute; reflexivity|lia].
  - split; reflexivity.
Qed.

(** ** Accuracy of the scaling *)
Lemma fl_err : forall x, exists e t, Rabs e <= bpow radix2 (-53) /\ Rabs t <= bpow radix2 (-1075) /\ fl x = x * (1 + e) + t.
Proof.
  intros x. destruct (error_N_FLT radix2 (-1074) 53 ltac:(reflexivity) (fun t => negb (Z.even t)) x) as (e & t & E & T & _ & F).
  exists e, t. split; [|split; [|exact F]].
  - eapply Rle_trans; [exact E|]. simpl. lra.
  - eapply Rle_trans; [exact T|]. replace (bpow radix2 (-1074)) with (bpow radix2 (-1075) * 2) by (change 2 with (bpow radix2 1); rewrite <- bpow_plus; reflexivity). lra.
Qed.

Lemma scale_accuracy : forall lb ub x, double lb -> double ub -> 0 <= x <= 1 ->
  Rabs (scale_fl lb ub x - (lb + x * (ub - lb))) <= bpow radix2 (-50) * (Rabs lb + Rabs ub) + bpow radix2 (-1074).
Proof.
  intros lb ub x L U X. unfold scale_fl. destruct (fl_plus_rel ub (- lb) U (double_opp _ L)) as (e1 & E1 & F1). change (ub + - lb) with (ub - lb) in F1.
  rewrite F1. destruct (fl_err (x * ((ub - lb) * (1 + e1)))) as (e2 & t & E2 & T & F2). rewrite F2.
  destruct (fl_plus_rel (x * ((ub - lb) * (1 + e1)) * (1 + e2) + t) lb) as (e3 & E3 & F3); [rewrite <- F2; apply double_fl|auto|]. rewrite F3. clear F1 F2 F3.
  set (w := ub - lb). set (s := Rabs lb + Rabs ub).
  assert (W : Rabs (x * w) <= s).
  { rewrite Rabs_mult, (Rabs_pos_eq x) by lra. apply Rle_trans with (1 * Rabs w); [apply Rmult_le_compat_r; [apply Rabs_pos|lra]|]. rewrite Rmult_1_l. unfold w, s. eapply Rle_trans; [apply Rabs_triang|]. rewrite Rabs_Ropp. lra. }
  assert (LS : Rabs lb <= s) by (unfold s; pose proof (Rabs_pos ub); lra).
  assert (S0 : 0 <= s) by (pose proof (Rabs_pos lb); lra).
  set (g := e1 + e2 + e1 * e2).
  assert (G : Rabs g <= 9 / 4 * bpow radix2 (-53)).
  { unfold g. pose proof (Rabs_pos e1). pose proof (Rabs_pos e2). assert (Rabs e1 * Rabs e2 <= bpow radix2 (-53) * bpow radix2 (-53)) by (apply Rmult_le_compat; auto).
    eapply Rle_trans; [apply Rabs_triang|]. rewrite Rabs_mult. eapply Rle_trans; [apply Rplus_le_compat_r, Rabs_triang|]. rewrite u_small in *. lra. }
  replace ((x * (w * (1 + e1)) * (1 + e2) + t + lb) * (1 + e3) - (lb + x * w)) with ((x * w) * (g * (1 + e3) + e3) + lb * e3 + t * (1 + e3)) by (unfold g; ring).
  assert (A3 : Rabs (1 + e3) <= 9 / 8). { apply Rabs_le_inv in E3. rewrite u_small in E3. apply Rabs_le. lra. }
  assert (K : Rabs (g * (1 + e3) + e3) <= 6 * bpow radix2 (-53)).
  { eapply Rle_trans; [apply Rabs_triang|]. rewrite Rabs_mult. assert (Rabs g * Rabs (1 + e3) <= 9 / 4 * bpow radix2 (-53) * (9 / 8)) by (apply Rmult_le_compat; auto; apply Rabs_pos). pose proof (bpow_gt_0 radix2 (-53)). lra. }
  eapply Rle_trans; [apply Rabs_triang|]. eapply Rle_trans; [apply Rplus_le_compat_r, Rabs_triang|]. rewrite !Rabs_mult.
  assert (B1 : Rabs x * Rabs w * Rabs (g * (1 + e3) + e3) <= s * (6 * bpow radix2 (-53))) by (rewrite <- Rabs_mult; apply Rmult_le_compat; auto; apply Rabs_pos).
  assert (B2 : Rabs lb * Rabs e3 <= s * bpow radix2 (-53)) by (apply Rmult_le_compat; auto; apply Rabs_pos).
  assert (B3 : Rabs t * Rabs (1 + e3) <= bpow radix2 (-1075) * (9 / 8)) by (apply Rmult_le_compat; auto; apply Rabs_pos).
  assert (E50 : bpow radix2 (-50) = 8 * bpow radix2 (-53)) by (rewrite u_small; change (bpow radix2 (-50)) with (/ 1125899906842624); lra).
  assert (E74 : bpow radix2 (-1074) = bpow radix2 (-1075) * 2) by (change 2 with (bpow radix2 1); rewrite <- bpow_plus; reflexivity).
  assert (0 <= s * bpow radix2 (-53)) by (apply Rmult_le_pos; auto; apply bpow_ge_0). pose proof (bpow_gt_0 radix2 (-1075)).
  rewrite E50, E74. lra.
Qed.

Lemma scale_bounds : forall lb ub x, double lb -> double ub -> lb < ub -> 0 <= x <= 1 ->
  lb <= scale_fl lb ub x <= ub + bpow radix2 (-51) * (Rabs lb + Rabs ub).
Proof.
  intros lb ub x L U B X. split; [apply scale_lower; auto; lra|]. apply Rle_trans with (scale_fl lb ub 1); [apply scale_mono; lra|].
  pose proof (scale_one lb ub L U B) as S. apply Rabs_le_inv in S. lra.
Qed.
