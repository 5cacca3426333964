(** * Properties C95-C98 (what survives rounding to double precision). *)
From Coq Require Import Reals String List Arith ZArith Bool Lia Lra Sorted.
From Flocq Require Import Core.
From Verif Require Import Base Arrays ModelGroups ModelMorris ModelFast SpecMorris ModelDouble ProofsDouble ProofsDouble2 ProofsDouble3 ProofsDouble4 ProofsDouble5.
Import ListNotations.
Local Open Scope R_scope.

(** C95: scaling keeps the order of the points and the lower bound, sends 0 exactly to the lower bound, and every double below 1 to at most the upper
    bound. *)
Theorem C95_scale : forall lb ub x, double lb -> double ub -> lb < ub -> double x -> 0 <= x < 1 ->
  lb <= scale_fl lb ub x <= ub /\ scale_fl lb ub 0 = lb /\ forall y, x <= y -> scale_fl lb ub x <= scale_fl lb ub y.
Proof.
  intros lb ub x L U B D X. split; [split; [apply scale_lower; auto; lra|apply scale_upper; auto]|]. split; [apply scale_zero; auto|].
  intros y H. apply scale_mono; lra.
Qed.
Print Assumptions C95_scale.

(** C95: the result is within a few units in the last place of the larger bound. *)
Theorem C95_accuracy : forall lb ub x, double lb -> double ub -> 0 <= x <= 1 ->
  Rabs (scale_fl lb ub x - (lb + x * (ub - lb))) <= bpow radix2 (-50) * (Rabs lb + Rabs ub) + bpow radix2 (-1074).
Proof. exact scale_accuracy. Qed.
Print Assumptions C95_accuracy.

(** C95: the point 1 (which Morris designs and factorial designs contain) can be scaled to a number above the upper bound: with bounds [-1, 0.1] it
    becomes 0.10000000000000009.  The excess is at most 2^-51 times the sum of the magnitudes of the bounds. *)
Theorem C95_one_refuted : ~ (forall lb ub, double lb -> double ub -> lb < ub -> scale_fl lb ub 1 <= ub).
Proof.
  intros H. pose proof scale_slips as S.
  specialize (H (-1) (fl (1 / 10)) (double_opp _ double_1) (double_fl _)).
  assert (-1 < fl (1 / 10)) by (apply Rlt_le_trans with 0; [lra|apply fl_pos; lra]). specialize (H H0). lra.
Qed.
Print Assumptions C95_one_refuted.
Theorem C95_excess : forall lb ub x, double lb -> double ub -> lb < ub -> 0 <= x <= 1 ->
  lb <= scale_fl lb ub x <= ub + bpow radix2 (-51) * (Rabs lb + Rabs ub).
Proof. exact scale_bounds. Qed.
Print Assumptions C95_excess.

(** C95: the points of the Sobol' sequence are computed without rounding, and stay within the bounds. *)
Theorem C95_sobol : forall lb ub x, double lb -> double ub -> lb < ub -> (x < 2 ^ 31)%N ->
  sobol_point_fl x = IZR (Z.of_N x) / 2 ^ 31 /\ lb <= scale_fl lb ub (sobol_point_fl x) <= ub.
Proof. intros lb ub x L U B X. split; [apply sobol_exact; eapply N.lt_trans; [exact X|reflexivity]|apply sobol_scaled; auto]. Qed.
Print Assumptions C95_sobol.

Example C95_example : double (-1) /\ double (fl (1 / 10)) /\ -1 < fl (1 / 10) /\ scale_fl 0 1 (/ 2) = / 2.
Proof.
  split; [apply (double_opp _ double_1)|]. split; [apply double_fl|]. split; [apply Rlt_le_trans with 0; [lra|apply fl_pos; lra]|].
  unfold scale_fl. rewrite Rminus_0_r, (fl_double 1 double_1), Rmult_1_r, Rplus_0_r, !(fl_double (fl _)) by apply double_fl.
  change (/ 2) with (bpow radix2 (-1)). apply fl_pow. lia.
Qed.

(** C96: for up to 2^52 levels, the Morris sample in double precision is the exact one with every level replaced by one and the same double [phi] of it,
    within 2^-51 of the level and within [0, 1]; so the test for samples outside [0, 1] never fails. *)
Theorem C96_sample : forall ls N levels draws, (2 <= levels)%nat -> (Z.of_nat levels <= 2 ^ 52)%Z -> valid_draws ls levels draws ->
  exists X phi, sample_morris ls N levels draws = Ok X /\ sample_morris_fl ls N levels draws = Ok (map (map phi) X) /\
    scaled_check (map (map phi) X) = Ok tt /\
    forall x, In x (concat X) -> double (phi x) /\ 0 <= phi x <= 1 /\ Rabs (phi x - x) <= bpow radix2 (-51).
Proof.
  intros ls N levels draws L2 LU V. destruct (sample_fl levels L2 LU ls N draws V) as (Ts & E & L & T & F & P).
  exists (concat Ts), (phi levels). rewrite concat_map. split; auto. split; auto. split; auto.
  apply scaled_check_ok. intros x Hx. rewrite <- !concat_map in Hx. apply in_map_iff in Hx. destruct Hx as (y & <- & Hy). apply P; auto.
Qed.
Print Assumptions C96_sample.

(** C96: it still consists of trajectories: between consecutive points exactly the coordinates of one group change, by the step up to 2^-50, the others are
    the same doubles, and every group changes once. *)
Theorem C96_trajectories : forall ls N levels draws, (2 <= levels)%nat -> (Z.of_nat levels <= 2 ^ 52)%Z -> valid_draws ls levels draws ->
  exists Ts, sample_morris_fl ls N levels draws = Ok (concat Ts) /\ length Ts = N /\
  forall T, In T Ts -> exists order, NoDup order /\ (forall x, In x order <-> In x ls) /\ length T = (length order + 1)%nat /\
    Forall (fun r => length r = length ls) T /\
    forall r x a b, nth_error order r = Some x -> nth_error T r = Some a -> nth_error T (r + 1) = Some b ->
      length b = length a /\ forall j u, nth_error a j = Some u ->
        (nth_error ls j = Some x -> exists v, nth_error b j = Some v /\ Rabs (Rabs (v - u) - step levels) <= bpow radix2 (-50)) /\
        (nth_error ls j <> Some x -> nth_error b j = Some u).
Proof.
  intros ls N levels draws L2 LU V. destruct (sample_fl levels L2 LU ls N draws V) as (Ts & E & L & T & F & P).
  exists (map (map (map (phi levels))) Ts). split; auto. split; [rewrite map_length; auto|]. intros T' HT. apply in_map_iff in HT. destruct HT as (T0 & <- & HT).
  replace (bpow radix2 (-50)) with (2 * bpow radix2 (-51)) by (change (bpow radix2 (-50)) with (/ 1125899906842624); change (bpow radix2 (-51)) with (/ 2251799813685248); lra).
  apply nearly; auto. { eapply Forall_forall in T; eauto. }
  intros x Hx. apply P. apply in_concat in Hx. destruct Hx as (r & Hr & Hx). apply in_concat. exists r. split; auto. apply in_concat. eauto.
Qed.
Print Assumptions C96_trajectories.

Example C96_example : valid_draws ["x"; "y"; "x"]%string 4 (fun _ => mkDraw [1; 0]%nat (fun _ => true) (fun _ => 1%nat)) /\ (2 <= 4)%nat /\ (Z.of_nat 4 <= 2 ^ 52)%Z /\
  step 4 = 2 / 3.
Proof.
  split.
  - exists 2%nat. split.
    + exists ["x"; "y"]%string. split; [repeat constructor; simpl; intuition discriminate|]. split; [simpl; tauto|auto].
    + intros t. split; [apply Permutation.perm_swap|]. intros j. vm_compute. auto.
  - split; [lia|]. split; [vm_compute; discriminate|]. unfold step. simpl. lra.
Qed.

(** C97: for N up to 2^50, the driver frequency of extended FAST in double precision is the exact one, and so are the number m of complementary
    frequencies available and, when there are fewer than needed, these frequencies; otherwise they differ from the exact ones by at most one, lie
    in 1..m, and, for N up to 2^26, are distinct and in increasing order. *)
Theorem C97_frequencies : forall N M D w0 comp, (Z.of_nat N <= 2 ^ 50)%Z -> fast_frequencies N M D = Ok (w0, comp) ->
  exists comp', fast_frequencies_fl N M D = Ok (Z.of_nat w0, comp') /\
    Forall2 (fun w' w => (Z.abs (w' - Z.of_nat w) <= 1)%Z) comp' comp /\
    (forall w', In w' comp' -> (1 <= w' <= Z.of_nat (w0 / (2 * M)))%Z) /\
    ((w0 / (2 * M) < D - 1)%nat -> comp' = map Z.of_nat comp) /\
    ((Z.of_nat N <= 2 ^ 26)%Z -> (D - 1 <= w0 / (2 * M))%nat -> StronglySorted Z.lt comp').
Proof. exact frequencies_fl. Qed.
Print Assumptions C97_frequencies.

(** C97: they are not always the exact ones: N = 125, M = 1 and 24 parameters have 15 where the exact quotient is 16. *)
Theorem C97_exact_refuted : ~ (forall N M D w0 comp, (Z.of_nat N <= 2 ^ 50)%Z -> fast_frequencies N M D = Ok (w0, comp) ->
  fast_frequencies_fl N M D = Ok (Z.of_nat w0, map Z.of_nat comp)).
Proof.
  intros H. destruct frequency_differs as (comp & E1 & E2 & E3 & E4). rewrite (H 125%nat 1%nat 24%nat 62%nat (floor_linspace 31 23) ltac:(lia) E3) in E1.
  assert (E5 : map Z.of_nat (floor_linspace 31 23) = comp) by exact (f_equal (fun r => match r with Ok c => snd c | Err _ => [] end) E1).
  rewrite <- E5, nth_error_map', E4 in E2. discriminate.
Qed.
Print Assumptions C97_exact_refuted.

Example C97_example : (Z.of_nat 1000 <= 2 ^ 26)%Z /\ fast_frequencies 1000 4 4 = Ok (124, [1; 8; 15])%nat /\ (4 - 1 <= 124 / (2 * 4))%nat.
Proof. split; [vm_compute; discriminate|]. split; reflexivity || (vm_compute; lia). Qed.

(** C98: a Latin hypercube value in double precision lies in [0, 1], within 2^-51 of its stratum, and below all values of higher strata. *)
Theorem C98_latin : forall N s u, (Z.of_nat N <= 2 ^ 51)%Z -> (s < N)%nat -> 0 <= u <= 1 ->
  0 <= latin_draw_fl N s u <= 1 /\ double (latin_draw_fl N s u) /\
  INR s / INR N - bpow radix2 (-51) <= latin_draw_fl N s u <= INR (s + 1) / INR N + bpow radix2 (-51) /\
  forall t v, (s < t)%nat -> (t < N)%nat -> 0 <= v <= 1 -> latin_draw_fl N s u <= latin_draw_fl N t v.
Proof. intros N s u NU H U. apply latin_draw_facts; auto. lia. Qed.
Print Assumptions C98_latin.

(** C98: it may fall short of its stratum (N = 3, s = 1, draw 0), and may be 1 although the draw is below 1 (N = 4, s = 3, draw 1 - 2^-53). *)
Theorem C98_stratum_refuted : ~ (forall N s u, (Z.of_nat N <= 2 ^ 51)%Z -> (s < N)%nat -> 0 <= u < 1 -> INR s / INR N <= latin_draw_fl N s u).
Proof.
  intros H. specialize (H 3%nat 1%nat 0 ltac:(lia) ltac:(lia) ltac:(lra)). pose proof latin_below. replace (INR 3) with 3 in H by (simpl; lra). simpl (INR 1) in H. lra.
Qed.
Print Assumptions C98_stratum_refuted.
Theorem C98_below_one_refuted : ~ (forall N s u, (Z.of_nat N <= 2 ^ 51)%Z -> (s < N)%nat -> double u -> 0 <= u < 1 -> latin_draw_fl N s u < 1).
Proof.
  intros H. specialize (H 4%nat 3%nat (1 - bpow radix2 (-53)) ltac:(lia) ltac:(lia)). rewrite latin_one in H.
  assert (D : double (1 - bpow radix2 (-53))).
  { replace (1 - bpow radix2 (-53)) with (IZR 9007199254740991 * bpow radix2 (-53)) by (rewrite u_small; lra). apply double_F; [vm_compute; reflexivity|lia]. }
  specialize (H D ltac:(rewrite u_small; lra)). lra.
Qed.
Print Assumptions C98_below_one_refuted.

(** C98: the finite-difference sampler keeps the perturbed coordinate within the bounds; with a relative step of at least 2^-51 it is different from the base
    coordinate unless that sits at a bound (or is tiny); with a step of 2^-60 the two are the same, and the analysis divides by their difference. *)
Theorem C98_perturbed : forall lb ub delta x, double x -> lb <= x <= ub ->
  lb <= perturb_fl lb ub delta x <= ub /\
  (bpow radix2 (-900) <= Rabs x -> bpow radix2 (-51) <= delta -> perturb_fl lb ub delta x = x -> (0 < x /\ x = ub) \/ (x < 0 /\ x = lb)).
Proof. intros lb ub delta x D B. split; [apply perturb_range; lra|]. intros X DL. apply perturb_moves; auto. Qed.
Print Assumptions C98_perturbed.
Theorem C98_any_step_refuted : ~ (forall lb ub delta x, double x -> lb < x < ub -> x <> 0 -> 0 < delta -> perturb_fl lb ub delta x <> x).
Proof. intros H. apply (H 0 2 (bpow radix2 (-60)) 1 double_1); [lra|lra|apply bpow_gt_0|apply perturb_stays]. Qed.
Print Assumptions C98_any_step_refuted.

Example C98_example : latin_draw_fl 4 3 (1 - bpow radix2 (-53)) = 1 /\ latin_draw_fl 3 1 0 < 1 / 3 /\ perturb_fl 0 2 (bpow radix2 (-60)) 1 = 1.
Proof. split; [apply latin_one|]. split; [apply latin_below|apply perturb_stays]. Qed.
