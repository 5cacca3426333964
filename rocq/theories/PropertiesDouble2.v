(** * Property C109 (Morris designs computed in double precision can be analysed). *)
From Coq Require Import Reals String List Arith ZArith Bool Lia Lra.
From Flocq Require Import Core.
From Verif Require Import Base Arrays ModelGroups ModelScale SpecGroups SpecSobol SpecFF ModelMorris ModelMorrisAnalyze SpecMorris ModelDouble ModelDouble2 SpecDouble
  ProofsDouble ProofsDouble2 ProofsDouble5 ProofsDouble6 ProofsDouble7.
Import ListNotations.
Local Open Scope nat_scope.

(** C109: for bounds that are doubles at least 2^-1000 apart and up to 2^47 levels, the sample computed and scaled in double precision has doubles as entries
    and gives, for any outputs, the same analysis as the exact sample. *)
Theorem C109_analysis : forall p ls N levels draws rnd score argsort nq tq chunk local,
  morris_problem p ls -> wide_doubles (p_bounds p) -> 2 <= levels -> (Z.of_nat levels <= 2 ^ 47)%Z -> valid_draws ls levels draws ->
  exists p' X X', morris_sample rnd score argsort nq tq chunk p N levels None local draws = (p', Ok (InPlace (mkMat (p_num_vars p) X))) /\
    morris_sample_fl p N levels draws = Ok (mkMat (p_num_vars p) X') /\ length X' = length X /\ (forall x, In x (concat X') -> double x) /\
    forall q Y conf_level levels' resample, labels_of q ls -> length Y = length X ->
      morris_analyze nq q (mkMat (p_num_vars p) X') Y conf_level false levels' resample = morris_analyze nq q (mkMat (p_num_vars p) X) Y conf_level false levels' resample.
Proof. exact analysis_unchanged. Qed.
Print Assumptions C109_analysis.

(** C109: so the statistics reported for a model evaluated at the rounded points summarise its elementary effects between these points. *)
Theorem C109_effects : forall nq p q ls N levels draws f conf_level resample,
  morris_problem p ls -> wide_doubles (p_bounds p) -> 2 <= levels -> (Z.of_nat levels <= 2 ^ 47)%Z -> valid_draws ls levels draws ->
  labels_of q ls -> p_num_vars q = p_num_vars p -> (0 < conf_level < 1)%R -> 0 < N -> (forall j, valid_resample N (resample j)) ->
  exists Ts E out, morris_sample_fl p N levels draws = Ok (mkMat (p_num_vars p) (concat Ts)) /\ length Ts = N /\
    snd (morris_analyze nq q (mkMat (p_num_vars p) (concat Ts)) (map f (concat Ts)) conf_level false levels resample) = Ok out /\
    summarises nq conf_level resample ls N E out /\
    forall i j, i < N -> j < length ls -> forall e, is_effect (step levels) (nth i Ts []) (map f (nth i Ts [])) j e <-> e = E i j.
Proof. exact effects_double. Qed.
Print Assumptions C109_effects.

(** C109: the rounded differences of doubles, which the analyser compares with 0, have the signs of the exact ones. *)
Theorem C109_signs : forall size X i k j, double (x_at size X i k j) -> double (x_at size X i (k + 1) j) ->
  increased_fl size X i k j = increased size X i k j /\ decreased_fl size X i k j = decreased size X i k j.
Proof.
  intros size X i k j A B. destruct (fl_minus_sign _ _ A B) as (P & Q). unfold increased_fl, decreased_fl, increased, decreased.
  split; apply Rltb_iff; [rewrite P|rewrite Q]; split; intros; lra.
Qed.
Print Assumptions C109_signs.

(** C109: steps of less than one half may be lost: between the adjacent doubles 1 and 1 + 2^-52, the points 0 and 1/4 are scaled to the same number. *)
Theorem C109_small_steps_refuted : ~ (forall lb ub x y, double lb -> double ub -> (bpow radix2 (-1000) <= ub - lb)%R -> double x -> double y -> (0 <= x < y)%R -> (y <= 1)%R ->
  (scale_fl lb ub x < scale_fl lb ub y)%R).
Proof.
  intros H. assert (D52 : double (1 + bpow radix2 (-52))).
  { replace (1 + bpow radix2 (-52))%R with (IZR 4503599627370497 * bpow radix2 (-52))%R by (change (bpow radix2 (-52)) with (/ 4503599627370496)%R; lra). apply double_F; vm_compute; auto; discriminate. }
  assert (D4 : double (bpow radix2 (-2))) by (apply generic_format_FLT_bpow; [reflexivity|lia]).
  specialize (H 1%R (1 + bpow radix2 (-52))%R 0%R (bpow radix2 (-2)) double_1 D52).
  assert (W : (1 + bpow radix2 (-52) - 1)%R = bpow radix2 (-52)) by ring.
  rewrite W in H. specialize (H ltac:(apply bpow_le; lia) double_0 D4). rewrite scale_zero in H by apply double_1.
  assert (B : (0 <= 0 < bpow radix2 (-2))%R) by (split; [lra|apply bpow_gt_0]). specialize (H B ltac:(simpl; lra)).
  unfold scale_fl in H. rewrite W, fl_pow, <- bpow_plus, fl_pow in H by lia. rewrite Rplus_comm in H.
  pose proof (fl_below_one (1 + bpow radix2 (-2 + -52))) as Q. apply Rlt_not_le in H. apply H, Q. apply Rplus_le_compat_l, bpow_le. lia.
Qed.
Print Assumptions C109_small_steps_refuted.

(** Three parameters, two of them in one group, with bounds [0, 1], [-1, 1/4] and [1, 1 + 2^-52]. *)
Definition C109_p : problem :=
  mkProblem 3 ["a"; "b"; "c"]%string [[0; 1]; [-1; bpow radix2 (-2)]; [1; 1 + bpow radix2 (-52)]]%R (Some ["x"; "y"; "x"]%string) None false.
Example C109_example : morris_problem C109_p ["x"; "y"; "x"]%string /\ wide_doubles (p_bounds C109_p) /\
  valid_draws ["x"; "y"; "x"]%string 4 (fun _ => mkDraw [1; 0]%nat (fun _ => true) (fun _ => 1%nat)) /\
  valid_resample 2 [[0; 1]; [1; 1]].
Proof.
  assert (Q2 : (0 < bpow radix2 (-2))%R) by apply bpow_gt_0. assert (Q52 : (0 < bpow radix2 (-52))%R) by apply bpow_gt_0.
  split; [|split; [|split]].
  - split; [left; exists "x"%string, ["y"; "x"]%string; auto|]. split; [auto|]. split; [simpl; lia|]. split; [auto|]. split; [|auto].
    repeat constructor; eexists _, _; (split; [reflexivity|lra]).
  - assert (D52 : double (1 + bpow radix2 (-52))).
    { replace (1 + bpow radix2 (-52))%R with (IZR 4503599627370497 * bpow radix2 (-52))%R by (change (bpow radix2 (-52)) with (/ 4503599627370496)%R; lra). apply double_F; vm_compute; auto; discriminate. }
    assert (D4 : double (bpow radix2 (-2))) by (apply generic_format_FLT_bpow; [reflexivity|lia]).
    assert (B0 : (bpow radix2 (-1000) <= bpow radix2 (-52))%R) by (apply bpow_le; lia). assert (B1 : (bpow radix2 (-52) <= bpow radix2 0)%R) by (apply bpow_le; lia). change (bpow radix2 0) with 1%R in B1.
    intros j Hj. simpl in Hj. destruct j as [|[|[|j]]]; [| | |lia]; unfold lower, upper; cbn [nth p_bounds C109_p].
    + split; [apply double_0|]. split; [apply double_1|lra].
    + split; [apply (double_opp _ double_1)|]. split; [auto|lra].
    + split; [apply double_1|]. split; [auto|lra].
  - exists 2%nat. split.
    + exists ["x"; "y"]%string. split; [repeat constructor; simpl; intuition discriminate|]. split; [simpl; tauto|auto].
    + intros t. split; [apply Permutation.perm_swap|]. intros j. vm_compute. auto.
  - repeat constructor.
Qed.
