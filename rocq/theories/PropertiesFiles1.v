(** * Property C111 (samples written to a file and read back). *)
From Coq Require Import Reals String List Arith ZArith Bool Lia Lra.
From Flocq Require Import Core.
From Verif Require Import Base Arrays ModelGroups ModelScale SpecGroups SpecSobol SpecFF ModelMorris ModelMorrisAnalyze SpecMorris ModelDouble ModelDouble2 SpecDouble
  ProofsDouble ProofsDouble2 ProofsDouble5 ProofsDouble6 ProofsDouble7 ModelFiles SpecFiles ProofsFiles1 ProofsFiles2.
Import ListNotations.
Local Open Scope R_scope.

(** C111: with a precision of 16 or more, every double is read back unchanged. *)
Theorem C111_exact : forall p X, (16 <= p)%nat -> (forall x, In x (concat X) -> double x) -> reread_sample p X = X.
Proof.
  intros p X P D. unfold reread_sample. transitivity (map (fun r : list R => r) X); [|apply map_id]. apply map_ext_in. intros r Hr.
  transitivity (map (fun x : R => x) r); [|apply map_id]. apply map_ext_in. intros x Hx. apply reread_exact; auto. apply D. apply in_concat. eauto.
Qed.
Print Assumptions C111_exact.

(** C111: what is written has p + 1 significant digits, and differs from the number by at most half a unit of the last digit of a number of its size;
    what is read back is off by that and two roundings at most, and numbers are never put out of order. *)
Theorem C111_error : forall p x y, has_digits (p + 1) (printed p x) /\ Rabs (printed p x - x) <= powerRZ 10 (- Z.of_nat p) / 2 * Rabs x /\
  (x = 0 \/ powerRZ 2 (-1021) <= Rabs x -> Rabs (reread p x - x) <= (powerRZ 10 (- Z.of_nat p) / 2 + powerRZ 2 (-52)) * Rabs x) /\
  (x <= y -> reread p x <= reread p y) /\ double (reread p x).
Proof.
  intros p x y.
  assert (E : powerRZ 10 (- Z.of_nat p) = bpow radix10 (- Z.of_nat p)) by (change 10 with (IZR radix10); symmetry; apply bpow_powerRZ).
  assert (E2 : forall e, powerRZ 2 e = bpow radix2 e) by (intros e; change 2 with (IZR radix2); symmetry; apply bpow_powerRZ).
  split; [apply dec_digits, printed_dec|]. split; [rewrite E; pose proof (printed_error p x); lra|]. split.
  - intros H. rewrite E, E2. apply reread_error. rewrite E2 in H. tauto.
  - split; [apply reread_mono|apply reread_double].
Qed.
Print Assumptions C111_error.

(** C111: reading a file and writing it again with the same precision gives the same file, unless the precision is 15. *)
Theorem C111_resave : forall p x, p <> 15%nat -> double x -> x = 0 \/ powerRZ 2 (-1021) <= Rabs x -> printed p (reread p x) = printed p x.
Proof.
  intros p x P D H. apply resave; auto. replace (bpow radix2 (-1021)) with (powerRZ 2 (-1021)); auto.
  change 2 with (IZR radix2). symmetry. apply bpow_powerRZ.
Qed.
Print Assumptions C111_resave.

(** C111: with the precision 15, the double above 10^23 is written as 10^23, which is read as the double below, which is written as 9.999999999999999e22. *)
Theorem C111_resave_refuted : exists x, double x /\ printed 15 x = 10 ^ 23 /\ printed 15 (reread 15 x) = 9999999999999999 * 10 ^ 7.
Proof.
  exists 100000000000000008388608. split; [apply above_1e23|]. rewrite printed_above. split; [simpl; lra|].
  unfold reread, read_number. rewrite printed_above, fl_1e23, printed_below. simpl. lra.
Qed.
Print Assumptions C111_resave_refuted.

(** C111: with bounds of at most p + 1 digits in the parameter file, the points read back stay within the bounds. *)
Theorem C111_bounds : forall p lo hi x, (p <= 14)%nat -> has_digits (p + 1) lo -> has_digits (p + 1) hi ->
  lo = 0 \/ powerRZ 2 (-1022) <= Rabs lo -> hi = 0 \/ powerRZ 2 (-1022) <= Rabs hi ->
  read_number lo <= x <= read_number hi -> read_number lo <= reread p x <= read_number hi.
Proof.
  intros p lo hi x P L U NL NU H. assert (E : powerRZ 2 (-1022) = bpow radix2 (-1022)) by (change 2 with (IZR radix2); symmetry; apply bpow_powerRZ).
  rewrite E in *. apply reread_bounds; auto.
Qed.
Print Assumptions C111_bounds.

(** C111: with more digits they do not: with the default precision 8, the lower bound 1.0000000002 itself is read back as 1. *)
Theorem C111_bounds_refuted : ~ (forall lo hi x, has_digits 11 lo -> has_digits 11 hi -> read_number lo <= x <= read_number hi -> read_number lo <= reread 8 x <= read_number hi).
Proof.
  intros H.
  assert (L : has_digits 11 (10000000002 * powerRZ 10 (-10))) by (exists 10000000002%Z, (-10)%Z; split; reflexivity).
  assert (U : has_digits 11 2) by (exists 2%Z, 0%Z; split; [reflexivity|simpl; lra]).
  assert (V : 10000000002 * powerRZ 10 (-10) = 5000000001 / 5000000000) by (simpl; lra). rewrite V in L.
  assert (D2 : double 2) by (apply double_Z; lia).
  assert (N : read_number (5000000001 / 5000000000) <= 2) by (apply fl_le; auto; lra).
  assert (D40 : double (1 + bpow radix2 (-40))).
  { replace (1 + bpow radix2 (-40)) with (IZR 1099511627777 * bpow radix2 (-40)) by (change (bpow radix2 (-40)) with (/ 1099511627776); lra). apply double_F; [reflexivity|lia]. }
  assert (A : 1 + bpow radix2 (-40) <= read_number (5000000001 / 5000000000)).
  { apply fl_ge; auto. change (bpow radix2 (-40)) with (/ 1099511627776). lra. }
  assert (D30 : double (1 + bpow radix2 (-32))).
  { replace (1 + bpow radix2 (-32)) with (IZR 4294967297 * bpow radix2 (-32)) by (change (bpow radix2 (-32)) with (/ 4294967296); lra). apply double_F; [reflexivity|lia]. }
  assert (B : read_number (5000000001 / 5000000000) <= 1 + bpow radix2 (-32)).
  { apply fl_le; auto. change (bpow radix2 (-32)) with (/ 4294967296). lra. }
  assert (R2 : read_number 2 = 2) by (apply fl_double; auto). assert (N2 : read_number (5000000001 / 5000000000) <= read_number 2) by (rewrite R2; exact N).
  specialize (H _ 2 _ L U (conj (Rle_refl _) N2)).
  assert (P : printed 8 (read_number (5000000001 / 5000000000)) = 1).
  { apply printed_near.
    - replace 1 with (bpow radix10 0) by reflexivity. apply generic_format_bpow. unfold FLX_exp. lia.
    - rewrite Rabs_R1. change (bpow radix10 (- (Z.of_nat 8 + 1))) with (/ 1000000000). rewrite Rabs_pos_eq; [|pose proof (bpow_gt_0 radix2 (-40)); lra].
      change (bpow radix2 (-32)) with (/ 4294967296) in B. lra. }
  unfold reread in H. rewrite P in H. assert (R1 : read_number 1 = 1) by (apply fl_double, double_1). rewrite R1 in H.
  pose proof (bpow_gt_0 radix2 (-40)). lra.
Qed.
Print Assumptions C111_bounds_refuted.

(** C111: with the default precision, different numbers can be read back as the same. *)
Theorem C111_default_refuted : ~ (forall x y, double x -> double y -> reread 8 x = reread 8 y -> x = y) /\ ~ (forall x, double x -> reread 8 x = x).
Proof.
  assert (D : double (1 + bpow radix2 (-52))).
  { replace (1 + bpow radix2 (-52)) with (IZR 4503599627370497 * bpow radix2 (-52)) by (change (bpow radix2 (-52)) with (/ 4503599627370496); lra). apply double_F; [reflexivity|lia]. }
  assert (F1 : generic_format radix10 (FLX_exp (Z.of_nat 8 + 1)) 1) by (replace 1 with (bpow radix10 0) by reflexivity; apply generic_format_bpow; unfold FLX_exp; lia).
  pose proof (bpow_gt_0 radix2 (-52)) as P.
  assert (E : reread 8 (1 + bpow radix2 (-52)) = 1).
  { unfold reread, read_number. rewrite (printed_near 8 1); auto; [apply fl_double, double_1|].
    rewrite Rabs_R1. change (bpow radix10 (- (Z.of_nat 8 + 1))) with (/ 1000000000). replace (1 + bpow radix2 (-52) - 1) with (bpow radix2 (-52)) by ring.
    rewrite Rabs_pos_eq by lra. change (bpow radix2 (-52)) with (/ 4503599627370496). lra. }
  assert (E1 : reread 8 1 = 1) by (unfold reread, read_number; rewrite printed_self by auto; apply fl_double, double_1).
  split; intros H.
  - specialize (H _ _ D double_1 ltac:(congruence)). lra.
  - specialize (H _ D). lra.
Qed.
Print Assumptions C111_default_refuted.

(** C111: if the bounds are at least 10^(1-p) times their magnitude apart, a Morris sample that went through a file is analysed as the exact one. *)
Theorem C111_morris : forall pr p ls N levels draws rnd score argsort nq tq chunk local,
  morris_problem p ls -> wide_doubles (p_bounds p) -> wide_for pr (p_bounds p) -> pr <> 15%nat -> (2 <= levels)%nat -> (Z.of_nat levels <= 2 ^ 47)%Z -> valid_draws ls levels draws ->
  exists p' X X', morris_sample rnd score argsort nq tq chunk p N levels None local draws = (p', Ok (InPlace (mkMat (p_num_vars p) X))) /\
    morris_sample_fl p N levels draws = Ok (mkMat (p_num_vars p) X') /\ length X' = length X /\
    forall q Y conf_level levels' resample, labels_of q ls -> length Y = length X ->
      morris_analyze nq q (mkMat (p_num_vars p) (reread_sample pr X')) Y conf_level false levels' resample
        = morris_analyze nq q (mkMat (p_num_vars p) X) Y conf_level false levels' resample.
Proof. exact file_analysis. Qed.
Print Assumptions C111_morris.

(** Three parameters, two of them in one group, with bounds [0, 1], [-1, 1/4] and [1000, 1001], and the default precision. *)
Definition C111_p : problem :=
  mkProblem 3 ["a"; "b"; "c"]%string [[0; 1]; [-1; bpow radix2 (-2)]; [1000; 1001]]%R (Some ["x"; "y"; "x"]%string) None false.
Example C111_example : morris_problem C111_p ["x"; "y"; "x"]%string /\ wide_doubles (p_bounds C111_p) /\ wide_for 8 (p_bounds C111_p) /\
  has_digits 9 (-314159265 * powerRZ 10 (-8)) /\ powerRZ 2 (-1022) <= Rabs (-314159265 * powerRZ 10 (-8)).
Proof.
  assert (Q2 : (0 < bpow radix2 (-2))%R) by apply bpow_gt_0. assert (V2 : bpow radix2 (-2) = / 4) by reflexivity.
  split; [|split; [|split; [|split]]].
  - split; [left; exists "x"%string, ["y"; "x"]%string; auto|]. split; [auto|]. split; [simpl; lia|]. split; [auto|]. split; [|auto].
    repeat constructor; eexists _, _; (split; [reflexivity|lra]).
  - assert (D4 : double (bpow radix2 (-2))) by (apply generic_format_FLT_bpow; [reflexivity|lia]).
    assert (B1 : (bpow radix2 (-1000) <= bpow radix2 0)%R) by (apply bpow_le; lia). change (bpow radix2 0) with 1%R in B1.
    intros j Hj. simpl in Hj. destruct j as [|[|[|j]]]; [| | |lia]; unfold lower, upper; cbn [nth p_bounds C111_p].
    + split; [apply double_0|]. split; [apply double_1|lra].
    + split; [apply (double_opp _ double_1)|]. split; [auto|lra].
    + split; [apply double_Z; lia|]. split; [apply double_Z; lia|lra].
  - intros j Hj. simpl in Hj. replace (powerRZ 10 (1 - Z.of_nat 8)) with (/ 10000000) by (simpl; lra).
    destruct j as [|[|[|j]]]; [| | |lia]; unfold lower, upper; cbn [nth p_bounds C111_p]; rewrite ?V2.
    + rewrite Rabs_R0, Rabs_R1, Rmax_right by lra. lra.
    + rewrite (Rabs_left (-1)), (Rabs_pos_eq (/ 4)), Rmax_left by lra. lra.
    + rewrite !Rabs_pos_eq, Rmax_right by lra. lra.
  - exists (-314159265)%Z, (-8)%Z. split; reflexivity.
  - replace (-314159265 * powerRZ 10 (-8)) with (- (62831853 / 20000000)) by (simpl; lra). rewrite Rabs_Ropp, Rabs_pos_eq by lra.
    apply Rle_trans with 1; [|lra]. replace (powerRZ 2 (-1022)) with (bpow radix2 (-1022)) by (rewrite bpow_powerRZ; reflexivity).
    change 1 with (bpow radix2 0). apply bpow_le. lia.
Qed.
