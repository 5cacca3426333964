(** * PAWN in double precision: C123. *)
From Coq Require Import Reals String List Arith ZArith Bool Lia Lra.
From Flocq Require Import Core.
From Verif Require Import Base Arrays ModelGroups ModelScale ProofsScale Stats ModelPawn ModelDouble ModelDouble4 ModelLevels ModelPawn2 SpecGroups SpecSobol SpecPawn SpecPawn2.
From Verif Require Import ProofsPawn4 ProofsDouble8 ProofsDouble9 ProofsDouble10 ProofsPawn5 ProofsPawn6 ProofsPawn7.
Import ListNotations.
Local Open Scope R_scope.

(** C123: rounding the distances and the figures does not change which analyses raise, nor what. *)
Theorem C123_errors : forall arr arr2 p X Y S e, pawn_analyze_fl p X Y S = Err e <-> pawn_dbl arr arr2 p X Y S = Err e.
Proof. exact dbl_errors. Qed.
Print Assumptions C123_errors.

(** C123: in every reported row, of parameters and of groups, 0 <= minimum <= median <= maximum <= 1, and mean, stdev and CV are not negative, whatever the order of
    addition. *)
Theorem C123_order : forall arr arr2 p X Y S out, arrangement arr2 -> (Z.of_nat (length Y) <= 2 ^ 53)%Z -> (Z.of_nat (p_num_vars p) <= 2 ^ 53)%Z ->
  pawn_dbl arr arr2 p X Y S = Ok out -> Forall ordered_row_fl (pw_rows out).
Proof. exact dbl_ordered. Qed.
Print Assumptions C123_order.

(** C123: without groups, the computed minimum and maximum are the exact ones correctly rounded, the mean has a relative error of S + 1 roundings and the median of
    two, and CV is a number unless all distances are 0. *)
Theorem C123_figures : forall arr arr2 p X Y S out, arrangement arr -> (Z.of_nat (length Y) <= 2 ^ 53)%Z -> (Z.of_nat S <= 2 ^ 53)%Z -> ungrouped p ->
  pawn_analyze_fl p X Y S = Ok out ->
  exists out', pawn_dbl arr arr2 p X Y S = Ok out' /\ pw_names out' = pw_names out /\ Forall2 (close_row S) (pw_rows out) (pw_rows out').
Proof. intros arr arr2 p X Y S out HA LY LS HU. apply dbl_close; auto. apply ungrouped_check. auto. Qed.
Print Assumptions C123_figures.

(** C123: with or without groups, minimum, mean, median and maximum are nan where the exact ones are and otherwise have a relative error of at most S + D + 1 roundings. *)
Theorem C123_near : forall arr arr2 p X Y S out, arrangement arr -> arrangement arr2 ->
  (Z.of_nat (length Y) <= 2 ^ 53)%Z -> (Z.of_nat S <= 2 ^ 53)%Z -> (Z.of_nat (p_num_vars p) <= 2 ^ 53)%Z -> pawn_analyze_fl p X Y S = Ok out ->
  exists out', pawn_dbl arr arr2 p X Y S = Ok out' /\ pw_names out' = pw_names out /\ Forall2 (near_row (S + p_num_vars p + 1)) (pw_rows out) (pw_rows out').
Proof. exact dbl_near. Qed.
Print Assumptions C123_near.

(** C41_order is false in double precision: of three slices with the same distance the mean is above the maximum, and the standard deviation is not 0. *)
Theorem C123_mean_refuted : exists arr p X Y S out out' mi me md ma cv s, arrangement arr /\ pawn_analyze_fl p X Y S = Ok out /\
  (exists d, map (fun k => nth k (nth 0 (pw_rows out) []) None) [0; 1; 2; 3; 5]%nat = [Some d; Some d; Some d; Some d; Some 0]) /\
  pawn_dbl arr arr p X Y S = Ok out' /\ pw_rows out' = [[Some mi; Some me; Some md; Some ma; cv; Some s]] /\ ma < me /\ 0 < s.
Proof.
  destruct ten_dbl as (cv & E). destruct ten_exact as (cv' & E'). do 13 eexists. split; [exact left_arrangement|]. split; [exact E'|]. split; [exists (1 / 10); reflexivity|].
  split; [exact E|]. split; [reflexivity|]. assert (0 < ulp_tenth) by apply bpow_gt_0. lra.
Qed.
Print Assumptions C123_mean_refuted.

(** Ten runs in three slices, nine times the output 1 and once, for the largest parameter value, 0. *)
Example C123_example : exists cv, pawn_dbl left_to_right left_to_right ten_p ten_X ten_Y 3 =
    Ok (mkPawn [[Some tenth; Some (tenth + bpow radix2 (-56)); Some tenth; Some tenth; cv; Some (bpow radix2 (-56))]] ["a"%string]) /\
  (forall c, cv = Some c -> 0 <= c) /\ tenth = IZR 7205759403792794 / IZR 72057594037927936.
Proof.
  destruct ten_dbl as (cv & E). exists cv. split; [exact E|]. split; [|exact tenth_value].
  pose proof (C123_order left_to_right left_to_right ten_p ten_X ten_Y 3 _ left_arrangement ltac:(vm_compute; discriminate) ltac:(vm_compute; discriminate) E) as O.
  inversion O as [|r rs H]; subst. destruct H as [(c & H)|(mi & me & md & ma & cv' & s & H & K)]; [discriminate|]. injection H as <- <- <- <- <- <-. intros c Hc. apply K. auto.
Qed.
