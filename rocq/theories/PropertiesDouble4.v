(** * Property C113 (the Sobol' analysis in double precision: zeros, signs and scales). *)
From Coq Require Import Reals String List Arith ZArith Bool Lia Lra.
From Flocq Require Import Core.
From Verif Require Import Base Arrays ListFacts ModelGroups ModelScale Stats ModelSobol SpecSobol ProofsSobol5 ModelDouble ModelDouble3 ModelDouble4 SpecDouble2 ProofsDouble ProofsDouble5
  ProofsDouble10 ProofsDouble11 ProofsDouble12 ProofsDouble13 ProofsDouble14.
From Verif Require PropertiesSobol.
Import ListNotations.
Local Open Scope nat_scope.

(** C113: however numpy arranges its sums, a group the model does not respond to gets exactly 0 in S1, ST and their confidence intervals, as far as these are numbers.
    If one of the indices is not a number, none is. *)
Theorem C113_silent : forall arr arr2 Zq resample p Y second conf s j, sobol_fl arr arr2 Zq resample p Y second conf = Ok s ->
  let G := snd (extract_group_names p) in
  j < G -> silent G second Y j ->
  (forall v, nth_error (S1 s) j = Some (Some v) \/ nth_error (ST s) j = Some (Some v) \/ nth_error (S1_conf s) j = Some (Some v) \/ nth_error (ST_conf s) j = Some (Some v) -> v = 0%R) /\
  (exists x, nth_error (S1 s) j = Some x) /\ (exists x, nth_error (ST s) j = Some x) /\
  (nth_error (S1 s) j = Some None \/ nth_error (ST s) j = Some None -> forall k, k < G -> nth_error (S1 s) k = Some None /\ nth_error (ST s) k = Some None).
Proof. exact silent_first. Qed.
Print Assumptions C113_silent.

(** C113: for two such groups the second-order index and its confidence interval are exactly 0 as far as they are numbers. *)
Theorem C113_silent_pair : forall arr arr2 Zq resample p Y conf s j k, sobol_fl arr arr2 Zq resample p Y true conf = Ok s ->
  let G := snd (extract_group_names p) in
  j < k < G -> silent G true Y j -> silent G true Y k ->
  exists m c, S2 s = Some m /\ S2_conf s = Some c /\ forall v, entry m j k = Some (Some v) \/ entry c j k = Some (Some v) -> v = 0%R.
Proof. exact silent_pair. Qed.
Print Assumptions C113_silent_pair.

(** C113: total-order indices, and all confidence intervals for a quantile that is not negative, are not negative. *)
Theorem C113_signs : forall arr arr2 Zq resample p Y second conf s, sobol_fl arr arr2 Zq resample p Y second conf = Ok s -> (0 <= Zq conf)%R ->
  forall v, In (Some v) (ST s) \/ In (Some v) (S1_conf s) \/ In (Some v) (ST_conf s) \/ (exists c row, S2_conf s = Some c /\ In row c /\ In (Some v) row) -> (0 <= v)%R.
Proof. exact signs. Qed.
Print Assumptions C113_signs.

(** C113: outputs in a unit that is a power of two times larger or smaller, of either sign, give the same table, digit by digit. *)
Theorem C113_scaled : forall arr arr2 Zq resample p Y second conf c e, c = powerRZ 2 e \/ c = (- powerRZ 2 e)%R -> (Z.of_nat (length Y) <= 2 ^ 53)%Z ->
  (forall y, In y Y -> moderate y /\ moderate (c * y)%R) ->
  sobol_fl arr arr2 Zq resample p (map (fun y => c * y)%R Y) second conf = sobol_fl arr arr2 Zq resample p Y second conf.
Proof. exact scaled. Qed.
Print Assumptions C113_scaled.

(** C113: an arrangement adds up every term once (it gives one of the sums of C110); adding from left to right is one. *)
Theorem C113_sums : (forall arr l, arrangement arr -> l <> [] -> sums_to l (sum_fl arr l)) /\ arrangement left_to_right.
Proof. split; [exact sum_fl_sums|exact left_arrangement]. Qed.
Print Assumptions C113_sums.

(** C113: in exact arithmetic the second-order index of such a group with any other is 0 … *)
Theorem C113_second_exact : forall mu sigma Zq resample cpus p Y conf keep workers s j k, sigma <> 0%R -> analyze_with mu sigma Zq resample cpus p Y true conf keep workers = Ok s ->
  let G := snd (extract_group_names p) in
  j < k < G -> silent G true Y j -> exists m, S2 s = Some m /\ entry m j k = Some (Some 0%R).
Proof. exact second_exact. Qed.
Print Assumptions C113_second_exact.

(** … but in double precision it is a rounding error: six outputs of two parameters, of which the first has no influence, give -2^-54. *)
Theorem C113_second_refuted : ~ (forall arr arr2 Zq resample p Y conf s j k v m, arrangement arr -> arrangement arr2 -> (forall y, In y Y -> moderate y) ->
  sobol_fl arr arr2 Zq resample p Y true conf = Ok s -> j < k < snd (extract_group_names p) -> silent (snd (extract_group_names p)) true Y j ->
  S2 s = Some m -> entry m j k = Some (Some v) -> v = 0%R).
Proof. exact second_refuted. Qed.
Print Assumptions C113_second_refuted.

(** The first of these two parameters is silent, and its S1 and ST are numbers, so both are 0. *)
Example C113_example : silent 2 true wit_Y 0 /\ exists s, sobol_fl left_to_right left_to_right (fun _ => 2%R) (fun _ => [[0]; [0]]) wit_p wit_Y true (/ 2) = Ok s /\
  nth_error (S1 s) 0 = Some (Some 0%R) /\ nth_error (ST s) 0 = Some (Some 0%R).
Proof. exact example. Qed.
