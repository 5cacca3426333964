(** * Property C124 (how far sums, means, variances and Sobol' estimators in double precision are off). *)
From Coq Require Import Reals String List Arith ZArith Bool Lia Lra.
From Flocq Require Import Core.
From Verif Require Import Base Arrays ListFacts ModelScale Stats ModelSobol ModelDouble ModelDouble4 SpecError ProofsDouble ProofsDouble10 ProofsError ProofsError2 ProofsError3.
Import ListNotations.
Local Open Scope R_scope.

(** C124: up to 2^52 roundings cost at least one and at most two units of 2^-53 each. *)
Theorem C124_err : forall n, (Z.of_nat n <= 2 ^ 52)%Z -> INR n * bpow radix2 (-53) <= err n <= 2 * (INR n * bpow radix2 (-53)).
Proof. exact err_linear. Qed.
Print Assumptions C124_err.

(** C124: however numpy arranges the additions, a sum of n doubles is off by at most n - 1 roundings of the sum of the magnitudes, and a mean by n roundings of the mean magnitude. *)
Theorem C124_sum : forall arr l, arrangement arr -> l <> [] -> List.Forall double l ->
  Rabs (sum_fl arr l - Rsum l) <= err (length l - 1) * Rsum (map Rabs l) /\
  Rabs (mean_fl arr l - mean l) <= err (length l) * (mean (map Rabs l) + tiny).
Proof. intros arr l A NE D. split; [exact (sum_error arr A l NE D)|exact (mean_error arr A l NE D)]. Qed.
Print Assumptions C124_sum.

(** C124: a variance is the one about a point that is off the mean by [b], itself within the error of the mean; it is off that by at most n + 3 roundings. *)
Theorem C124_variance : forall arr l, arrangement arr -> l <> [] -> List.Forall double l ->
  exists b, Rabs b <= err (length l) * (mean (map Rabs l) + tiny) /\
    Rabs (var_fl arr l - (var l + b ^ 2)) <= err (length l + 3) * (var l + b ^ 2 + tiny).
Proof. intros arr l A. exact (var_error arr A l). Qed.
Print Assumptions C124_variance.

(** C124: total_order is off by at most N + 5 roundings relative to itself (up to underflow), given the variance it divides by. *)
Theorem C124_total : forall arr A AB B t, arrangement arr -> List.Forall double A -> List.Forall double AB -> List.Forall double B ->
  length AB = length A -> length B = length A -> (exists x y, In x (A ++ B) /\ In y (A ++ B) /\ x <> y) -> total_fl arr A AB B = Some t ->
  let V := var_fl arr (A ++ B) in
  let h := / 2 * mean (map2 (fun a ab => (a - ab) ^ 2) A AB) in
  0 < V /\ Rabs (t - h / V) <= err (length A + 5) * ((h + tiny) / V + tiny).
Proof. intros arr A AB B t R DA D DB L LB N H. exact (total_off arr R A B DA DB LB N AB t D L H). Qed.
Print Assumptions C124_total.

(** C124: first_order and second_order are off by at most N + 3 and N + 5 roundings relative to the means of the magnitudes they add up. *)
Theorem C124_first : forall arr A AB B s, arrangement arr -> List.Forall double A -> List.Forall double AB -> List.Forall double B ->
  length AB = length A -> length B = length A -> (exists x y, In x (A ++ B) /\ In y (A ++ B) /\ x <> y) -> first_fl arr A AB B = Some s ->
  let V := var_fl arr (A ++ B) in
  let P := map2 (fun b d => b * d) B (map2 (fun ab a => ab - a) AB A) in
  0 < V /\ Rabs (s - mean P / V) <= err (length A + 3) * ((mean (map Rabs P) + tiny) / V + tiny).
Proof. intros arr A AB B s R DA D DB L LB N H. destruct (first_off arr R A B DA DB LB N AB s D L H) as (H1 & _ & _ & H2). exact (conj H1 H2). Qed.
Print Assumptions C124_first.

Theorem C124_second : forall arr A ABj ABk BAj B s, arrangement arr -> List.Forall double A -> List.Forall double ABj -> List.Forall double ABk -> List.Forall double BAj -> List.Forall double B ->
  length ABj = length A -> length ABk = length A -> length BAj = length A -> length B = length A -> (exists x y, In x (A ++ B) /\ In y (A ++ B) /\ x <> y) ->
  second_fl arr A ABj ABk BAj B = Some s ->
  let V := var_fl arr (A ++ B) in
  let P := fun AB => map2 (fun b d => b * d) B (map2 (fun ab a => ab - a) AB A) in
  let Q := map2 (fun x y => x * y) BAj ABk in
  let U := map2 (fun x y => x * y) A B in
  0 < V /\
  Rabs (s - (mean Q - mean U - mean (P ABj) - mean (P ABk)) / V) <=
    err (length A + 5) * ((mean (map Rabs Q) + mean (map Rabs U) + mean (map Rabs (P ABj)) + mean (map Rabs (P ABk)) + 4 * tiny) / V + 3 * tiny).
Proof. intros arr A ABj ABk BAj B s R DA Dj Dk Db DB Lj Lk Lb LB N H. exact (second_off arr R A B DA DB LB N ABj ABk BAj s Dj Dk Db Lj Lk Lb H). Qed.
Print Assumptions C124_second.

(** C124: no such bound holds relative to the index itself: for three runs whose exact first-order index is positive, with the exact variance as with the computed one,
    first_order returns 0. *)
Theorem C124_relative_refuted : exists A AB B, List.Forall double A /\ List.Forall double AB /\ List.Forall double B /\
  first_fl left_to_right A AB B = Some 0 /\
  0 < mean (map2 (fun b d => b * d) B (map2 (fun ab a => ab - a) AB A)) / var_fl left_to_right (A ++ B) /\
  0 < mean (map2 (fun b d => b * d) B (map2 (fun ab a => ab - a) AB A)) / var (A ++ B).
Proof.
  exists [0; 0; 0], [1; 1; 1], lossB. pose proof big_double. pose proof one_double. pose proof double_0. unfold lossB at 1.
  split; [repeat (apply Forall_cons; auto)|]. split; [repeat (apply Forall_cons; auto)|]. split; [repeat (apply Forall_cons; auto); apply double_opp; auto|]. exact loss_first.
Qed.
Print Assumptions C124_relative_refuted.

(** A sum that is off by (all but one part in 2^53 of) what C124 allows, and a total order that is exact. *)
Example C124_example : (Rabs (sum_fl left_to_right [big; 1] - Rsum [big; 1]) = 1 /\ err 1 * Rsum (map Rabs [big; 1]) = 1 + bpow radix2 (-53)) /\
  total_fl left_to_right [0; 1] [1; 1] [1; 0] = Some 1 /\ var_fl left_to_right ([0; 1] ++ [1; 0]) = / 4 /\ / 2 * mean (map2 (fun a ab => (a - ab) ^ 2) [0; 1] [1; 1]) / / 4 = 1.
Proof.
  split; [apply reached|]. split; [apply exact_total|]. split; [apply exact_total|]. unfold mean, Rsum. cbn [map2 fold_right length INR]. field.
Qed.
