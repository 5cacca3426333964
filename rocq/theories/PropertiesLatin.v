(** * Properties C09 and C10 (Latin hypercube sampling). *)
From Coq Require Import Reals String List Arith Lia Lra Permutation.
From Verif Require Import Base Arrays ModelGroups ModelScale SpecSobol ModelLatin SpecLatin ProofsLatin.
Import ListNotations.
Local Open Scope nat_scope.

(** C09: on the unit cube every parameter has exactly one sample in each of the N strata. *)
Theorem C09_strata : forall p N u perm junk,
  every_labelled p -> 0 < N -> proper_draws N u perm ->
  exists rs, latin_unit p N u perm junk = Ok rs /\
    forall j k, j < p_num_vars p -> k < N ->
      exactly_one_row rs N j (INR k / INR N) ((INR k + 1) / INR N).
Proof.
  exact (fun p N u perm junk HL HN HD =>
    match unit_total p N u perm junk HL HN HD with
    | ex_intro _ rs E => ex_intro _ rs (conj E (proj1 (proj2 (proj2
        (unit_stratified p N u perm junk HL HN HD rs E))))) end).
Qed.
Print Assumptions C09_strata.

(** C09: the same for the returned sample and the N equal parts of each parameter's interval; no
    value lies outside. *)
Theorem C09_strata_scaled : forall p N u perm junk,
  every_labelled p -> 0 < N -> proper_draws N u perm ->
  forall nq tq, p_dists p = None -> 0 < p_num_vars p ->
  length (p_bounds p) = p_num_vars p -> good_box (p_bounds p) ->
  exists p' m, latin_sample nq tq p N u perm junk = (p', Ok (InPlace m)) /\
    length (rows m) = N /\ Forall (fun r => length r = p_num_vars p) (rows m) /\
    (forall j k lo up, nth_error (p_bounds p) j = Some [lo; up] -> k < N ->
       exactly_one_row (rows m) N j (lo + INR k / INR N * (up - lo))
                                    (lo + (INR k + 1) / INR N * (up - lo))) /\
    (forall s j x lo up, nth_error (p_bounds p) j = Some [lo; up] -> entry (rows m) s j = Some x ->
       (lo <= x < up)%R).
Proof. exact latin_public. Qed.
Print Assumptions C09_strata_scaled.

(** C10: shape, and parameters of a group share their column. *)
Theorem C10_shape_and_groups : forall p N u perm junk,
  every_labelled p -> 0 < N -> proper_draws N u perm ->
  forall rs, latin_unit p N u perm junk = Ok rs ->
  length rs = N /\ Forall (fun r => length r = p_num_vars p) rs /\
  (forall j j' s, j < p_num_vars p -> j' < p_num_vars p -> same_group p j j' ->
     entry rs s j = entry rs s j').
Proof.
  exact (fun p N u perm junk HL HN HD rs E =>
    match unit_stratified p N u perm junk HL HN HD rs E with
    | conj a (conj b (conj _ (conj _ c))) => conj a (conj b c) end).
Qed.
Print Assumptions C10_shape_and_groups.

(** C10: N = 0 is refused. *)
Theorem C10_no_samples : forall p u perm junk, every_labelled p ->
  latin_unit p 0 u perm junk = Err ZeroDivisionError.
Proof. exact latin_zero. Qed.
Print Assumptions C10_no_samples.

(** Two samples of three parameters, the first and the third grouped. *)
Definition latin_problem : problem :=
  mkProblem 3 ["x"; "y"; "z"]%string [[0; 1]; [-1; 1]; [2; 4]]%R (Some ["g"; "h"; "g"]%string) None false.

Example C09_C10_example : every_labelled latin_problem /\
  proper_draws 2 (fun _ _ => 0%R) (fun g => if g =? 0 then [1; 0] else [0; 1]) /\
  good_box (p_bounds latin_problem) /\ same_group latin_problem 0 2 /\
  latin_unit latin_problem 2 (fun _ _ => 0%R) (fun g => if g =? 0 then [1; 0] else [0; 1]) 7
  = Ok [[1 * (1 / INR 2) + ((1 + 1) * (1 / INR 2) - 1 * (1 / INR 2)) * 0;
         0 * (1 / INR 2) + (1 * (1 / INR 2) - 0 * (1 / INR 2)) * 0;
         1 * (1 / INR 2) + ((1 + 1) * (1 / INR 2) - 1 * (1 / INR 2)) * 0];
        [0 * (1 / INR 2) + (1 * (1 / INR 2) - 0 * (1 / INR 2)) * 0;
         1 * (1 / INR 2) + ((1 + 1) * (1 / INR 2) - 1 * (1 / INR 2)) * 0;
         0 * (1 / INR 2) + (1 * (1 / INR 2) - 0 * (1 / INR 2)) * 0]]%R.
Proof.
  split; [|split; [|split; [|split]]].
  - intros x l E. injection E as <- <-. reflexivity.
  - split; [intros; lra|]. intros [|g]; simpl; [apply perm_swap|apply Permutation_refl].
  - unfold good_box. simpl. repeat constructor; eexists; eexists; (split; [reflexivity|lra]).
  - right. exists ["g"; "h"; "g"]%string, "g"%string. repeat split.
  - reflexivity.
Qed.
