(** * Property C83 (the Sobol' terms are unbiased). *)
From Coq Require Import Reals String List Arith Bool Lia Lra.
From Verif Require Import Base Arrays ModelGroups ModelScale Stats ModelSobol SpecGroups SpecSobol SpecExpect SpecExpect2
  ProofsExpect ProofsExpect2 ProofsExpect3 ProofsSobol.
Import ListNotations.
Local Open Scope R_scope.

(** C83: the reported indices are the ratios of these terms to the variance of the outputs of type A and B. *)
Theorem C83_reported : forall (zero : R) p G second f N base Zq resample cpus conf keep workers s,
  consistent p -> group_count p G -> (0 < N)%nat -> length base = N -> Forall (fun x => length x = (2 * p_num_vars p)%nat) base ->
  let Y := outputs zero p second f N base in
  sd Y <> 0 -> analyze Zq resample cpus p Y second conf keep workers = Ok s ->
  ~ (forall x y, In x (base_outputs Y G second N) -> In y (base_outputs Y G second N) -> x = y) ->
  (forall k, (k < G)%nat ->
     nth_error (S1 s) k = Some (Some (first_term Y G second N (mean Y) k / var (base_outputs Y G second N))) /\
     nth_error (ST s) k = Some (Some (total_term Y G second N k / var (base_outputs Y G second N)))) /\
  (second = true -> forall j k, (j < k)%nat -> (k < G)%nat ->
     exists m, S2 s = Some m /\ entry m j k = Some (Some (second_term Y G second N (mean Y) j k / var (base_outputs Y G second N)))).
Proof. exact reported. Qed.
Print Assumptions C83_reported.

(** C83: over base points drawn independently, each half of a point following the law [ds] of the inputs, the total-order term has the
    expected value of its definition, for every sample size. *)
Theorem C83_total : forall A (zero : A) p G second f u ds, labelled p -> group_count p G -> (forall k j, u k j = true <-> in_group p k j) ->
  length ds = p_num_vars p -> Forall probability ds -> forall N k, (0 < N)%nat -> (k < G)%nat ->
  expect_points N (ds ++ ds) (fun base => total_term (outputs zero p second f N base) G second N k) = total_effect ds f (u k).
Proof. intros A zero p G second f u ds HL HG HU HD HP. apply expected_total; try assumption. intros. apply HU. Qed.
Print Assumptions C83_total.

(** C83: so do the first- and second-order terms, when centred by any constant; *)
Theorem C83_first : forall A (zero : A) p G second f u ds, labelled p -> group_count p G -> (forall k j, u k j = true <-> in_group p k j) ->
  length ds = p_num_vars p -> Forall probability ds -> forall N c k, (0 < N)%nat -> (k < G)%nat ->
  expect_points N (ds ++ ds) (fun base => first_term (outputs zero p second f N base) G second N c k) = closed_effect ds f (u k).
Proof. intros A zero p G second f u ds HL HG HU HD HP. apply expected_first; try assumption. intros. apply HU. Qed.
Print Assumptions C83_first.

Theorem C83_second : forall A (zero : A) p G f u ds, labelled p -> group_count p G -> (forall k j, u k j = true <-> in_group p k j) ->
  length ds = p_num_vars p -> Forall probability ds -> forall N c j k, (0 < N)%nat -> (j < G)%nat -> (k < G)%nat -> j <> k ->
  expect_points N (ds ++ ds) (fun base => second_term (outputs zero p true f N base) G true N c j k) = interaction ds f (u j) (u k).
Proof.
  intros A zero p G f u ds HL HG HU HD HP. intros. apply expected_second; try assumption; try reflexivity.
  - intros. apply HU.
  - intros j' k' i N1 HJ. destruct (u k' i) eqn:E; [|reflexivity]. exfalso. apply N1. apply HU in HJ. apply HU in E. eapply in_group_unique; eassumption.
Qed.
Print Assumptions C83_second.

(** C83: and centred, as the code does, by the mean of all outputs, up to a bias of a constant divided by the sample size. *)
Theorem C83_centred : forall A (zero : A) p G second f u ds, labelled p -> group_count p G -> (forall k j, u k j = true <-> in_group p k j) ->
  length ds = p_num_vars p -> Forall probability ds ->
  (forall k, (k < G)%nat -> exists C, forall N, (0 < N)%nat ->
     expect_points N (ds ++ ds) (fun base => let Y := outputs zero p second f N base in first_term Y G second N (mean Y) k) = closed_effect ds f (u k) + C / INR N) /\
  (second = true -> forall j k, (j < G)%nat -> (k < G)%nat -> j <> k -> exists C, forall N, (0 < N)%nat ->
     expect_points N (ds ++ ds) (fun base => let Y := outputs zero p second f N base in second_term Y G second N (mean Y) j k) = interaction ds f (u j) (u k) + C / INR N).
Proof.
  intros A zero p G second f u ds HL HG HU HD HP. split.
  - apply expected_first_centred; try assumption. intros. apply HU.
  - intros T j k J K JK. apply expected_second_centred; try assumption.
    + intros. apply HU.
    + intros j' k' i N1 HJ. destruct (u k' i) eqn:E; [|reflexivity]. exfalso. apply N1. apply HU in HJ. apply HU in E. eapply in_group_unique; eassumption.
Qed.
Print Assumptions C83_centred.

(** C83: the variance they are divided by has the expected value of the variance of the model, but for the factor of a sample of twice the size. *)
Theorem C83_variance : forall A (zero : A) p G second f ds, labelled p -> group_count p G ->
  length ds = p_num_vars p -> Forall probability ds -> forall N, (0 < N)%nat ->
  expect_points N (ds ++ ds) (fun base => var (base_outputs (outputs zero p second f N base) G second N)) = (1 - / (2 * INR N)) * variance ds f.
Proof.
  intros A zero p G second f ds HL HG HD HP.
  destruct (group_selector p) as (u & HU). apply (expected_variance zero p G second f u); try assumption. intros. apply HU.
Qed.
Print Assumptions C83_variance.

(** Two fair coins and f = x y: variance 3/16, first order 1/16 each, interaction 1/16, total 1/8. *)
Definition ex_coin : @law R := [(0, /2); (1, /2)].
Definition ex_prod (x : list R) : R := nth 0 x 0 * nth 1 x 0.
Definition ex_two : problem := mkProblem 2 ["x"; "y"]%string [[0; 1]; [0; 1]] None None false.
Example C83_example : forall zero N, (0 < N)%nat ->
  expect_points N [ex_coin; ex_coin; ex_coin; ex_coin] (fun base => first_term (outputs zero ex_two true ex_prod N base) 2 true N 0 0) = 1 / 16 /\
  expect_points N [ex_coin; ex_coin; ex_coin; ex_coin] (fun base => total_term (outputs zero ex_two true ex_prod N base) 2 true N 0) = 1 / 8 /\
  expect_points N [ex_coin; ex_coin; ex_coin; ex_coin] (fun base => second_term (outputs zero ex_two true ex_prod N base) 2 true N 0 0 1) = 1 / 16 /\
  variance [ex_coin; ex_coin] ex_prod = 3 / 16.
Proof.
  intros zero N N0.
  assert (U : ungrouped ex_two) by (intros g (E & _); discriminate).
  assert (HL : labelled ex_two) by (intros g H; elim (U g H)).
  assert (HG : group_count ex_two 2) by (right; split; [assumption|reflexivity]).
  assert (HU : forall k j, (k =? j)%nat = true <-> in_group ex_two k j).
  { intros k j. rewrite Nat.eqb_eq. split; [intros ->; right; split; [assumption|reflexivity]|].
    intros [(g & ns & x & H & _)|(_ & ->)]; [elim (U g H)|reflexivity]. }
  assert (HP : Forall probability [ex_coin; ex_coin]).
  { assert (probability ex_coin).
    { split; [intros v w [E|[E|[]]]; injection E as <- <-; lra|]. unfold total_weight. cbn. lra. }
    constructor; [assumption|]. constructor; [assumption|constructor]. }
  change [ex_coin; ex_coin; ex_coin; ex_coin] with ([ex_coin; ex_coin] ++ [ex_coin; ex_coin]).
  rewrite (C83_first R zero ex_two 2 true ex_prod (fun k j => (k =? j)%nat) [ex_coin; ex_coin] HL HG HU eq_refl HP N 0 0 N0) by lia.
  rewrite (C83_total R zero ex_two 2 true ex_prod (fun k j => (k =? j)%nat) [ex_coin; ex_coin] HL HG HU eq_refl HP N 0 N0) by lia.
  rewrite (C83_second R zero ex_two 2 ex_prod (fun k j => (k =? j)%nat) [ex_coin; ex_coin] HL HG HU eq_refl HP N 0 0 1 N0) by lia.
  unfold interaction, closed_effect, total_effect, conditional, variance, ex_prod, ex_coin. cbn. repeat split; field.
Qed.

(** C83, what fails: centred by the mean of all outputs the first-order term is biased; here it expects 1/6 where the effect is 1/4. *)
Definition ex_one : problem := mkProblem 1 ["x"]%string [[0; 1]] None None false.
Theorem C83_unbiased_refuted : exists p G f u (ds : list (@law R)) N, labelled p /\ group_count p G /\ (forall k j, u k j = true <-> in_group p k j) /\
  length ds = p_num_vars p /\ Forall probability ds /\ (0 < N)%nat /\ (0 < G)%nat /\
  expect_points N (ds ++ ds) (fun base => let Y := outputs 0 p false f N base in first_term Y G false N (mean Y) 0) <> closed_effect ds f (u 0%nat).
Proof.
  exists ex_one, 1%nat, (fun x => nth 0 x 0), Nat.eqb, [ex_coin], 1%nat.
  assert (U : ungrouped ex_one) by (intros g (E & _); discriminate).
  split; [intros g H; elim (U g H)|]. split; [right; split; [assumption|reflexivity]|].
  split. { intros k j. rewrite Nat.eqb_eq. split; [intros ->; right; split; [assumption|reflexivity]|].
    intros [(g & ns & x & H & _)|(_ & ->)]; [elim (U g H)|reflexivity]. }
  split; [reflexivity|]. split.
  { constructor; [|constructor]. split; [intros v w [E|[E|[]]]; injection E as <- <-; lra|]. unfold total_weight. cbn. lra. }
  split; [lia|]. split; [lia|].
  assert (E1 : closed_effect [ex_coin] (fun x => nth 0 x 0) (Nat.eqb 0) = 1 / 4).
  { unfold closed_effect, conditional, variance, ex_coin. cbn. field. }
  rewrite E1. clear E1. unfold first_term, mean, out, ex_coin. cbn. lra.
Qed.
Print Assumptions C83_unbiased_refuted.
