(** * Property C127 (what the local strategy for optimal Morris trajectories guarantees). *)
From Coq Require Import Reals String List Arith ZArith Bool Lia Lra Sorted.
From Verif Require Import Base Stats ModelMorris SpecMorris ProofsMorris5 ProofsLocal ProofsLocal2 ProofsLocal3.
Import ListNotations.
Local Open Scope nat_scope.

(** C127: however argsort breaks ties, no selection of k trajectories is spread by more than sqrt (k - 1)
    times the spread of the one the local strategy returns. *)
Theorem C127_ratio : forall argsort X g N k D, valid_argsort argsort -> trajectories_of N (g + 1) D X -> 2 <= k < N ->
  exists c s, local_optimisation (fun x => x) root_sum_squares argsort X g N k = Ok c /\
    is_spread (fun x => x) root_sum_squares X (g + 1) c s /\
    forall c' s', selection N k c' -> is_spread (fun x => x) root_sum_squares X (g + 1) c' s' ->
      (s' <= sqrt (INR (k - 1)) * s)%R.
Proof. exact local_ratio. Qed.
Print Assumptions C127_ratio.

(** C127: so two trajectories are chosen as well as by brute force. *)
Theorem C127_pair : forall argsort X g N D, valid_argsort argsort -> trajectories_of N (g + 1) D X -> 2 < N ->
  exists c s, local_optimisation (fun x => x) root_sum_squares argsort X g N 2 = Ok c /\
    is_spread (fun x => x) root_sum_squares X (g + 1) c s /\
    forall c' s', selection N 2 c' -> is_spread (fun x => x) root_sum_squares X (g + 1) c' s' -> (s' <= s)%R.
Proof. exact pair_optimal. Qed.
Print Assumptions C127_pair.

(** C127, what fails: three trajectories are not.  Five trajectories that stay at (10,3), (1,1), (7,7), (0,1)
    and (10,0): however argsort breaks ties, some selection of three is spread more. *)
Theorem C127_optimal_refuted : exists X, trajectories_of 5 2 2 X /\ forall argsort, valid_argsort argsort ->
  exists c s c' s', local_optimisation (fun x => x) root_sum_squares argsort X 1 5 3 = Ok c /\
    is_spread (fun x => x) root_sum_squares X 2 c s /\ selection 5 3 c' /\
    is_spread (fun x => x) root_sum_squares X 2 c' s' /\ (s < s')%R.
Proof. exists (still five). split; [exact (still_shape five) | exact local_misses]. Qed.
Print Assumptions C127_optimal_refuted.

(** C127: the note in sum_distances that purely summing distances would lead to the same result holds for two
    trajectories, for every rounding of the distances that keeps them from becoming negative ... *)
Theorem C127_sum_pair : forall rnd argsort X g N D, valid_argsort argsort -> (forall x, 0 <= x -> 0 <= rnd x)%R ->
  trajectories_of N (g + 1) D X -> 2 < N ->
  local_optimisation rnd root_sum_squares argsort X g N 2 = local_optimisation rnd Rsum argsort X g N 2.
Proof. exact pair_same. Qed.
Print Assumptions C127_sum_pair.

(** ... and is false for three: of four trajectories at (0,0), (20,0), (6,8) and (21,0). *)
Theorem C127_sum_refuted : forall argsort, valid_argsort argsort ->
  let X := [[0; 0]; [0; 0]; [20; 0]; [20; 0]; [6; 8]; [6; 8]; [21; 0]; [21; 0]]%R in
  local_optimisation (fun x => x) root_sum_squares argsort X 1 4 3 = Ok [0; 1; 3] /\
  local_optimisation (fun x => x) Rsum argsort X 1 4 3 = Ok [0; 2; 3].
Proof. exact sum_differs. Qed.
Print Assumptions C127_sum_refuted.

(** Such sorting functions exist, and the four trajectories have the shape the theorems ask for. *)
Example C127_example : valid_argsort some_argsort /\
  trajectories_of 4 2 2 [[0; 0]; [0; 0]; [20; 0]; [20; 0]; [6; 8]; [6; 8]; [21; 0]; [21; 0]]%R.
Proof. split; [exact some_argsort_valid | exact (still_shape four)]. Qed.
