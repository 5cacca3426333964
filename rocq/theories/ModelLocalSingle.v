(** * The local selection of Morris trajectories in the precision it is computed in, as [ModelSingle] for the brute-force one. *)
From Coq Require Import Reals String List Arith ZArith Bool.
From Flocq Require Import Core.
From Verif Require Import Base Arrays ModelGroups ModelScale Stats Sums ModelDouble ModelDouble4 ModelMorris ModelSingle.
Import ListNotations.
Local Open Scope R_scope.

Section LocalSingle.
(** The orders of addition of cdist, of np.sum over its entries and of np.sum over the squared distances; argsort of float32 rows and of float64 scores. *)
Variables arr_cdist arr_sum arr_squares : nat -> tree.
Variable argsort : list R -> list nat.

(** compute_distance_matrix, strategy.py:246-299, with local_optimization: both triangles. *)
Definition local_matrix_fl (X : list (list R)) (g N : nat) : list (list R) :=
  tab N N (fun a b =>
    if (b <? a)%nat then compute_distance_fl arr_cdist arr_sum (traj X (g + 1) b) (traj X (g + 1) a)
    else if (a <? b)%nat then compute_distance_fl arr_cdist arr_sum (traj X (g + 1) a) (traj X (g + 1) b)
    else 0).

(** find_local_maximum, local.py:20-96.  np.sqrt(np.sum(np.square(...))), local.py:123, is computed on float32 as [score_fl]; storing the scores in
    arrays of doubles (local.py:57-93) changes nothing. *)
Definition local_optimisation_fl (X : list (list R)) (g N k : nat) : result (list nat) :=
  do _ <- check_input_sample X g N ;;
  local_search (score_fl arr_squares) argsort (local_matrix_fl X g N) k.
End LocalSingle.
