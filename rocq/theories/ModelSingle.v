(** * The brute-force selection of Morris trajectories in the precision it is computed in: points and their distances in double precision, the distances of
    trajectories and the scores of combinations in single precision. *)
From Coq Require Import Reals String List Arith ZArith Bool.
From Flocq Require Import Core.
From Verif Require Import Base Arrays ModelGroups ModelScale Stats Sums ModelDouble ModelDouble4 ModelMorris.
Import ListNotations.
Local Open Scope R_scope.

(** np.float32: 24 bits, least exponent -149, nearest-even.  Overflow is not modelled. *)
Definition single (x : R) : Prop := generic_format radix2 (FLT_exp (-149) 24) x.
Definition f32 (x : R) : R := round radix2 (FLT_exp (-149) 24) ZnearestE x.

(** A sum along a tree of additions, each rounded by [rnd]. *)
Fixpoint tsum_by (rnd : R -> R) (t : tree) (l : list R) : R :=
  match t with Leaf i => nth i l 0 | Node a b => rnd (tsum_by rnd a l + tsum_by rnd b l) end.
Definition sum_by (rnd : R -> R) (arr : nat -> tree) (l : list R) : R := tsum_by rnd (arr (length l)) l.

Section Single.
(** The orders of addition of cdist, of np.sum and of np.einsum. *)
Variables arr_cdist arr_sum arr_einsum : nat -> tree.

(** An entry of cdist(m, l), strategy.py:242, in double precision (no fused multiplications). *)
Definition euclid_fl (x y : list R) : R :=
  fl (sqrt (sum_by fl arr_cdist (map2 (fun a b => fl (fl (a - b) * fl (a - b))) x y))).

(** compute_distance, strategy.py:221-244, for matrices of the same shape. *)
Definition compute_distance_fl (m l : list (list R)) : R :=
  if list_all2 (list_all2 Reqb) m l then 0
  else f32 (sum_by fl arr_sum (concat (map (fun x => map (euclid_fl x) l) m))).

(** compute_distance_matrix, strategy.py:246-299, the lower triangle. *)
Definition distance_matrix_fl (X : list (list R)) (g N : nat) : list (list R) :=
  tab N N (fun a b => if (b <? a)%nat then compute_distance_fl (traj X (g + 1) b) (traj X (g + 1) a) else 0).

(** np.sqrt(np.einsum("ij,ij->i", d, d)) on float32, brute.py:145, for one row. *)
Definition score_fl (ds : list R) : R := f32 (sqrt (sum_by f32 arr_einsum (map (fun d => f32 (d * d)) ds))).

(** find_most_distant, brute.py:55-112; [max_chunk] is 10^6.  The number of combinations is taken to be exact and below sys.maxsize. *)
Definition find_most_distant_fl (max_chunk : nat) (X : list (list R)) (g N k : nat) : result (list R) :=
  let number := length (combinations k (seq 0 N)) in
  do _ <- check_input_sample X g N ;;
  let M := distance_matrix_fl X g N in
  let chunk := if (number <? max_chunk)%nat then number else max_chunk in
  let pairwise := combinations 2 (seq 0 k) in
  let combos := combinations k (seq 0 N) in
  do st <- foldM (fun st cs =>
              let '(counter, scores) := st in
              do s <- set_slice scores (counter * chunk)%nat ((counter + 1) * chunk)%nat
                        (map (combo_score score_fl M pairwise) cs) ;;
              Ok (S counter, s))
            (grouper (length combos) chunk combos) (0%nat, repeat 0 number) ;;
  Ok (snd st).

(** brute_force_most_distant, brute.py:21-53. *)
Definition brute_force_fl (max_chunk : nat) (X : list (list R)) (g N k : nat) : result (list nat) :=
  do scores <- find_most_distant_fl max_chunk X g N k ;;
  find_maximum scores N k.
End Single.
