(** * Model of the Morris sampler (src/SALib/sample/morris/). *)
From Coq Require Import Reals String List Arith ZArith Bool.
From Verif Require Import Base Arrays ModelGroups ModelScale Stats Sums.
Import ListNotations.
Local Open Scope nat_scope.

(** ** Trajectories: sample/morris/morris.py *)

(** Matrices as functions of row and column; [mmul n] is np.matmul with inner dimension [n]. *)
Definition fmat := nat -> nat -> R.
Definition mmul (n : nat) (A B : fmat) : fmat := fun i j => sum n (fun t => A i t * B t j)%R.

(** _compute_delta, util/__init__.py:381-393: one level divides by zero. *)
Definition compute_delta (levels : nat) : result R :=
  if levels =? 1 then Err ZeroDivisionError
  else Ok (INR levels / (2 * (INR levels - 1)))%R.

(** [np.linspace(0, bound, n)], morris.py:321, in exact arithmetic. *)
Definition linspace0 (bound : R) (n : nat) : list R :=
  map (fun i => if n =? 1 then 0 else INR i * (bound / (INR n - 1)))%R (seq 0 n).

(** The random choices for one trajectory: row [k] of the shuffled identity matrix (morris.py:293-294)
    has its 1 in column [t_perm][k]; the directions drawn from [-1, 1] (morris.py:233); the
    positions in the grid drawn by rng.choice(grid, num_params) (morris.py:323). *)
Record draw := mkDraw { t_perm : list nat; t_up : nat -> bool; t_start : nat -> nat }.

(** _compute_b_star, morris.py:243-276, for [g] groups and [k] parameters. *)
Definition compute_b_star (g k : nat) (J : fmat) (x_star : nat -> R) (delta : R) (B G P D : fmat) : fmat :=
  let element_a := fun j => (J 0%nat j * x_star j)%R in
  let element_b := fun i j => mmul g G P j i in
  let element_c := mmul g (fun i t => 2 * B i t)%R element_b in
  let element_d := mmul k (fun i j => element_c i j - J i j)%R D in
  fun i j => (element_a j + delta / 2 * (element_d i j + J i j))%R.

(** _generate_trajectory, _generate_p_star and _generate_x_star, morris.py:194-240, 279-325;
    [groups] is the k-by-g membership matrix.  rng.choice refuses an empty grid (ValueError). *)
Definition generate_trajectory (groups : list (list nat)) (g levels : nat) (d : draw)
  : result (list (list R)) :=
  do delta <- compute_delta levels ;;
  let k := length groups in
  let grid := linspace0 (1 - delta) (levels / 2) in
  if (levels / 2 =? 0) && (0 <? k) then Err ValueError
  else
    do xs <- mapM (fun j => get grid (t_start d j)) (seq 0 k) ;;
    let B := fun i j => if j <? i then 1%R else 0%R in
    let G := fun i j => INR (nth j (nth i groups []) 0) in
    let P := fun i j => if nth i (t_perm d) 0 =? j then 1%R else 0%R in
    let D := fun i j => if i =? j then (if t_up d i then 1 else -1)%R else 0%R in
    Ok (tab (g + 1) k (compute_b_star g k (fun _ _ => 1%R) (fun j => nth j xs 0%R) delta B G P D)).

(** _sample_morris, morris.py:153-191; [draws t] are the random choices for trajectory [t]. *)
Definition sample_morris (groups : list string) (N levels : nat) (draws : nat -> draw)
  : result (list (list R)) :=
  do mn <- compute_groups_matrix groups ;;
  do ts <- mapM (fun t => generate_trajectory (fst mn) (length (snd mn)) levels (draws t)) (seq 0 N) ;;
  Ok (concat ts).

(** ** Strategies: sample/morris/strategy.py *)

(** Rows [index_list[j]] of the sample, strategy.py:137-170: the [j]-th block of [size] rows. *)
Definition traj {A} (X : list A) (size j : nat) : list A := slice X (j * size) ((j + 1) * size).

(** run_checks, strategy.py:121-135. *)
Definition run_checks (N : nat) (k : Z) : result unit :=
  if Z.ltb k 2 then Err ValueError
  else if Z.leb (Z.of_nat N) k then Err ValueError
  else Ok tt.

(** check_input_sample, strategy.py:199-219.  The last assertion, np.any((x >= 0) | (x <= 1)), holds
    as soon as there is an entry. *)
Definition check_input_sample (X : list (list R)) (g N : nat) : result unit :=
  if negb (length X =? (g + 1) * N) then Err AssertionError
  else if existsb (fun r => negb (length r =? 0)) X then Ok tt else Err AssertionError.

(** compile_output, strategy.py:172-197: the selected blocks are written to consecutive blocks of a
    zero array. *)
Definition compile_output (X : list (list R)) (g k N : nat) (combo : list nat) : result (list (list R)) :=
  do _ <- check_input_sample X g N ;;
  do st <- foldM (fun st c => if c <? N then foldM write_row (traj X (g + 1) c) st else Err IndexError)
             combo (0, repeat (repeat 0%R k) (length combo * (g + 1))) ;;
  Ok (snd st).

Section Distances.
(** Rounding to float32 (strategy.py:242, 287, brute.py:102), and the value computed in float32 for
    sqrt(sum(x * x)) (brute.py:145, local.py:123).  Arbitrary functions here. *)
Variable rnd : R -> R.
Variable score : list R -> R.
(** numpy's argsort: arbitrary here (ties are broken by the sorting algorithm). *)
Variable argsort : list R -> list nat.

(** scipy's cdist entry: Euclidean distance of two points. *)
Definition euclid (x y : list R) : R := sqrt (Rsum (map2 (fun a b => (a - b) ^ 2)%R x y)).

Fixpoint list_all2 {A} (f : A -> A -> bool) (l l' : list A) : bool :=
  match l, l' with
  | [], [] => true
  | x :: r, y :: r' => f x y && list_all2 f r r'
  | _, _ => false
  end.

(** compute_distance, strategy.py:221-244, for matrices of the same shape. *)
Definition compute_distance (m l : list (list R)) : R :=
  if list_all2 (list_all2 Reqb) m l then 0%R
  else rnd (Rsum (map (fun x => Rsum (map (fun y => euclid x y) l)) m)).

(** compute_distance_matrix, strategy.py:246-299 (both triangles for the local strategy, else
    the lower one; storing in a float32 array changes nothing since [rnd] was applied). *)
Definition distance_matrix (X : list (list R)) (g N : nat) (local : bool) : list (list R) :=
  let size := g + 1 in
  tab N N (fun a b =>
    if b <? a then compute_distance (traj X size b) (traj X size a)
    else if (a <? b) && local then compute_distance (traj X size a) (traj X size b)
    else 0%R).
Definition dm_at (M : list (list R)) (a b : nat) : R := nth b (nth a M []) 0%R.

(** itertools.combinations(l, k). *)
Fixpoint combinations {A} (k : nat) (l : list A) : list (list A) :=
  match k with
  | 0 => [[]]
  | S k' => (fix go (l : list A) := match l with
             | [] => []
             | x :: r => map (cons x) (combinations k' r) ++ go r
             end) l
  end.

(** ** Brute force: sample/morris/brute.py *)

(** mappable on one combination, brute.py:123-146: distances looked up as [larger, smaller]. *)
Definition combo_score (M : list (list R)) (pairwise : list (list nat)) (combo : list nat) : R :=
  score (map (fun yz => dm_at M (nth (nth 1 yz 0) combo 0) (nth (nth 0 yz 0) combo 0)) pairwise).

(** grouper, brute.py:114-121: consecutive chunks of [n] items. *)
Fixpoint grouper {A} (fuel n : nat) (l : list A) : list (list A) :=
  match fuel with
  | 0 => []
  | S f => match l with
           | [] => []
           | _ => firstn n l :: grouper f n (skipn n l)
           end
  end.

(** [scores[a:b] = v]: ValueError unless the (clipped) slice has the length of [v]. *)
Definition set_slice {A} (l : list A) (a b : nat) (v : list A) : result (list A) :=
  let b' := Nat.min b (length l) in
  if b' - a =? length v then Ok (firstn a l ++ v ++ skipn b' l) else Err ValueError.

(** find_most_distant, brute.py:55-112; [max_chunk] is 10^6.  The number of combinations is taken
    to be exact and below sys.maxsize. *)
Definition find_most_distant (max_chunk : nat) (X : list (list R)) (g N k : nat) : result (list R) :=
  let number := length (combinations k (seq 0 N)) in
  do _ <- check_input_sample X g N ;;
  let M := distance_matrix X g N false in
  let chunk := if number <? max_chunk then number else max_chunk in
  let pairwise := combinations 2 (seq 0 k) in
  let combos := combinations k (seq 0 N) in
  do st <- foldM (fun st cs =>
              let '(counter, scores) := st in
              do s <- set_slice scores (counter * chunk) ((counter + 1) * chunk)
                        (map (combo_score M pairwise) cs) ;;
              Ok (S counter, s))
            (grouper (length combos) chunk combos) (0, repeat 0%R number) ;;
  Ok (snd st).

(** np.argmax: the first position of the largest value; ValueError for an empty array. *)
Fixpoint argmax_from (best : R) (at_ : nat) (i : nat) (l : list R) : nat :=
  match l with
  | [] => at_
  | x :: r => if Rltb best x then argmax_from x i (S i) r else argmax_from best at_ (S i) r
  end.
Definition argmax (l : list R) : result nat :=
  match l with [] => Err ValueError | x :: r => Ok (argmax_from x 0 1 r) end.

(** Python's sorted on integers. *)
Fixpoint insert_nat (x : nat) (l : list nat) : list nat :=
  match l with [] => [x] | y :: r => if x <=? y then x :: l else y :: insert_nat x r end.
Definition sorted (l : list nat) : list nat := fold_right insert_nat [] l.

(** find_maximum and nth, brute.py:148-185: sorted(None) is a TypeError. *)
Definition find_maximum (scores : list R) (N k : nat) : result (list nat) :=
  do i <- argmax scores ;;
  match nth_error (combinations k (seq 0 N)) i with
  | None => Err TypeError
  | Some c => Ok (sorted c)
  end.

Definition brute_force (max_chunk : nat) (X : list (list R)) (g N k : nat) : result (list nat) :=
  do scores <- find_most_distant max_chunk X g N k ;;
  find_maximum scores N k.

(** ** Local optimisation: sample/morris/local.py *)

(** sum_distances, local.py:98-125: fails (IndexError) on fewer than two indices. *)
Definition sum_distances (M : list (list R)) (indices : list nat) : result R :=
  match combinations 2 indices with
  | [] => Err IndexError
  | cs => Ok (score (map (fun yz => dm_at M (nth 0 yz 0) (nth 1 yz 0)) cs))
  end.

(** [l[-i:]] for i > 0. *)
Definition last_n {A} (i : nat) (l : list A) : list A := skipn (length l - i) l.

(** get_max_sum_ind, local.py:127-158. *)
Definition get_max_sum_ind (l : list (list nat)) (distances : list R) : result (list nat) :=
  if negb (length l =? length distances) then Err ValueError
  else match last_n 1 (argsort distances) with
       | [] => Err IndexError
       | i :: _ => get l i
       end.

(** add_indices, local.py:160-178. *)
Definition add_indices (N : nat) (indices : list nat) : list (list nat) :=
  flat_map (fun i => if existsb (Nat.eqb i) indices then [] else [indices ++ [i]]) (seq 0 N).

(** The while loop, local.py:73-90, run for [fuel] rounds. *)
Fixpoint extend_set (M : list (list R)) (fuel : nat) (cur : list nat) : result (list nat) :=
  match fuel with
  | 0 => Ok cur
  | S f =>
    let cand := add_indices (length M) cur in
    do ds <- mapM (sum_distances M) cand ;;
    do best <- get_max_sum_ind cand ds ;;
    extend_set M f best
  end.

(** One round of the loop over [i], local.py:61-93. *)
Definition local_round (M : list (list R)) (k i : nat) : result (list nat) :=
  let cand := map (fun n => rev (last_n i (argsort (nth n M []))) ++ [n]) (seq 0 (length M)) in
  do ds <- mapM (sum_distances M) cand ;;
  do best <- get_max_sum_ind cand ds ;;
  extend_set M (k - i - 1) best.

(** find_local_maximum, local.py:20-96. *)
Definition local_search (M : list (list R)) (k : nat) : result (list nat) :=
  do tot <- mapM (local_round M k) (seq 1 (k - 1)) ;;
  do ds <- mapM (sum_distances M) tot ;;
  do best <- get_max_sum_ind tot ds ;;
  Ok (sorted best).
Definition local_optimisation (X : list (list R)) (g N k : nat) : result (list nat) :=
  do _ <- check_input_sample X g N ;;
  local_search (distance_matrix X g N true) k.

(** Strategy.sample, strategy.py:89-119, with the strategy chosen as in morris.py:403-423. *)
Definition strategy_sample (max_chunk : nat) (local : bool) (X : list (list R)) (N params g : nat) (k : Z)
  : result (list (list R)) :=
  do _ <- run_checks N k ;;
  do combo <- (if local then local_optimisation X g N (Z.to_nat k)
               else brute_force max_chunk X g N (Z.to_nat k)) ;;
  compile_output X g params N combo.

(** _compute_optimised_trajectories, morris.py:328-369. *)
Definition optimised_trajectories (max_chunk : nat) (p : problem) (groups : list string)
  (X : list (list R)) (N : nat) (k : Z) (local : bool) : result (list (list R)) :=
  if negb local && Z.ltb 10 k then Err ValueError
  else if existsb (existsb (fun x => Rltb x 0 || Rltb 1 x)) X then Err ValueError
  else strategy_sample max_chunk local X N (p_num_vars p) (set_size groups) k.

(** sample, morris.py:24-150; [opt] is optimal_trajectories (None and 0 are false).  The warning for
    an odd number of levels is not modelled. *)
Definition morris_sample (nq : R -> R) (tq : R -> R -> R -> R) (max_chunk : nat) (p : problem) (N levels : nat)
  (opt : option Z) (local : bool) (draws : nat -> draw) : problem * result scaled :=
  match define_problem_with_groups p with
  | Err e => (p, Err e)
  | Ok p1 =>
    let groups := match p_groups p1 with Some g => g | None => [] end in
    let unit :=
      do X <- sample_morris groups N levels draws ;;
      match opt with
      | Some k => if Z.eqb k 0 then Ok X
                  else if local && Z.ltb (Z.of_nat N) k then Err ValueError
                  else optimised_trajectories max_chunk p1 groups X N k local
      | None => Ok X
      end in
    match unit with
    | Err e => (p1, Err e)
    | Ok rs => let '(_, p', out) := scale_samples nq tq (mkMat (length groups) rs) p1 in (p', out)
    end
  end.
End Distances.
