(** * Model of the fractional factorial sampler and analyser
    (src/SALib/sample/ff.py, src/SALib/analyze/ff.py). *)
From Coq Require Import Reals Ascii String List Arith ZArith Bool DecimalString.
From Verif Require Import Base Arrays ModelGroups ModelScale Stats.
Import ListNotations.
Local Open Scope nat_scope.

(** find_smallest, sample/ff.py:15-31; None when no x in range(10) will do. *)
Definition find_smallest (n : nat) : option nat := find (fun x => n <=? 2 ^ x) (seq 0 10).

(** [2 ** find_smallest(num_vars)]; 2 ** None raises TypeError. *)
Definition ff_size (n : nat) : result nat :=
  match find_smallest n with Some x => Ok (2 ^ x) | None => Err TypeError end.

(** [str(var)] for a natural number, sample/ff.py:51. *)
Definition str_nat (n : nat) : string := NilZero.string_of_uint (Nat.to_uint n).
Definition dummy_name (n : nat) : string := ("dummy_" ++ str_nat n)%string.

(** extend_bounds, sample/ff.py:34-56.  The dictionary is changed in place and returned; the result
    here is its new content. *)
Definition extend_bounds (p : problem) : result problem :=
  do n <- ff_size (p_num_vars p) ;;
  let d := n - p_num_vars p in
  if 0 <? d then
    Ok (mkProblem n (p_names p ++ map dummy_name (seq 0 d)) (p_bounds p ++ repeat [0; 1]%R d)
          (p_groups p) (p_dists p) (p_scaled p))
  else Ok p.

(** scipy.linalg.hadamard(2^k): Sylvester's construction. *)
Fixpoint hadamard (k : nat) : list (list Z) :=
  match k with
  | 0 => [[1%Z]]
  | S k => let H := hadamard k in
           map (fun r => r ++ r) H ++ map (fun r => r ++ map Z.opp r) H
  end.

(** generate_contrast, sample/ff.py:59-77. *)
Definition generate_contrast (num_vars : nat) : result (list (list Z)) :=
  match find_smallest num_vars with
  | Some k => Ok (hadamard k ++ map (map Z.opp) (hadamard k))
  | None => Err TypeError
  end.

(** sample, sample/ff.py:80-126; first component: the problem dictionary afterwards. *)
Definition ff_sample (nq : R -> R) (tq : R -> R -> R -> R) (p : problem) : problem * result scaled :=
  match generate_contrast (p_num_vars p) with
  | Err e => (p, Err e)
  | Ok contrast =>
    match extend_bounds p with
    | Err e => (p, Err e)
    | Ok p1 =>
      let unit := map (map (fun z => ((IZR z + 1) / 2)%R)) contrast in
      let '(_, p', out) := scale_samples nq tq (mkMat (length (hd [] contrast)) unit) p1 in
      (p', out)
    end
  end.

(** [np.dot(Y, x)] for vectors; ValueError when the lengths differ. *)
Definition dot (Y : list R) (x : list Z) : result R :=
  if length Y =? length x then Ok (Rsum (map2 (fun y z => y * IZR z)%R Y x)) else Err ValueError.

(** interactions, analyze/ff.py:123-158: names and values of the pairs, in loop order. *)
Definition interactions (names : list string) (num_vars : nat) (X : list (list Z)) (Y : list R)
  : result (list ((string * string) * R)) :=
  mapM (fun ab => let '(c, c2) := ab in
          do n2 <- get names c2 ;;
          do n1 <- get names c ;;
          do v <- dot Y (map2 Z.mul (column X c) (column X c2)) ;;
          Ok ((n2, n1), (1 / INR (2 * num_vars) * v)%R))
       (flat_map (fun c => map (fun c2 => (c, c2)) (seq 0 c)) (seq 0 (length (hd [] X)))).

Record ff_result := mkFF {
  ff_names : list string;
  ff_ME : list R;
  ff_IE : option (list ((string * string) * R))
}.

(** analyze, analyze/ff.py:17-96 (the argument X is ignored); first component: the problem
    dictionary afterwards. *)
Definition ff_analyze (p : problem) (Y : list R) (second : bool) : problem * result ff_result :=
  match extend_bounds p with
  | Err e => (p, Err e)
  | Ok p1 =>
    (p1,
     do X <- generate_contrast (p_num_vars p1) ;;
     do ME <- mapM (fun j => do v <- dot Y (column X j) ;; Ok (1 / INR (2 * p_num_vars p1) * v)%R)
                   (seq 0 (length (hd [] X))) ;;
     do IE <- (if second then do l <- interactions (p_names p1) (p_num_vars p1) X Y ;; Ok (Some l)
               else Ok None) ;;
     Ok (mkFF (p_names p1) ME IE))
  end.
