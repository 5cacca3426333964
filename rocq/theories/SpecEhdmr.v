(** * Specification vocabulary for the enhanced HDMR analyser. *)
From Coq Require Import Reals String List Arith ZArith Sorted.
From Verif Require Import Base Stats.
Import ListNotations.
Local Open Scope nat_scope.

(** All products of a column of [A] and a column of [B]. *)
Definition products (A B : list (list R)) : list (list R) := flat_map (fun a => map (fun b => map2 Rmult a b) B) A.

(** The columns of a term: [phi] are those of a parameter.  The extended basis puts the lower-order columns first. *)
Definition own_columns (ext : bool) (phi : nat -> list (list R)) (t : list nat) : list (list R) :=
  match t with
  | [a] => phi a
  | [a; b] => (if ext then phi a ++ phi b else []) ++ products (phi a) (phi b)
  | [a; b; c] =>
    (if ext then phi a ++ phi b ++ phi c ++ products (phi a) (phi b) ++ products (phi a) (phi c) ++ products (phi b) (phi c) else [])
    ++ products (products (phi a) (phi b)) (phi c)
  | _ => []
  end.

(** The lower-order columns of a term. *)
Definition lower_columns (phi : nat -> list (list R)) (t : list nat) : list (list R) :=
  match t with
  | [a; b] => phi a ++ phi b
  | [a; b; c] => phi a ++ phi b ++ phi c ++ products (phi a) (phi b) ++ products (phi a) (phi c) ++ products (phi b) (phi c)
  | _ => []
  end.

(** The number of coefficients of a term of order [o] with [p] columns per parameter. *)
Definition coefficient_count (ext : bool) (p o : nat) : nat :=
  match o with
  | 1 => p
  | 2 => p ^ 2 + (if ext then 2 * p else 0)
  | _ => p ^ 3 + (if ext then 3 * p + 3 * p ^ 2 else 0)
  end.

(** Orthonormal columns of mean zero over a sample of [n] points. *)
Definition inner (a b : list R) : R := (Rsum (map2 Rmult a b) / INR (length a))%R.
Definition orthonormal (cs : list (list R)) : Prop :=
  forall j k a b, nth_error cs j = Some a -> nth_error cs k = Some b ->
    mean a = 0%R /\ inner a b = if j =? k then 1%R else 0%R.

(** Accepted data and options: [N] samples of [d] parameters, [ylen] outputs. *)
Definition e_settings_ok (N d ylen : nat) (maxorder poly K : Z) (sub : option Z) (maxiter : Z) (lambda alpha : R) (ext : bool) : Prop :=
  d <> 1 /\ 300 <= N /\ ylen = N /\ (1 <= maxorder <= 3)%Z /\ (1 <= poly <= 10)%Z /\ (1 <= K <= 100)%Z /\
  (forall s, K <> 1 -> sub = Some s -> 300 <= s <= Z.of_nat N)%Z /\ (1 / 2 <= alpha <= 1)%R /\
  (ext = false -> 100 <= maxiter <= 999)%Z /\ (0 <= lambda <= 10)%R.
(** The number of rows of a bootstrap. *)
Definition e_subset (N : nat) (K : Z) (sub : option Z) : nat :=
  if (K =? 1)%Z then N else match sub with None => N / 2 | Some s => Z.to_nat s end.

(** At least [m] different values. *)
Definition distinct_values (m : nat) (l : list R) : Prop := exists vs, NoDup vs /\ incl vs l /\ length vs = m.

(** The function with coefficients [x] over the columns [B], at each of [n] points. *)
Definition combination (n : nat) (B : list (list R)) (x : list R) : list R := map (fun i => Rsum (map2 (fun b v => nth i b 0 * v)%R B x)) (seq 0 n).
(** The quadratic form of a matrix. *)
Definition quadratic (C : list (list R)) (x : list R) : R :=
  Rsum (map (fun i => Rsum (map (fun j => nth i x 0 * nth j (nth i C []) 0 * nth j x 0)%R (seq 0 (length x)))) (seq 0 (length x))).

(** The entries of the problem, where given, fit a sample of [d] parameters. *)
Definition problem_fits (names : option (list string)) (bounds : option (list (R * R))) (num : option nat) (d : nat) : Prop :=
  (forall l, names = Some l -> length l = d) /\ (forall b, bounds = Some b -> length b = d) /\ (forall n, num = Some n -> n = d).
