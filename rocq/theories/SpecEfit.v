(** * Specification vocabulary for fits by blocks of columns. *)
From Coq Require Import Reals List Arith.
From Verif Require Import Base Stats SpecRidge.
Import ListNotations.
Local Open Scope nat_scope.

(** [Bs] are blocks of columns: [at3 Bs z i r] is the value of column [i] of block [z] at point [r]; coefficients come by block too. *)
Definition width (Bs : list (list (list R))) (z : nat) : nat := length (nth z Bs []).
Definition shape (Bs : list (list (list R))) (xs : list (list R)) : Prop := length xs = length Bs /\ forall z, z < length Bs -> length (nth z xs []) = width Bs z.
Definition explained (Bs : list (list (list R))) (xs : list (list R)) (r : nat) : R :=
  total (length Bs) (fun z => total (width Bs z) (fun i => at3 Bs z i r * at2 xs z i))%R.
(** Sum of squared residuals; sum of squared coefficients. *)
Definition misfit (Bs : list (list (list R))) (y : list R) (xs : list (list R)) : R := total (length y) (fun r => (nth r y 0 - explained Bs xs r) ^ 2)%R.
Definition weight (Bs : list (list (list R))) (xs : list (list R)) : R := total (length Bs) (fun z => total (width Bs z) (fun i => at2 xs z i ^ 2))%R.

(** [x] is the ridge regression on one block: mean square of the residuals plus [l2] times the squares of the coefficients. *)
Definition ridge_alone (B : list (list R)) (y : list R) (l2 : R) (x : list R) : Prop :=
  length x = length B /\ forall e, (misfit [B] y [x] / INR (length y) + l2 * weight [B] [x] <= misfit [B] y [e] / INR (length y) + l2 * weight [B] [e])%R.

(** The new blocks before [z], [v], the old blocks after [z]. *)
Definition mixed (z : nat) (new : list (list R)) (v : list R) (old : list (list R)) : list (list R) := firstn z new ++ v :: skipn (S z) old.
(** Each block in turn is the best for what the other blocks leave, without a penalty. *)
Definition sweep (Bs : list (list (list R))) (y : list R) (old new : list (list R)) : Prop :=
  shape Bs new /\ forall z e, z < length Bs -> (misfit Bs y (mixed z new (nth z new []) old) <= misfit Bs y (mixed z new e old))%R.
(** No square of a coefficient has changed by 10^-4 or more. *)
Definition settled (old new : list (list R)) : Prop := forall z i, (Rabs (at2 old z i ^ 2 - at2 new z i ^ 2) < 1 / 10000)%R.

(** Ridge regressions on the single blocks, then sweeps until the coefficients have settled, one at least and [S maxiter] at most. *)
Definition backfitted (maxiter : nat) (l2 : R) (Bs : list (list (list R))) (y : list R) (xs : list (list R)) : Prop :=
  exists (h : nat -> list (list R)) p, shape Bs (h 0) /\ (forall z, z < length Bs -> ridge_alone (nth z Bs []) y l2 (nth z (h 0) [])) /\
    1 <= p <= S maxiter /\ h p = xs /\ (forall k, k < p -> sweep Bs y (h k) (h (S k))) /\
    (forall k, S k < p -> ~ settled (h k) (h (S k))) /\ (p <= maxiter -> settled (h (p - 1)) xs).

(** The sum of the squared entries of the joint Gram matrix. *)
Definition block_gram (Bs : list (list (list R))) (n : nat) : R :=
  total (length Bs) (fun z => total (width Bs z) (fun i => total (length Bs) (fun z' => total (width Bs z') (fun i' =>
    total n (fun r => at3 Bs z i r * at3 Bs z' i' r) ^ 2))))%R.

(** The solver returns solutions of its systems. *)
Definition solves (solve : list (list R) -> list R -> result (list R)) : Prop := forall A b x, solve A b = Ok x ->
  length x = length b /\ forall i, i < length b -> Rsum (map2 Rmult (nth i A []) x) = nth i b 0%R.

(** Columns of different blocks are orthogonal over the [n] points. *)
Definition orthogonal_blocks (Bs : list (list (list R))) (n : nat) : Prop := forall z i z' i', z < length Bs -> z' < length Bs -> z <> z' -> i < width Bs z -> i' < width Bs z' ->
  total n (fun r => at3 Bs z i r * at3 Bs z' i' r)%R = 0%R.
