(** * Specification vocabulary for fractional factorial designs. *)
From Coq Require Import Reals String List Arith ZArith.
From Verif Require Import Base ModelGroups Stats SpecSobol.
Import ListNotations.

(** [n] is the least power of two that is at least [d]. *)
Definition least_power (d n : nat) : Prop :=
  (exists k, n = 2 ^ k) /\ d <= n /\ forall k, d <= 2 ^ k -> n <= 2 ^ k.

(** Sum over the rows of a table of the product of columns [a] and [b]. *)
Definition inner (X : list (list Z)) (a b : nat) : Z :=
  fold_right Z.add 0%Z (map (fun r => (nth a r 0 * nth b r 0)%Z) X).
Definition column_sum (X : list (list Z)) (a : nat) : Z :=
  fold_right Z.add 0%Z (map (fun r => nth a r 0%Z) X).

(** One name and one pair of increasing bounds per parameter, no distributions, at most 512
    parameters. *)
Definition ff_problem (p : problem) : Prop :=
  length (p_names p) = p_num_vars p /\ length (p_bounds p) = p_num_vars p /\
  good_box (p_bounds p) /\ p_dists p = None /\ p_num_vars p <= 512.

Definition lower (bounds : list (list R)) (j : nat) : R := nth 0 (nth j bounds []) 0%R.
Definition upper (bounds : list (list R)) (j : nat) : R := nth 1 (nth j bounds []) 0%R.

(** Coded value (-1 at the lower bound, 1 at the upper) of coordinate [j] of [x]. *)
Definition coded (bounds : list (list R)) (x : list R) (j : nat) : R :=
  ((2 * nth j x 0 - (lower bounds j + upper bounds j)) / (upper bounds j - lower bounds j))%R.

(** Number of rows in which column [j] is [v]. *)
Definition times (X : list (list R)) (j : nat) (v : R) : nat :=
  length (filter (fun r => if Req_EM_T (nth j r 0%R) v then true else false) X).

(** Linear form with coefficients [c] on the first [d] coordinates. *)
Definition linear (d : nat) (c : nat -> R) (x : list R) : R :=
  Rsum (map (fun j => c j * nth j x 0)%R (seq 0 d)).

(** Depends on the coded point only through its first [n] coordinates, and takes the same value
    at opposite points. *)
Definition even_on (n : nat) (g : (nat -> R) -> R) : Prop :=
  forall z z', (forall j, j < n -> z' j = (- z j)%R) -> g z' = g z.

(** Sum of two-factor products. *)
Definition products (n : nat) (d : nat -> nat -> R) (z : nat -> R) : R :=
  Rsum (map (fun a => Rsum (map (fun b => d a b * z a * z b)%R (seq 0 n))) (seq 0 n)).
