(** * Slopes of a function over a box. *)
From Coq Require Import Reals List Arith.
From Verif Require Import SpecIntegral SpecDgsm.
Import ListNotations.
Local Open Scope R_scope.

(** [g] is the partial derivative of [f] in coordinate [i] at the points of the box, continuous along that coordinate. *)
Definition partial_slope (b : box) (f g : list R -> R) (i : nat) : Prop :=
  forall bi xs x, nth_error b i = Some bi -> inside (without_at i b) xs -> fst bi <= x <= snd bi ->
    derivable_pt_lim (fun u => f (put_at i u xs)) x (g (put_at i x xs)) /\ continuity_pt (fun u => g (put_at i u xs)) x.

(** The base points of a design with [D] parameters and [N] of them. *)
Definition base_points (X : list (list R)) (D N : nat) : list (list R) := map (fun i => nth (i * (D + 1)) X []) (seq 0 N).

(** The steps of coordinate [j] become arbitrarily small. *)
Definition steps_vanish (X : nat -> list (list R)) (N : nat -> nat) (D j : nat) : Prop :=
  forall eps, 0 < eps -> exists n0, forall n i, (n0 <= n)%nat -> (i < N n)%nat -> Rabs (step_of (X n) D i j) <= eps.
