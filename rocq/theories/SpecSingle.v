(** * Specification vocabulary for selections of trajectories in rounded arithmetic. *)
From Coq Require Import Reals List Arith.
From Flocq Require Import Core.
From Verif Require Import Base ModelDouble.
Import ListNotations.
Local Open Scope R_scope.

(** The coordinates of any two points are equal or at least [h] apart. *)
Definition separated (h : R) (X : list (list R)) : Prop :=
  forall x y j a b, In x X -> In y X -> nth_error x j = Some a -> nth_error y j = Some b -> a = b \/ h <= Rabs (a - b).

(** Coordinates on grids of up to 257 levels: doubles that are 0 or at least 1/256. *)
Definition coarse (X : list (list R)) : Prop := forall x a, In x X -> In a x -> double a /\ (a = 0 \/ / 256 <= a).

(** The square root of the sum of the squares. *)
Definition length_of (ds : list R) : R := sqrt (fold_right Rplus 0 (map (fun d => d * d) ds)).
