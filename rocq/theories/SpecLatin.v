(** * Specification vocabulary for Latin hypercube sampling. *)
From Coq Require Import Reals String List Arith Permutation.
From Verif Require Import Base ModelGroups.
Import ListNotations.

(** Each parameter carries its own label unless groups are given; then there is one label per
    parameter. *)
Definition every_labelled (p : problem) : Prop :=
  forall x l, p_groups p = Some (x :: l) -> length (x :: l) = p_num_vars p.

(** Parameters [j] and [j'] are in the same group. *)
Definition same_group (p : problem) (j j' : nat) : Prop :=
  j = j' \/ exists g x, p_groups p = Some g /\ nth_error g j = Some x /\ nth_error g j' = Some x.

(** What the random generator delivers: uniform numbers in [0,1) and rearrangements. *)
Definition proper_draws (N : nat) (u : nat -> nat -> R) (perm : nat -> list nat) : Prop :=
  (forall s g, 0 <= u s g < 1)%R /\ (forall g, Permutation (perm g) (seq 0 N)).

(** Exactly one of the first [N] rows has its entry number [j] in [lo, hi). *)
Definition exactly_one_row (rs : list (list R)) (N j : nat) (lo hi : R) : Prop :=
  exists s, s < N /\ (exists x, entry rs s j = Some x /\ lo <= x < hi)%R /\
    forall s' x, entry rs s' j = Some x -> (lo <= x < hi)%R -> s' = s.
