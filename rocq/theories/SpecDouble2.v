(** * Words for the statements about estimators in double precision. *)
From Coq Require Import Reals List Arith.
From Flocq Require Import Core.
From Verif Require Import ModelDouble SpecSobol.
Import ListNotations.
Local Open Scope R_scope.

(** Doubles that are not very small. *)
Definition moderate (x : R) : Prop := double x /\ (x = 0 \/ powerRZ 2 (-300) <= Rabs x).

(** The model does not respond to group [j] of [G] groups: in every block of outputs, moving group [j] of the first base point changes nothing, and with second order
    neither does moving it in the second. *)
Definition silent (G : nat) (second : bool) (Y : list R) (j : nat) : Prop :=
  let s := block_size G second in
  forall i, (i < length Y / s)%nat ->
    nth_error Y (i * s + (1 + j)) = nth_error Y (i * s) /\
    (second = true -> nth_error Y (i * s + (1 + G + j)) = nth_error Y (i * s + (s - 1))).
