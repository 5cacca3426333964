(** * Specification vocabulary for numbers written in decimal. *)
From Coq Require Import Reals List ZArith.
From Verif Require Import SpecSobol SpecFF.
Local Open Scope R_scope.

(** [d] can be written with [n] significant decimal digits. *)
Definition has_digits (n : nat) (d : R) : Prop := exists m e : Z, (Z.abs m < 10 ^ Z.of_nat n)%Z /\ d = IZR m * powerRZ 10 e.

(** The bounds are at least 10^(1-p) times their magnitude apart. *)
Definition wide_for (p : nat) (bounds : list (list R)) : Prop :=
  forall j, (j < length bounds)%nat -> powerRZ 10 (1 - Z.of_nat p) * Rmax (Rabs (lower bounds j)) (Rabs (upper bounds j)) <= upper bounds j - lower bounds j.
