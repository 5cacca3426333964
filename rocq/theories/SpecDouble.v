(** * Specification vocabulary for Morris samples in double precision. *)
From Coq Require Import Reals List.
From Flocq Require Import Core.
From Verif Require Import SpecSobol SpecFF ModelDouble.
Import ListNotations.
Local Open Scope nat_scope.

(** The bounds are doubles, at least 2^-1000 apart. *)
Definition wide_doubles (bounds : list (list R)) : Prop :=
  forall j, j < length bounds -> double (lower bounds j) /\ double (upper bounds j) /\ (bpow radix2 (-1000) <= upper bounds j - lower bounds j)%R.
