(** * Specification vocabulary for sizes computed in floating point. *)
From Coq Require Import Reals List Arith ZArith.
From Flocq Require Import Core.
From Verif Require Import Base.
Local Open Scope R_scope.

(** [lg] computes natural logarithms of positive integers to within the relative error 2^-51 (two units in the last place; usual libraries are off by less
    than one). *)
Definition accurate_log (lg : R -> R) : Prop :=
  forall n : nat, (1 <= n)%nat -> Rabs (lg (INR n) - ln (INR n)) <= ln (INR n) * bpow radix2 (-51).

(** [b] is the least number of bits with [N <= 2^b]. *)
Definition least_bits (N b : nat) : Prop := (N <= 2 ^ b)%nat /\ forall c, (N <= 2 ^ c)%nat -> (b <= c)%nat.
