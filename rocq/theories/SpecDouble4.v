(** * Words for the statements about DGSM in double precision. *)
From Coq Require Import Reals List Arith.
From Verif Require Import ModelScale ModelDouble.
Local Open Scope R_scope.

(** Doubles that are 0 or at least 2^e. *)
Definition sized (e : Z) (x : R) : Prop := double x /\ (x = 0 \/ powerRZ 2 e <= Rabs x).
