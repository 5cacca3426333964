(** * Bounds of accumulated rounding errors. *)
From Coq Require Import Reals List.
From Flocq Require Import Core.
Import ListNotations.
Local Open Scope R_scope.

(** The relative error of [n] roundings to double precision, and the magnitude below which a single rounding may lose relative precision. *)
Definition err (n : nat) : R := (1 + bpow radix2 (-53)) ^ n - 1.
Definition tiny : R := bpow radix2 (-1022).

(** [y] is off [x] by at most [n] roundings relative to [w]. *)
Definition off (n : nat) (w x y : R) : Prop := Rabs (y - x) <= err n * w.
