(** * Specification vocabulary for PAWN in double precision. *)
From Coq Require Import Reals List Arith.
From Flocq Require Import Core.
From Verif Require Import Base ModelScale ModelDouble.
Import ListNotations.
Local Open Scope R_scope.

(** The order of the computed figures of a row; nothing is said about the mean but its sign. *)
Definition ordered_row_fl (row : list fval) : Prop :=
  (exists cv, row = [None; None; None; None; cv; None]) \/
  exists mi me md ma cv s, row = [Some mi; Some me; Some md; Some ma; cv; Some s] /\
    0 <= mi /\ mi <= md /\ md <= ma /\ ma <= 1 /\ 0 <= me /\ 0 <= s /\ forall c, cv = Some c -> 0 <= c.

(** [row'] approximates [row], computed from [n] slices: minimum and maximum are correctly rounded, mean and median have small relative errors, and the
    coefficient of variation is a number unless the maximum is 0. *)
Definition close_row (n : nat) (row row' : list fval) : Prop :=
  let r := 1 - bpow radix2 (-53) in
  (row = repeat None 6 /\ row' = repeat None 6) \/
  exists mi me md ma cv s me' md' cv' s', row = [Some mi; Some me; Some md; Some ma; cv; Some s] /\
    row' = [Some (fl mi); Some me'; Some md'; Some (fl ma); cv'; Some s'] /\
    (r ^ (n + 1) * me <= me' /\ r ^ (n + 1) * me' <= me) /\ (r ^ 2 * md <= md' /\ r ^ 2 * md' <= md) /\
    (cv' = None <-> ma = 0).

(** Minimum, mean, median and maximum of [row'] are nan where those of [row] are, and otherwise agree up to the factor (1 - 2^-53)^e. *)
Definition near_row (e : nat) (row row' : list fval) : Prop :=
  length row = 6%nat /\ length row' = 6%nat /\ forall k, (k < 4)%nat ->
    (nth k row None = None /\ nth k row' None = None) \/
    exists x y, nth k row None = Some x /\ nth k row' None = Some y /\
      (1 - bpow radix2 (-53)) ^ e * x <= y /\ (1 - bpow radix2 (-53)) ^ e * y <= x.
