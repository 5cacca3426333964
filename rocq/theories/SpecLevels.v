(** * Specification vocabulary for quantile levels in double precision. *)
From Coq Require Import Reals String List Arith.
From Flocq Require Import Core.
From Verif Require Import Base ModelScale Stats Quant SpecPawn ModelRsa.
Import ListNotations.
Local Open Scope R_scope.

(** Levels that stand for 0, 1/n, ..., 1: from 0 strictly upwards inside [0, 1], each within 2^-51 of its exact value. *)
Definition good_levels (n : nat) (l : nat -> R) : Prop :=
  l 0%nat = 0 /\ (forall i j, (i < j)%nat -> (j <= n)%nat -> l i < l j) /\ (forall k, (k <= n)%nat -> 0 <= l k <= 1) /\
  forall k, (k <= n)%nat -> Rabs (l k - INR k / INR n) <= / 2 ^ 51.

(** The figures of one parameter for given levels: cut points at the quantiles of its numbers, one entry per slice, summarised. *)
Definition row_at (l : nat -> R) (xs : list fval) (Y : list R) (n : nat) (row : list fval) : Prop :=
  exists c cells,
    (somes xs <> [] -> forall k, (k <= n)%nat -> quantile_at (somes xs) (l k) (c k)) /\
    length cells = n /\ (forall s v, nth_error cells s = Some v -> slice_value c xs Y s v) /\
    summary_of cells row.

(** What the result of a regional sensitivity analysis holds for the labels [ns], the edges [b] and the table [r]. *)
Definition reported_at (d : rsa_dict) (ns : list string) (b : list R) (target : string) (r : list (list fval)) : Prop :=
  dict_get d "names" = Some (Names ns) /\ dict_get d "bins" = Some (Bins b) /\ dict_get d "target" = Some (Target target) /\
  forall i n, nth_error ns i = Some n -> ~ In n ["names"; "bins"; "target"]%string -> dict_get d n = Some (Values (nth i r [])).
