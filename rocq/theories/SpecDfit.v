(** * Specification vocabulary for fits by D-MORPH regression in enhanced HDMR. *)
From Coq Require Import Reals List Arith.
From Verif Require Import Base Stats SpecRidge SpecEhdmr SpecEfit.
Import ListNotations.
Local Open Scope nat_scope.

(** A form for each block of coefficients: the sum of their values. *)
Definition forms (C : list (list (list R))) (xs : list (list R)) : R := total (length C) (fun z => quadratic (nth z C []) (nth z xs [])).
(** Symmetric forms without negative values, as wide as the blocks. *)
Definition cost_forms (Bs : list (list (list R))) (C : list (list (list R))) : Prop :=
  length C = length Bs /\ forall z, z < length Bs -> length (nth z C []) = width Bs z /\
    (forall i j, i < width Bs z -> j < width Bs z -> nth j (nth i (nth z C []) []) 0%R = nth i (nth j (nth z C []) []) 0%R) /\
    (forall x, length x = width Bs z -> (0 <= quadratic (nth z C []) x)%R).

(** The coefficients [xs] fit as well as any, and cost less than any others that do. *)
Definition cheapest_fit (Bs : list (list (list R))) (y : list R) (cost : list (list R) -> R) (xs : list (list R)) : Prop :=
  shape Bs xs /\ (forall es, shape Bs es -> (misfit Bs y xs <= misfit Bs y es)%R) /\
  forall es, shape Bs es -> misfit Bs y es = misfit Bs y xs -> es <> xs -> (cost xs < cost es)%R.

(** Columns in blocks without linear relations over [n] points. *)
Definition independent (Bs : list (list (list R))) (n : nat) : Prop := forall g : nat -> nat -> R,
  (forall r, r < n -> total (length Bs) (fun z => total (width Bs z) (fun i => at3 Bs z i r * g z i))%R = 0%R) -> forall z i, z < length Bs -> i < width Bs z -> g z i = 0%R.

(** How far the functions of the terms are from having mean zero and being orthogonal to the columns of lower order. *)
Definition hierarchy (n : nat) (phi : nat -> list (list R)) (ts : list (list nat)) (xs : list (list R)) : R :=
  total (length ts) (fun z => let t := nth z ts [] in let f := combination n (own_columns true phi t) (nth z xs []) in
    if length t =? 1 then 0 else mean f ^ 2 + Rsum (map (fun a => inner a f ^ 2) (lower_columns phi t)))%R.
