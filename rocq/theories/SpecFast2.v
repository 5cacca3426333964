(** * Specification vocabulary for what extended FAST computes of cosine series.

    A function of one coordinate on an interval is given by the coefficients of its cosine series; a model is a sum
    of such functions, one per parameter. *)
From Coq Require Import Reals List Arith.
From Verif Require Import Base Stats SpecIntegral.
Import ListNotations.
Local Open Scope nat_scope.

(** a_0 + a_1 cos(pi t) + a_2 cos(2 pi t) + ..., where t runs from 0 to 1 over the interval. *)
Definition cosine_series (i : R * R) (a : list R) (x : R) : R :=
  Rsum (map (fun k => nth k a 0 * cos (INR k * (PI * ((x - fst i) / (snd i - fst i)))))%R (seq 0 (length a))).

Fixpoint cosine_model (b : box) (coefs : list (list R)) (x : list R) : R :=
  match b, coefs, x with
  | i :: b, a :: coefs, v :: x => (cosine_series i a v + cosine_model b coefs x)%R
  | _, _, _ => 0%R
  end.

(** No two of the frequencies share one of their first [K] harmonics. *)
Definition separate (K : nat) (ws : list nat) : Prop :=
  forall s t v w h k, s <> t -> nth_error ws s = Some v -> nth_error ws t = Some w -> 1 <= h <= K -> 1 <= k <= K -> h * v <> k * w.

(** The bounds of a problem whose parameters range over the box, and block [i] of a sample of blocks of [N] rows. *)
Definition bounds_of (b : box) : list (list R) := map (fun i => [fst i; snd i]) b.
Definition block_of (m : mat R) (N i : nat) : list (list R) := map (fun k => nth (i * N + k) (rows m) []) (seq 0 N).

(** Every interval has a positive length. *)
Definition proper_box (b : box) : Prop := forall i lo hi, nth_error b i = Some (lo, hi) -> (lo < hi)%R.
