(** * Specification vocabulary for finite-difference designs. *)
From Coq Require Import Reals String List Arith.
From Verif Require Import Base ModelGroups SpecSobol SpecFF.
Import ListNotations.
Local Open Scope nat_scope.

(** The rows differ at most in coordinate [j]. *)
Definition agree_except {A} (j : nat) (a b : list A) : Prop :=
  length a = length b /\ forall k, k <> j -> nth_error a k = nth_error b k.

(** [r] is [b] with coordinate [j] changed by the fraction [delta] of its value, but not beyond the
    bounds [lo, up]. *)
Definition stepped (lo up delta : R) (j : nat) (b r : list R) : Prop :=
  agree_except j b r /\
  let x := nth j b 0%R in let y := nth j r 0%R in
  (lo <= y <= up)%R /\
  (lo <= x + x * delta <= up -> y = x + x * delta)%R /\
  (up < x + x * delta -> y = up)%R /\ (x + x * delta < lo -> y = lo)%R.

(** A base point followed by one changed point per parameter, [N] times over. *)
Definition difference_design (D N : nat) (X : list (list R)) : Prop :=
  length X = N * (D + 1) /\
  forall i, i < N -> exists b, nth_error X (i * (D + 1)) = Some b /\ length b = D /\
    forall j, j < D -> exists r, nth_error X (i * (D + 1) + 1 + j) = Some r /\
      agree_except j b r /\ nth j r 0%R <> nth j b 0%R.

(** The secant slope for parameter [j] at base point [i]. *)
Definition secant (X : list (list R)) (Y : list R) (D i j : nat) : R :=
  ((nth (i * (D + 1) + 1 + j)%nat Y 0 - nth (i * (D + 1))%nat Y 0) /
   (nth j (nth (i * (D + 1) + 1 + j)%nat X []) 0 - nth j (nth (i * (D + 1))%nat X []) 0))%R.

(** Names, bounds and parameters of a problem without distributions. *)
Definition plain_problem (p : problem) : Prop :=
  0 < p_num_vars p /\ length (p_bounds p) = p_num_vars p /\ good_box (p_bounds p) /\ p_dists p = None.

(** Points of the unit cube. *)
Definition unit_points (n d : nat) (rs : list (list R)) : Prop :=
  length rs = n /\ Forall (fun r => length r = d /\ Forall (fun x => 0 <= x <= 1)%R r) rs.

(** [N] blocks of [D + 1] rows of [D] numbers. *)
Definition block_rows (D N : nat) (X : list (list R)) : Prop :=
  length X = N * (D + 1) /\ Forall (fun r => length r = D) X.

(** The step taken for parameter [j] at base point [i]. *)
Definition step_of (X : list (list R)) (D i j : nat) : R :=
  (nth j (nth (i * (D + 1) + 1 + j)%nat X []) 0 - nth j (nth (i * (D + 1))%nat X []) 0)%R.

(** The outputs at the base points. *)
Definition base_outputs (Y : list R) (D N : nat) : list R := map (fun i => nth (i * (D + 1)) Y 0%R) (seq 0 N).
