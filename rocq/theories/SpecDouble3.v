(** * Words for the statements about Morris analyses in double precision. *)
From Coq Require Import Reals String List Arith.
From Flocq Require Import Core.
From Verif Require Import Base ModelGroups ModelScale SpecGroups SpecMorris ModelDouble.
Import ListNotations.
Local Open Scope R_scope.

(** Parameter [j] of run [r]. *)
Definition coord (X : list (list R)) (r j : nat) : R := nth j (nth r X []) 0.

(** Parameter [j] moves at most once in each trajectory of [size] runs. *)
Definition one_move (size : nat) (X : list (list R)) (j : nat) : Prop :=
  forall i k k', (k + 1 < size)%nat -> (k' + 1 < size)%nat ->
    coord X (i * size + (k + 1)) j <> coord X (i * size + k) j -> coord X (i * size + (k' + 1)) j <> coord X (i * size + k') j -> k = k'.

(** Along the steps of parameter [j] in the first [N] trajectories the output does not decrease where the parameter increases, nor increase where it decreases … *)
Definition rises (N size : nat) (X : list (list R)) (Y : list R) (j : nat) : Prop :=
  forall i k, (i < N)%nat -> (k + 1 < size)%nat ->
    let x r := coord X (i * size + r) j in
    let y r := nth (i * size + r) Y 0 in
    (x k < x (k + 1)%nat -> y k <= y (k + 1)%nat) /\ (x (k + 1)%nat < x k -> y (k + 1)%nat <= y k).
(** … the other way round … *)
Definition falls (N size : nat) (X : list (list R)) (Y : list R) (j : nat) : Prop := rises N size X (map Ropp Y) j.
(** … or does not change. *)
Definition flat (N size : nat) (X : list (list R)) (Y : list R) (j : nat) : Prop :=
  forall i k, (i < N)%nat -> (k + 1 < size)%nat -> coord X (i * size + (k + 1)) j <> coord X (i * size + k) j ->
    nth (i * size + (k + 1)) Y 0 = nth (i * size + k) Y 0.

(** Doubles that are 0 or not very small. *)
Definition not_tiny (x : R) : Prop := double x /\ (x = 0 \/ powerRZ 2 (-100) <= Rabs x).

(** The multiple of a number or nan. *)
Definition times (c : R) (v : fval) : fval := option_map (Rmult c) v.

(** A problem with labels [ls], of which [G] differ, and matching arrays for [N] trajectories. *)
Definition proper (p : problem) (ls : list string) (G N : nat) (X : mat R) (Y : list R) : Prop :=
  labels_of p ls /\ distinct_count ls G /\ length ls = p_num_vars p /\ cols X = p_num_vars p /\ (0 < p_num_vars p)%nat /\
  length (rows X) = length Y /\ length Y = (N * (G + 1))%nat /\ (0 < N)%nat.
