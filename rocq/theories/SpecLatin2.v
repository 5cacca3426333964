(** * Vocabulary for the distribution of Latin hypercube samples. *)
From Coq Require Import Reals List Arith.
From Verif Require Import Base Stats ModelGroups SpecSobol SpecLatin SpecFF SpecMorris SpecExpect SpecMorris2.
Import ListNotations.
Local Open Scope nat_scope.

(** All arrangements of a list: every element first, followed by the arrangements of the others. *)
Fixpoint picks {A} (l : list A) : list (A * list A) :=
  match l with [] => [] | x :: r => (x, r) :: map (fun p => (fst p, x :: snd p)) (picks r) end.
Fixpoint arrange {A} (n : nat) (l : list A) : list (list A) :=
  match n with
  | 0 => [[]]
  | S n => flat_map (fun p => map (cons (fst p)) (arrange n (snd p))) (picks l)
  end.
Definition arrangements {A} (l : list A) : list (list A) := arrange (length l) l.

(** Independent shuffles of [N] rows, one per group. *)
Definition shuffles (N G : nat) : list (@law (list nat)) := repeat (uniform (arrangements (seq 0 N))) G.

(** The point whose parameter [j] takes the value drawn in stratum [c j] of [N] for its group; [u] are the positions within the strata. *)
Definition stratum_point (bounds : list (list R)) (gof : nat -> nat) (N : nat) (u : nat -> nat -> R) (c : list nat) : list R :=
  map (fun j => let k := nth (gof j) c 0 in
                (lower bounds j + (INR k + u k (gof j)) / INR N * ranges bounds j)%R) (seq 0 (length bounds)).

(** Sums of one function per parameter. *)
Fixpoint separable (gs : list (R -> R)) (x : list R) : R :=
  match gs, x with g :: gs, v :: x => (g v + separable gs x)%R | _, _ => 0%R end.
Definition monotone (lo up : R) (g : R -> R) : Prop :=
  (forall x y, lo <= x -> x <= y -> y <= up -> g x <= g y)%R \/ (forall x y, lo <= x -> x <= y -> y <= up -> g y <= g x)%R.

(** How far the terms rise or fall across the box, in all. *)
Definition rise (b : list (R * R)) (gs : list (R -> R)) : R := Rsum (map2 (fun i g => Rabs (g (snd i) - g (fst i)))%R b gs).

(** Groups as drawn: parameters share a column of draws exactly when they are in the same group. *)
Definition draw_groups (p : problem) (G : nat) (gof : nat -> nat) : Prop :=
  (forall j, j < p_num_vars p -> gof j < G) /\
  (forall j j', j < p_num_vars p -> j' < p_num_vars p -> (same_group p j j' <-> gof j = gof j')).

(** Every parameter in a group, and every interval of positive length. *)
Definition box_problem (p : problem) : Prop :=
  every_labelled p /\ p_dists p = None /\ 0 < p_num_vars p /\ length (p_bounds p) = p_num_vars p /\ good_box (p_bounds p).
(** Positions within the strata, as delivered by the generator. *)
Definition inside_strata (u : nat -> nat -> R) : Prop := forall k g, (0 <= u k g < 1)%R.
