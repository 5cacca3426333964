(** * Vocabulary for the distribution of Morris designs. *)
From Coq Require Import Reals String List Arith.
From Verif Require Import Base Stats ModelGroups SpecGroups SpecSobol SpecFF ModelMorris SpecMorris SpecExpect.
Import ListNotations.
Local Open Scope nat_scope.

(** The grid of [levels] values per parameter: the point with the levels [z], in parameter units. *)
Definition grid_point (bounds : list (list R)) (levels : nat) (z : list nat) : list R :=
  map (fun j => (lower bounds j + INR (nth j z 0%nat) / (INR levels - 1) * ranges bounds j)%R) (seq 0 (length bounds)).
Definition on_levels (D levels : nat) (z : list nat) : Prop := length z = D /\ forall c, In c z -> c < levels.

(** With [2 n] levels, a step leads from level [c] to level [c + n] or [c - n], whichever exists. *)
Definition across (n c : nat) : nat := if c <? n then c + n else c - n.
(** The grid point [z] after a step of the parameters labelled [x]. *)
Definition stepped (ls : list string) (n : nat) (x : string) (z : list nat) : list nat :=
  map (fun j => if String.eqb (nth j ls EmptyString) x then across n (nth j z 0) else nth j z 0) (seq 0 (length z)).

(** The change of [f] over that step per step size, signed by the direction of parameter [j]. *)
Definition grid_effect (bounds : list (list R)) (ls : list string) (n : nat) (f : list R -> R) (x : string) (j : nat) (z : list nat) : R :=
  let a := f (grid_point bounds (2 * n) z) in
  let b := f (grid_point bounds (2 * n) (stepped ls n x z)) in
  ((if (nth j z 0 <? n)%nat then b - a else a - b) / step (2 * n))%R.

(** Equally likely values. *)
Definition uniform {A} (l : list A) : @law A := map (fun v => (v, / INR (length l))%R) l.
(** All grid points equally likely. *)
Definition grid_law (levels D : nat) : list (@law nat) := repeat (uniform (seq 0 levels)) D.

(** Per parameter, a direction and a starting position: what the generator draws for one trajectory beside the order. *)
Definition choices (n D : nat) : list (@law (bool * nat)) := repeat (uniform (list_prod [false; true] (seq 0 n))) D.
Definition draw_of (order : list nat) (c : list (bool * nat)) : draw :=
  mkDraw order (fun j => fst (nth j c (true, 0))) (fun j => snd (nth j c (true, 0))).
Definition choice_of (n D : nat) (c : list (bool * nat)) : Prop := length c = D /\ forall v, In v c -> snd v < n.
