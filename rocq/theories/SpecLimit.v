(** * Continuous models on a box, point sets that fill it, and the effects of groups of inputs.

    Nothing here refers to the model. *)
From Coq Require Import Reals List Arith.
From Verif Require Import SpecIntegral Stats SpecExpect.
Import ListNotations.
Local Open Scope R_scope.

(** Points whose coordinates differ by at most [d]. *)
Definition near (d : R) (x y : list R) : Prop := Forall2 (fun a b => Rabs (a - b) <= d) x y.

(** [f] is continuous on the closed box (uniformly, which is the same there). *)
Definition continuous_on (b : box) (f : list R -> R) : Prop :=
  forall eps, 0 < eps -> exists d, 0 < d /\ forall x y, inside b x -> inside b y -> near d x y -> Rabs (f x - f y) <= eps.

(** Growing point sets that are equidistributed over the box: the means of continuous functions tend to their averages. *)
Definition fills (b : box) (pts : nat -> list (list R)) : Prop :=
  (forall n, pts n <> [] /\ Forall (inside b) (pts n)) /\
  forall h v, continuous_on b h -> SpecIntegral.average b h v -> Un_cv (fun n => mean (map h (pts n))) v.

(** The variance of the mean of [f] given the inputs [u]; the mean of the variance of [f] given all inputs but [u]; what two disjoint
    groups explain together but not alone. *)
Definition closed_share (b : box) (f : list R -> R) (u : nat -> bool) (v : R) : Prop :=
  exists h, (forall x, inside b x -> SpecIntegral.average b (fun y => f (mix u x y)) (h x)) /\ SpecIntegral.variance b h v.
Definition total_share (b : box) (f : list R -> R) (u : nat -> bool) (v : R) : Prop :=
  exists h, (forall x, inside b x -> SpecIntegral.variance b (fun y => f (mix u y x)) (h x)) /\ SpecIntegral.average b h v.
Definition joint_share (b : box) (f : list R -> R) (u w : nat -> bool) (v : R) : Prop :=
  exists vu vw vb, closed_share b f u vu /\ closed_share b f w vw /\ closed_share b f (fun j => orb (u j) (w j)) vb /\ v = vb - vu - vw.

(** The unit cube, and the bounds of a problem that describe a box. *)
Definition unit_box (n : nat) : box := repeat (0, 1) n.
Definition pair_bounds (b : box) : list (list R) := map (fun i => [fst i; snd i]) b.
