(** * Specification vocabulary for RBD-FAST. *)
From Coq Require Import Reals List Arith Permutation.
From Verif Require Import Stats SpecFast.
Import ListNotations.
Local Open Scope nat_scope.

(** [s] lists the positions of [X] in an order in which the values do not decrease. *)
Definition sorting (X : list R) (s : list nat) : Prop :=
  Permutation s (seq 0 (length X)) /\
  forall a b i j, a < b -> nth_error s a = Some i -> nth_error s b = Some j -> (nth i X 0 <= nth j X 0)%R.
Definition argsort_ok (argsort : list R -> list nat) : Prop := forall X, sorting X (argsort X).

(** Position [k] of the reordered outputs takes rank 2k while ranks last, and then the odd ranks
    downwards. *)
Definition rank_at (n k : nat) : nat := if 2 * k <? n then 2 * k else 2 * (n - 1 - k) + 1.

(** Share of the variance of [y] carried by the frequencies 1 .. M. *)
Definition share (y : list R) (M : nat) : R :=
  (Rsum (map (fun q => (if (length y =? 2 * q)%nat then 1 else 2) * power y q)
             (seq 1 (Nat.min M (length y / 2)))) / var y)%R.

(** The values are pairwise different. *)
Definition no_ties (X : list R) : Prop := NoDup X.

(** The values of parameter [i]. *)
Definition values (X : list (list R)) (i : nat) : list R := map (fun r => nth i r 0%R) X.
(** The bias correction, with l = 2 M / N. *)
Definition corrected (M N : nat) (s : R) : R :=
  let l := (2 * INR M / INR N)%R in ((s - l) / (1 - l))%R.

(** Index draws as rng.choice produces them: half as many as there are outputs, all of them positions. *)
Definition draws_ok (n : nat) (ds : list (list nat)) : Prop :=
  Forall (fun d => length d = n / 2 /\ Forall (fun t => t < n) d) ds.

(** An input the analyser accepts: a D-column sample with one output per row, legal draws, and neither N nor
    the bootstrap size equal to 2 M. *)
Definition rbd_input (D : nat) (X : list (list R)) (Y : list R) (M : nat) (draws : nat -> list (list nat)) : Prop :=
  Forall (fun r => length r = D) X /\ length X = length Y /\ 2 <= length Y /\
  length Y <> 2 * M /\ length Y / 2 <> 2 * M /\ forall i, i < D -> draws_ok (length Y) (draws i).
