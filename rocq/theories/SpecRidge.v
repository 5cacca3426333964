(** * Specification vocabulary for penalised least squares. *)
From Coq Require Import Reals List Arith.
From Verif Require Import Base Stats.
Import ListNotations.
Local Open Scope nat_scope.

Definition total (n : nat) (f : nat -> R) : R := Rsum (map f (seq 0 n)).
(** Entry of a table and of a list of tables. *)
Definition at2 (M : list (list R)) (r i : nat) : R := nth i (nth r M []) 0%R.
Definition at3 (B : list (list (list R))) (z r i : nat) : R := at2 (nth z B []) r i.

(** [n] rows of [k] numbers. *)
Definition table (n k : nat) (M : list (list R)) : Prop := length M = n /\ forall row, In row M -> length row = k.

(** [T] is the solution of (B^T B + lam I) T = B^T for a table [B] of [n] rows and [m] columns. *)
Definition ridge_solution (n m : nat) (B : list (list R)) (lam : R) (T : list (list R)) : Prop :=
  table m n T /\ forall i r, i < m -> r < n ->
    total m (fun l => (total n (fun s => at2 B s i * at2 B s l) + (if i =? l then lam else 0)) * at2 T l r)%R = at2 B r i.

(** The value at point [r] of the sum of the terms with tables [B] and coefficients [C] ([m] per term). *)
Definition predicted (m : nat) (B : list (list (list R))) (C : list (list R)) (r : nat) : R :=
  total (length B) (fun z => total m (fun i => at3 B z r i * at2 C z i)%R).
(** The penalised sum of squares of the residuals. *)
Definition objective (m : nat) (B : list (list (list R))) (y : list R) (lam : R) (C : list (list R)) : R :=
  (total (length y) (fun r => (nth r y 0 - predicted m B C r) ^ 2) + lam * total (length B) (fun z => total m (fun i => at2 C z i ^ 2)))%R.
(** The sum of the squared entries of the joint Gram matrix. *)
Definition gram_squares (m n : nat) (B : list (list (list R))) : R :=
  total (length B) (fun z => total m (fun i => total (length B) (fun z' => total m (fun i' =>
    total n (fun r => at3 B z r i * at3 B z' r i') ^ 2))))%R.

(** [c] is the best single term: its penalised sum of squares is minimal. *)
Definition best_alone (m : nat) (B : list (list R)) (y : list R) (lam : R) (c : list R) : Prop :=
  length c = m /\ forall e, (objective m [B] y lam [c] <= objective m [B] y lam [e])%R.
