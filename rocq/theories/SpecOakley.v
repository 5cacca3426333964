(** * Specification vocabulary: averages over independent inputs, first-order and total indices. *)
From Coq Require Import Reals List Arith.
From Coquelicot Require Import Coquelicot.
From Verif Require Import Base.
Import ListNotations.
Local Open Scope R_scope.

(** The average of [f] under the normal law with mean 0 and standard deviation [s], cut off outside [-a, a]. *)
Definition normal_avg (s a : R) (f : R -> R) : R :=
  RInt (fun x => f x * exp (- (x * x) / (2 * (s * s)))) (- a) a / RInt (fun x => exp (- (x * x) / (2 * (s * s)))) (- a) a.

(** The average over [n] independent inputs, each averaged with [E]. *)
Fixpoint navg (E : (R -> R) -> R) (n : nat) (f : list R -> R) : R :=
  match n with O => f [] | S m => E (fun x => navg E m (fun v => f (x :: v))) end.

(** The variance of a function of one input. *)
Definition avar (E : (R -> R) -> R) (h : R -> R) : R := E (fun x => (h x - E h) ^ 2).
(** The variance of a function of [n] inputs. *)
Definition nvar (E : (R -> R) -> R) (n : nat) (f : list R -> R) : R := navg E n (fun v => (f v - navg E n f) ^ 2).

(** First-order index of input [i]: the variance of the average over the other inputs, as a share of the variance. *)
Definition first_order (E : (R -> R) -> R) (n : nat) (f : list R -> R) (i : nat) : R :=
  avar E (fun t => navg E n (fun v => f (update v i t))) / nvar E n f.

(** The limit for untruncated normal inputs. *)
Definition normal_first_order (s : R) (n : nat) (f : list R -> R) (i : nat) (l : R) : Prop :=
  is_lim (fun a => first_order (normal_avg s a) n f i) p_infty l.

(** The variance of [p1 x + p2 sin x + p3 cos x + m x^2] for a normal [x] with mean 0 and standard deviation [s]. *)
Definition normal_part (s p1 p2 p3 m : R) : R :=
  p1 ^ 2 * s ^ 2 + p2 ^ 2 * (1 - exp (- (2 * s ^ 2))) / 2 + p3 ^ 2 * ((1 + exp (- (2 * s ^ 2))) / 2 - exp (- (s ^ 2)))
  + 2 * m ^ 2 * s ^ 4 + 2 * p1 * p2 * s ^ 2 * exp (- (s ^ 2 / 2)) - 2 * p3 * m * s ^ 4 * exp (- (s ^ 2 / 2)).

(** The entry in row [i] and column [j]. *)
Definition entry (M : list (list R)) (i j : nat) : R := nth j (nth i M []) 0.
(** Sums over [i < n], and over pairs [i < j < n]. *)
Definition over (n : nat) (f : nat -> R) : R := fold_right Rplus 0 (map f (seq 0 n)).
Definition over_pairs (n : nat) (f : nat -> nat -> R) : R := over n (fun j => over j (fun i => f i j)).
