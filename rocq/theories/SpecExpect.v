(** * Expectations under independent inputs with finitely many values, and the effects of variance-based sensitivity analysis.

    Nothing here refers to the model. *)
From Coq Require Import Reals List Arith.
Import ListNotations.
Local Open Scope R_scope.

Section Expect.
Context {A : Type}.

(** The distribution of one input: values with their probabilities.  Inputs are independent. *)
Definition law := list (A * R).
Definition total_weight (l : law) : R := fold_right Rplus 0 (map snd l).
Definition probability (l : law) : Prop := (forall v w, In (v, w) l -> 0 <= w) /\ total_weight l = 1.

Fixpoint expect (ds : list law) (f : list A -> R) : R :=
  match ds with
  | [] => f []
  | d :: r => fold_right Rplus 0 (map (fun vw => snd vw * expect r (fun x => f (fst vw :: x))) d)
  end.
Definition variance (ds : list law) (f : list A -> R) : R := expect ds (fun x => (f x - expect ds f) ^ 2).

(** The inputs selected by [u] from [x], the others from [y]. *)
Fixpoint mix (u : nat -> bool) (x y : list A) : list A :=
  match x, y with
  | a :: x, b :: y => (if u 0%nat then a else b) :: mix (fun j => u (S j)) x y
  | _, _ => []
  end.

(** The mean of [f] given the inputs [u]; its variance; the mean of the variance of [f] given all inputs but [u]. *)
Definition conditional (ds : list law) (f : list A -> R) (u : nat -> bool) (x : list A) : R := expect ds (fun y => f (mix u x y)).
Definition closed_effect (ds : list law) (f : list A -> R) (u : nat -> bool) : R := variance ds (conditional ds f u).
Definition total_effect (ds : list law) (f : list A -> R) (u : nat -> bool) : R := expect ds (fun x => variance ds (fun y => f (mix u y x))).
Definition interaction (ds : list law) (f : list A -> R) (u w : nat -> bool) : R :=
  closed_effect ds f (fun j => orb (u j) (w j)) - closed_effect ds f u - closed_effect ds f w.
End Expect.

(** [n] independent points. *)
Fixpoint expect_points {A} (n : nat) (ds : list (@law A)) (g : list (list A) -> R) : R :=
  match n with
  | O => g []
  | S n => expect ds (fun x => expect_points n ds (fun xs => g (x :: xs)))
  end.
