(** * Results of two fractional factorial analyses side by side. *)
From Coq Require Import Reals String List Arith.
From Verif Require Import Base ModelFF.
Import ListNotations.

(** The same exception, or two results related by [Q]. *)
Definition alike {A B} (Q : A -> B -> Prop) (x : result A) (y : result B) : Prop :=
  match x, y with Ok a, Ok b => Q a b | Err e, Err f => e = f | _, _ => False end.

(** The same names and pairs in the same order, and numbers related by [Q]. *)
Definition effects_by (Q : R -> R -> Prop) (r r' : ff_result) : Prop :=
  ff_names r' = ff_names r /\ Forall2 Q (ff_ME r) (ff_ME r') /\
  match ff_IE r, ff_IE r' with
  | Some l, Some l' => Forall2 (fun a b => fst b = fst a /\ Q (snd a) (snd b)) l l'
  | None, None => True
  | _, _ => False
  end.
