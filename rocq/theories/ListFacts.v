(** * More facts about lists. *)
From Coq Require Import List Arith Lia.
Import ListNotations.

Lemma NoDup_app_intro : forall A (l l' : list A), NoDup l -> NoDup l' ->
  (forall x, In x l -> In x l' -> False) -> NoDup (l ++ l').
Proof.
  induction l as [|a l IH]; intros l' H H' D; simpl; auto. inversion H; subst. constructor.
  - rewrite in_app_iff. intros [K|K]; auto. apply (D a); simpl; auto.
  - apply IH; auto. intros x K K'. apply (D x); simpl; auto.
Qed.

Lemma map_NoDup_in : forall A B (f : A -> B) l,
  (forall x y, In x l -> In y l -> f x = f y -> x = y) -> NoDup l -> NoDup (map f l).
Proof.
  induction l as [|a l IH]; intros Hf H; simpl; [constructor|]. inversion H; subst. constructor.
  - intros K. apply in_map_iff in K. destruct K as (b & E & Hb).
    assert (b = a) by (apply Hf; simpl; auto). congruence.
  - apply IH; auto. intros x y Hx Hy. apply Hf; simpl; auto.
Qed.

Lemma Forall2_length : forall A B (P : A -> B -> Prop) l l', Forall2 P l l' -> length l = length l'.
Proof. induction 1; simpl; auto. Qed.
