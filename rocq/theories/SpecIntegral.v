(** * Uniform averages over a box and the indices of variance-based sensitivity analysis.

    Written with the Riemann integral of the standard library; nothing here refers to the model. *)
From Coq Require Import Reals List Arith.
Import ListNotations.
Local Open Scope R_scope.

Definition integral (f : R -> R) (a b v : R) : Prop := exists pr : Riemann_integrable f a b, RiemannInt pr = v.

(** A box: lower and upper end per coordinate. *)
Definition box := list (R * R).
Definition inside (b : box) (x : list R) : Prop := Forall2 (fun i v => fst i <= v <= snd i) b x.

(** [v] is the average of [f] over the box, by repeated integration. *)
Fixpoint average (b : box) (f : list R -> R) (v : R) : Prop :=
  match b with
  | [] => v = f []
  | (lo, hi) :: r =>
      exists h, (forall x, lo <= x <= hi -> average r (fun xs => f (x :: xs)) (h x)) /\ integral h lo hi (v * (hi - lo))
  end.

Definition variance (b : box) (f : list R -> R) (v : R) : Prop :=
  exists m, average b f m /\ average b (fun x => (f x - m) ^ 2) v.

(** The box without coordinate [i], the list without entry [i], and a value put back in its place. *)
Definition without_at {A} (i : nat) (l : list A) : list A := firstn i l ++ skipn (S i) l.
Definition put_at {A} (i : nat) (v : A) (l : list A) : list A := firstn i l ++ v :: skipn i l.

(** The variance of the mean of [f] given coordinate [i]. *)
Definition first_effect (b : box) (f : list R -> R) (i : nat) (v : R) : Prop :=
  exists bi h, nth_error b i = Some bi /\
    (forall x, fst bi <= x <= snd bi -> average (without_at i b) (fun xs => f (put_at i x xs)) (h x)) /\
    variance [bi] (fun l => h (hd 0 l)) v.

(** The mean of the variance of [f] given all coordinates but [i]. *)
Definition total_effect (b : box) (f : list R -> R) (i : nat) (v : R) : Prop :=
  exists bi h, nth_error b i = Some bi /\
    (forall xs, inside (without_at i b) xs -> variance [bi] (fun l => f (put_at i (hd 0 l) xs)) (h xs)) /\
    average (without_at i b) h v.
