(** * Specification vocabulary for extended FAST. *)
From Coq Require Import Reals List Arith.
From Verif Require Import Base Stats.
Import ListNotations.

(** Frequency of parameter [j] in block [i]: the driver [w0] for the parameter under study, the
    complementary frequencies [comp] in order for the others. *)
Definition frequency_of (w0 : nat) (comp : list nat) (i j w : nat) : Prop :=
  (j = i /\ w = w0) \/ (j < i /\ nth_error comp j = Some w) \/ (i < j /\ nth_error comp (j - 1) = Some w).

(** [x] is the value of the triangular-wave search curve with angle [a]: the number in [0,1] with
    sin(pi (x - 1/2)) = sin a. *)
Definition on_curve (a x : R) : Prop := (0 <= x <= 1 /\ sin (PI * (x - 1 / 2)) = sin a)%R.

(** Power of the signal [y] at [q] cycles per [length y] samples. *)
Definition power (y : list R) (q : nat) : R :=
  let n := INR (length y) in
  ((Rsum (map (fun t => nth t y 0 * cos (2 * PI * INR q * INR t / n)) (seq 0 (length y))) ^ 2 +
    Rsum (map (fun t => nth t y 0 * sin (2 * PI * INR q * INR t / n)) (seq 0 (length y))) ^ 2) / n ^ 2)%R.

(** Total power over the frequencies [qs]. *)
Definition band (y : list R) (qs : list nat) : R := Rsum (map (power y) qs).

(** Frequencies strictly between 0 and half the number of samples. *)
Definition visible (n : nat) : list nat := seq 1 ((n - 1) / 2).

(** Alternating sum. *)
Definition alternating (y : list R) : R :=
  Rsum (map (fun t => (-1) ^ t * nth t y 0)%R (seq 0 (length y))).

(** What a row of the result says about the outputs [y] of its block. *)
Definition orders_ok (y : list R) (M : nat) (S1 ST : option R) : Prop :=
  let w := (length y - 1) / (2 * M) in
  let V := band y (visible (length y)) in
  (V = 0%R /\ S1 = None /\ ST = None) \/
  (V <> 0%R /\ exists s1 st, S1 = Some s1 /\ ST = Some st /\
     s1 = (band y (map (fun k => (k * w)%nat) (seq 1 M)) / V)%R /\
     st = (1 - band y (seq 1 (w / 2)%nat) / V)%R /\ (0 <= s1)%R /\ (s1 <= st)%R /\ (st <= 1)%R).

(** Draws as np.random.choice gives them. *)
Definition good_draws (n : nat) (l : list (list nat)) : Prop :=
  forall idx, In idx l -> length idx = (n + 1) / 2 /\ forall i, In i idx -> i < n.
