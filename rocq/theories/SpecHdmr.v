(** * Specification vocabulary for the HDMR analysers. *)
From Coq Require Import Reals String List Arith ZArith Sorted.
From Verif Require Import Base ModelScale Stats ModelHdmr.
Import ListNotations.
Local Open Scope nat_scope.

(** A term: a set of parameters out of [d], in increasing order, not empty, at most [k] of them. *)
Definition is_term (d k : nat) (t : list nat) : Prop :=
  1 <= length t <= k /\ StronglySorted lt t /\ forall x, In x t -> x < d.
(** All of them once: first the single parameters in order, then the pairs, then the triples. *)
Definition term_list (d k : nat) (ts : list (list nat)) : Prop :=
  NoDup ts /\ (forall t, In t ts <-> is_term d k t) /\
  (forall i, i < d -> nth_error ts i = Some [i]) /\
  forall i j t u, i <= j -> nth_error ts i = Some t -> nth_error ts j = Some u -> length t <= length u.
(** The number of terms. *)
Definition term_count (d k n : nat) : Prop :=
  match k with
  | 1 => n = d
  | 2 => 2 * n = 2 * d + d * (d - 1)
  | _ => 6 * n = 6 * d + 3 * (d * (d - 1)) + d * (d - 1) * (d - 2)
  end.
(** The label of a term: the names of its parameters between slashes. *)
Inductive label_of (names : list string) : list nat -> string -> Prop :=
| label_one : forall i s, nth_error names i = Some s -> label_of names [i] s
| label_more : forall i t s l, nth_error names i = Some s -> label_of names t l -> label_of names (i :: t) (s ++ "/" ++ l)%string.

(** [v] is the sum of the entries of [vals], all of them numbers, at the terms that contain parameter [r]. *)
Definition sum_with (ts : list (list nat)) (r : nat) (vals : list fval) (v : R) : Prop :=
  exists js, NoDup js /\ (forall j, In j js <-> exists t, nth_error ts j = Some t /\ In r t) /\
    exists xs, Forall2 (fun j x => nth_error vals j = Some (Some x)) js xs /\ v = Rsum xs.

(** Sums of squares, covariance with divisor [n - 1]. *)
Definition squares (l : list R) : R := Rsum (map (fun x => x ^ 2)%R l).
Definition covariance (a b : list R) (c : R) : Prop :=
  (c * (INR (length a) - 1) = Rsum (map (fun i => (nth i a 0 - mean a) * (nth i b 0 - mean b)) (seq 0 (length a))))%R.

(** The F-test with [p] coefficients on [r] points: it holds when the quantile exists and the statistic exceeds it. *)
Definition significant (crit : nat -> Z -> option R) (SSR0 SSR1 : R) (r p : nat) : Prop :=
  p < r /\ exists c, crit p (Z.of_nat r - Z.of_nat p)%Z = Some c /\
    ((SSR1 = 0 /\ 0 < SSR0)%R \/ (SSR1 <> 0 /\ c < ((SSR0 - SSR1) / INR p) / (SSR1 / (INR r - INR p)))%R).

(** The order of term number [i]. *)
Definition order_at (d i o : nat) : Prop :=
  (o = 1 /\ i < d) \/ (o = 2 /\ d <= i /\ 2 * i < 2 * d + d * (d - 1)) \/ (o = 3 /\ d <= i /\ 2 * d + d * (d - 1) <= 2 * i).

(** Accepted data and options: [N] samples of [d] parameters. *)
Definition settings_ok (N d : nat) (Y : outputs) (maxorder maxiter m K : Z) (Ro : option Z) (alpha lambdax : R) : Prop :=
  d <> 1 /\ 300 <= N /\ y_rows Y = N /\ y_size Y = N /\ (1 <= maxorder <= 3)%Z /\ (d = 2%nat -> maxorder <= 2)%Z /\
  (1 <= maxiter <= 1000)%Z /\ (1 <= m <= 10)%Z /\ (1 <= K <= 100)%Z /\
  (forall r, Ro = Some r -> 300 <= r <= Z.of_nat N)%Z /\ (1 / 2 <= alpha <= 1)%R /\ (0 <= lambdax <= 10)%R.
