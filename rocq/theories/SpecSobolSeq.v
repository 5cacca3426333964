(** * Specification vocabulary for the Sobol' sequence. *)
From Coq Require Import Reals List Arith NArith.
From Verif Require Import Base.
Import ListNotations.

(** A row (a, m_1, ..., m_s) of the direction table is well formed: s >= 1, the coefficients of the
    polynomial fit its degree, and m_j is odd and less than 2^j. *)
Definition good_row (r : list N) : Prop :=
  exists a ms, r = a :: ms /\ ms <> [] /\ (a < 2 ^ N.of_nat (length ms - 1))%N /\
    forall j m, nth_error ms j = Some m -> N.odd m = true /\ (m < 2 ^ N.of_nat (S j))%N.

(** The number of bits is computed without losing any: N <= 2^(bits N).  (In floating point
    log(N)/log(2) may come out slightly too large at powers of two.) *)
Definition enough_bits (bits : nat -> nat) (N : nat) : Prop := N <= 2 ^ bits N.

(** Exactly one of the rows [a, a+1, ..., a+n-1] has its entry number [d] in [lo, hi). *)
Definition one_in_block (rs : list (list R)) (a n d : nat) (lo hi : R) : Prop :=
  exists s, a <= s < a + n /\ (exists x, entry rs s d = Some x /\ lo <= x < hi)%R /\
    forall s' x, a <= s' < a + n -> entry rs s' d = Some x -> (lo <= x < hi)%R -> s' = s.

(** Exactly one number [t < N] has [f t] in [lo, hi). *)
Definition exactly_one_of (f : nat -> option R) (N : nat) (lo hi : R) : Prop :=
  exists t, t < N /\ (exists x, f t = Some x /\ lo <= x < hi)%R /\
    forall t' x, t' < N -> f t' = Some x -> (lo <= x < hi)%R -> t' = t.

(** A box: for each listed coordinate [d], the part number [i] of the 2^k equal parts of [0,1). *)
Definition in_box (row : list R) (box : list (nat * nat * nat)) : Prop :=
  forall d k i, In (d, k, i) box -> exists x, nth_error row d = Some x /\ (INR i / INR (2 ^ k) <= x < (INR i + 1) / INR (2 ^ k))%R.
(** Exactly one of the rows [a, ..., a+n-1] is in the box. *)
Definition one_in_box (rs : list (list R)) (a n : nat) (box : list (nat * nat * nat)) : Prop :=
  exists s, a <= s < a + n /\ (exists row, nth_error rs s = Some row /\ in_box row box) /\
    forall s' row, a <= s' < a + n -> nth_error rs s' = Some row -> in_box row box -> s' = s.
