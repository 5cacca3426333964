(** * Sizes that the code computes in floating point. *)
From Coq Require Import Reals List Arith ZArith Bool.
From Flocq Require Import Core.
From Verif Require Import Base Arrays ModelGroups ModelScale ModelSobol ModelSobolSeq ModelDouble.
Import ListNotations.
Local Open Scope nat_scope.

(** [int(a / b)] for integers [a >= 0] and [b > 0]: the quotient is rounded to the nearest double, then its fraction is dropped.  In analyze/sobol.py:124 and
    126, analyze/morris.py:149-150 and 479, analyze/dgsm.py:65, analyze/fast.py:74 and sample/morris/morris.py:321. *)
Definition int_div (a b : nat) : nat := Z.to_nat (Ztrunc (fl (INR a / INR b))).

(** [math.ceil(n / 2)], analyze/fast.py:109. *)
Definition ceil_half (n : nat) : nat := Z.to_nat (Zceil (fl (INR n / 2))).

(** [math.ceil(n * 0.5)], analyze/fast.py:128; [int(n * 0.5)], analyze/rbd_fast.py:147 and analyze/delta.py:477. *)
Definition ceil_times_half (n : nat) : nat := Z.to_nat (Zceil (fl (INR n * (1 / 2)))).
Definition int_times_half (n : nat) : nat := Z.to_nat (Ztrunc (fl (INR n * (1 / 2)))).

(** [max(int(len(X_i) * 0.005), 10)], analyze/delta.py:229; the literal is rounded to a double. *)
Definition min_class_size (n : nat) : nat := Nat.max (Z.to_nat (Ztrunc (fl (INR n * fl (5 / 1000))))) 10.

(** [int(math.ceil(math.log(N) / math.log(2)))], sample/sobol_sequence.py:57, and [math.ceil(math.log(N) / math.log(2))], sample/saltelli.py:114, with
    [lg] for math.log on positive numbers.  N = 0 is dealt with by the callers. *)
Definition log_bits (lg : R -> R) (N : nat) : nat := Z.to_nat (Zceil (fl (lg (INR N) / lg 2%R))).

(** sobol_sequence.sample with that number of bits. *)
Definition sequence_sample_fl (lg : R -> R) := sequence_sample (log_bits lg).

(** [skip_values] of saltelli.sample, saltelli.py:112-145, with that logarithm. *)
Definition saltelli_skip_fl (lg : R -> R) (N : nat) (skip : option Z) : result nat :=
  match skip with
  | None => if N =? 0 then Err ValueError else Ok (Nat.max (2 ^ log_bits lg N) 16)
  | Some z => if Z.ltb z 0 then Err AssertionError else if Z.ltb 0 z && (N =? 0) then Err ValueError else Ok (Z.to_nat z)
  end.

(** The rows of the Sobol' sequence that saltelli.sample takes, saltelli.py:157 and 165: rows [skip], ..., [skip + N - 1] of
    [sobol_sequence.sample(N + skip_values, 2 * D)]. *)
Definition saltelli_rows_fl (lg : R -> R) (table : list (list BinNums.N)) (N D : nat) (skip : option Z) : result (list (list R)) :=
  do s <- saltelli_skip_fl lg N skip ;;
  do rs <- sequence_sample_fl lg table (N + s) (2 * D) ;;
  Ok (skipn s rs).
