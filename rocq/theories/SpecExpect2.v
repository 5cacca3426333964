(** * The terms whose ratios the Sobol' analysis reports, in the outputs of a Saltelli design. *)
From Coq Require Import Reals String List Arith.
From Verif Require Import Base ModelGroups Stats SpecSobol ModelSobol.
Import ListNotations.
Local Open Scope R_scope.

(** The outputs of [f] on the design built from the base points. *)
Definition outputs {A} (zero : A) (p : problem) (second : bool) (f : list A -> R) (N : nat) (base : list (list A)) : list R :=
  match cross_sample zero base (seq 0 N) p second with Ok rows => map f rows | Err _ => [] end.

Section Terms.
Variables (Y : list R) (G : nat) (second : bool) (N : nat).
Let a i := out Y G second i 0.
Let b i := out Y G second i (block_size G second - 1).
Let ab k i := out Y G second i (1 + k).
Let ba k i := out Y G second i (1 + G + k).

Definition first_term (c : R) (k : nat) : R := mean (map (fun i => (b i - c) * (ab k i - a i)) (seq 0 N)).
Definition total_term (k : nat) : R := mean (map (fun i => (a i - ab k i) ^ 2) (seq 0 N)) / 2.
Definition pair_term (c : R) (j k : nat) : R := mean (map (fun i => (ba j i - c) * (ab k i - c) - (a i - c) * (b i - c)) (seq 0 N)).
Definition second_term (c : R) (j k : nat) : R := pair_term c j k - first_term c j - first_term c k.
Definition base_outputs : list R := map a (seq 0 N) ++ map b (seq 0 N).
End Terms.
