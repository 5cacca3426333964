(** * _d_morph called on the arrays of enhanced HDMR: src/SALib/analyze/enhanced_hdmr.py:853-858.  Lists of columns become matrices over the
    real numbers. *)
From Coq Require Import Reals List Arith.
From mathcomp Require Import all_ssreflect all_algebra.
From Verif Require Import Base RField ModelDmorph.
Set Implicit Arguments.
Unset Strict Implicit.
Unset Printing Implicit Defensive.

(** The cost matrix from its diagonal blocks, enhanced_hdmr.py:906 and 925, 941: zeros elsewhere. *)
Fixpoint block_entry (C : list (list (list R))) (i j : nat) : R :=
  match C with
  | nil => R0
  | cons c C' =>
    if Nat.ltb i (length c) then (if Nat.ltb j (length c) then List.nth j (List.nth i c nil) R0 else R0)
    else if Nat.ltb j (length c) then R0 else block_entry C' (Nat.sub i (length c)) (Nat.sub j (length c))
  end.

Local Open Scope ring_scope.
Definition columns_mx (n m : nat) (B : list (list R)) : 'M[R]_(n, m) := \matrix_(r, j) List.nth r (List.nth j B nil) R0.
Definition column_mx (n : nat) (y : list R) : 'cV[R]_n := \col_r List.nth r y R0.
Definition entries (m : nat) (x : 'cV[R]_m) : list R := List.map (fun i => if insub i is Some k then x k 0 else R0) (List.seq 0 m).

Section Lists.
Variable pinv : forall m n, 'M[R]_(m, n) -> option 'M[R]_(n, m).
Variable matrix_rank : forall m n, 'M[R]_(m, n) -> nat.
Variable svd : forall m, 'M[R]_m -> option ('M[R]_m * 'rV[R]_m * 'M[R]_m).

(** None: LinAlgError, enhanced_hdmr.py:989-990. *)
Definition d_morph_lists (B : list (list R)) (C : list (list (list R))) (y : list R) (subset : nat) : result (list R) :=
  if d_morph pinv matrix_rank svd (columns_mx (length y) (length B) B) (\matrix_(i, j) block_entry C i j) (column_mx (length y) y) subset is Some x
  then Ok (entries x) else Err LinAlgError.
End Lists.
