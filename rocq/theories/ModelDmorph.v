(** * Model of D-MORPH regression, _d_morph in src/SALib/analyze/enhanced_hdmr.py:947-1001, over any real field. *)
From mathcomp Require Import all_ssreflect all_algebra.
Set Implicit Arguments.
Unset Strict Implicit.
Unset Printing Implicit Defensive.
Local Open Scope ring_scope.

Section DMorph.
Variable F : realFieldType.
(** numpy.linalg.pinv, matrix_rank and svd; None: LinAlgError. *)
Variable pinv : forall m n, 'M[F]_(m, n) -> option 'M[F]_(n, m).
Variable matrix_rank : forall m n, 'M[F]_(m, n) -> nat.
Variable svd : forall m, 'M[F]_m -> option ('M[F]_m * 'rV[F]_m * 'M[F]_m).

(** np.delete(U, range(0, k), axis=1), enhanced_hdmr.py:995-996. *)
Lemma behind_proof m k (j : 'I_(m - k)) : (k + j < m)%N.
Proof. by case: j => j /= jlt; rewrite -ltn_subRL. Qed.
Definition behind m k (j : 'I_(m - k)) : 'I_m := Ordinal (behind_proof j).
Definition delete_columns m (k : nat) (U : 'M[F]_m) : 'M[F]_(m, m - k) := \matrix_(i, j) U i (behind j).

Definition lhs n m (B : 'M[F]_(n, m)) (subset : nat) : 'M[F]_m := subset%:R^-1 *: (B^T *m B).
Definition rhs n m (B : 'M[F]_(n, m)) (y : 'cV[F]_n) (subset : nat) : 'cV[F]_m := subset%:R^-1 *: (B^T *m y).

(** enhanced_hdmr.py:977-1001; [min(b_m.shape) - rank]. *)
Definition d_morph n m (B : 'M[F]_(n, m)) (cost : 'M[F]_m) (y : 'cV[F]_n) (subset : nat) : option 'cV[F]_m :=
  let a := lhs B subset in
  if pinv a is Some ap then
    let x := ap *m rhs B y subset in
    let pb := (1%:M - ap *m a) *m cost in
    if svd pb is Some (U, _, Vh) then
      let nullity := (minn n m - matrix_rank a)%N in
      let U' := delete_columns nullity U in
      let V' := delete_columns nullity Vh^T in
      if pinv (U'^T *m V') is Some g then Some (V' *m g *m U'^T *m x) else None
    else None
  else None.
End DMorph.
