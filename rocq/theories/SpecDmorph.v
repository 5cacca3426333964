(** * Least squares, quadratic costs and the contracts of pinv, matrix_rank and svd. *)
From mathcomp Require Import all_ssreflect all_algebra.
Set Implicit Arguments.
Unset Strict Implicit.
Unset Printing Implicit Defensive.
Local Open Scope ring_scope.

Section Spec.
Variable F : realFieldType.
(** Squared length; value of a quadratic form. *)
Definition sqn n (v : 'cV[F]_n) : F := \sum_i v i 0 ^+ 2.
Definition quad m (C : 'M[F]_m) (v : 'cV[F]_m) : F := \sum_i \sum_j v i 0 * C i j * v j 0.

(** The coefficients [s] fit [y] by the columns of [B] as well as any. *)
Definition least_squares n m (B : 'M[F]_(n, m)) (y : 'cV[F]_n) (s : 'cV[F]_m) : Prop := forall z, sqn (y - B *m s) <= sqn (y - B *m z).
(** A cost: a symmetric form without negative values. *)
Definition is_cost m (C : 'M[F]_m) : Prop := C^T = C /\ forall v, 0 <= quad C v.

(** Moore and Penrose's equations. *)
Definition is_pinv m n (A : 'M[F]_(m, n)) (G : 'M[F]_(n, m)) : Prop :=
  [/\ A *m G *m A = A, G *m A *m G = G, (A *m G)^T = A *m G & (G *m A)^T = G *m A].
(** Singular values: non-negative, in decreasing order. *)
Definition is_svd m (A U : 'M[F]_m) (d : 'rV[F]_m) (Vh : 'M[F]_m) : Prop :=
  [/\ U^T *m U = 1%:M, Vh *m Vh^T = 1%:M, A = U *m diag_mx d *m Vh, (forall i, 0 <= d 0 i) & forall i j : 'I_m, (i <= j)%N -> d 0 j <= d 0 i].

Definition pinv_ok (pinv : forall m n, 'M[F]_(m, n) -> option 'M[F]_(n, m)) : Prop := forall m n (A : 'M_(m, n)) G, pinv m n A = Some G -> is_pinv A G.
Definition rank_ok (matrix_rank : forall m n, 'M[F]_(m, n) -> nat) : Prop := forall m n (A : 'M_(m, n)), matrix_rank m n A = \rank A.
Definition svd_ok (svd : forall m, 'M[F]_m -> option ('M[F]_m * 'rV[F]_m * 'M[F]_m)) : Prop :=
  forall m (A : 'M_m) U d Vh, svd m A = Some (U, d, Vh) -> is_svd A U d Vh.
End Spec.
