(** * C104: D-MORPH regression picks, among the best fits, the one of least cost. *)
From mathcomp Require Import all_ssreflect all_algebra.
From Verif Require Import ModelDmorph SpecDmorph ProofsDmorph ProofsDmorph2 ProofsDmorph3.
Set Implicit Arguments.
Unset Strict Implicit.
Unset Printing Implicit Defensive.
Import Order.TTheory GRing.Theory Num.Theory.
Local Open Scope ring_scope.

(** With at least as many samples as coefficients and a cost that is positive on the coefficients that predict zero, the result is a least-squares fit and every
    other least-squares fit costs more, whatever positive number the normal equations are divided by. *)
Theorem C104_best : forall (F : realFieldType) (pinv : forall m n, 'M[F]_(m, n) -> option 'M[F]_(n, m)) (matrix_rank : forall m n, 'M[F]_(m, n) -> nat)
    (svd : forall m, 'M[F]_m -> option ('M[F]_m * 'rV[F]_m * 'M[F]_m)),
  pinv_ok pinv -> rank_ok matrix_rank -> svd_ok svd ->
  forall n m (B : 'M[F]_(n, m)) (C : 'M[F]_m) (y : 'cV[F]_n) c s, (0 < c)%N -> (m <= n)%N -> is_cost C ->
  (forall v, B *m v = 0 -> quad C v = 0 -> v = 0) ->
  d_morph pinv matrix_rank svd B C y c = Some s ->
  least_squares B y s /\ forall z, least_squares B y z -> z <> s -> quad C s < quad C z.
Proof. by move=> *; apply: dmorph_best; eassumption. Qed.
Print Assumptions C104_best.

(** When the basis has full rank, by rows or by columns, the result is the shortest least-squares fit whatever the cost. *)
Theorem C104_full_rank : forall (F : realFieldType) (pinv : forall m n, 'M[F]_(m, n) -> option 'M[F]_(n, m)) (matrix_rank : forall m n, 'M[F]_(m, n) -> nat)
    (svd : forall m, 'M[F]_m -> option ('M[F]_m * 'rV[F]_m * 'M[F]_m)),
  pinv_ok pinv -> rank_ok matrix_rank -> svd_ok svd ->
  forall n m (B : 'M[F]_(n, m)) (C : 'M[F]_m) (y : 'cV[F]_n) c s, (0 < c)%N -> \rank B = minn n m ->
  d_morph pinv matrix_rank svd B C y c = Some s ->
  least_squares B y s /\ forall z, least_squares B y z -> z <> s -> sqn s < sqn z.
Proof. by move=> *; apply: dmorph_full; eassumption. Qed.
Print Assumptions C104_full_rank.

(** With fewer samples than coefficients the cost is not minimised: the number of columns dropped is min(samples, coefficients) - rank, not coefficients - rank. *)
Theorem C104_few_refuted : exists (pinv : forall m n, 'M[rat]_(m, n) -> option 'M[rat]_(n, m)) (matrix_rank : forall m n, 'M[rat]_(m, n) -> nat)
    (svd : forall m, 'M[rat]_m -> option ('M[rat]_m * 'rV[rat]_m * 'M[rat]_m)),
  [/\ pinv_ok pinv, rank_ok matrix_rank, svd_ok svd &
  exists (B : 'M[rat]_(1, 2)) (C : 'M[rat]_2) (y : 'cV[rat]_1) s z,
  [/\ is_cost C, (forall v, B *m v = 0 -> quad C v = 0 -> v = 0), d_morph pinv matrix_rank svd B C y 1 = Some s, least_squares B y z & quad C z < quad C s]].
Proof.
have [s [e [lz lt]]] := example_few; exists q_pinv, q_rank, svd_34; split; [exact: q_pinvP|exact: q_rankP|exact: svd_34P|].
by exists B1, cost2, y1, s, best2; split=> //; [exact: gram_cost|exact: (definite2 B1_kernel)].
Qed.
Print Assumptions C104_few_refuted.

(** With a cost that vanishes on coefficients that predict zero (always so for two equal columns of first order, whose cost is zero), the result need not even fit:
    the output is reproduced exactly by other coefficients, not by these. *)
Theorem C104_zero_cost_refuted : exists (pinv : forall m n, 'M[rat]_(m, n) -> option 'M[rat]_(n, m)) (matrix_rank : forall m n, 'M[rat]_(m, n) -> nat)
    (svd : forall m, 'M[rat]_m -> option ('M[rat]_m * 'rV[rat]_m * 'M[rat]_m)),
  [/\ pinv_ok pinv, rank_ok matrix_rank, svd_ok svd &
  exists (B C : 'M[rat]_2) (y : 'cV[rat]_2) s z,
  [/\ is_cost C, d_morph pinv matrix_rank svd B C y 1 = Some s, B *m z = y & ~ least_squares B y s]].
Proof.
have [s [e [ez es]]] := example_zero; exists q_pinv, q_rank, svd_0; split; [exact: q_pinvP|exact: q_rankP|exact: svd_0P|].
exists B3, 0, y3, s, (cv2 (1 / 2%:Q) (1 / 2%:Q)); split=> //; first exact: zero_cost.
move=> ls; case: es; have := ls (cv2 (1 / 2%:Q) (1 / 2%:Q)); rewrite ez subrr.
rewrite (_ : sqn (0 : 'cV[rat]_2) = 0); last by rewrite /sqn big1 // => i _; rewrite mxE expr0n.
move=> le0; apply/esym/eqP; rewrite -subr_eq0; apply/eqP/sqn_eq0/eqP.
by rewrite eq_le le0 sqn_ge0.
Qed.
Print Assumptions C104_zero_cost_refuted.

(** A pseudo-inverse exists for every matrix, so the contracts can be met. *)
Example ex_pinv (F : realFieldType) m n (A : 'M[F]_(m, n)) : is_pinv A (penrose A).
Proof. exact: penroseP. Qed.

(** Basis rows (0, 1), (0, 2), outputs 3 and 1, cost with entries 3, 4, 4, 6: the fits are (t, 1) and the cheapest has t = -4/3. *)
Example ex_best : d_morph q_pinv q_rank svd_34 (mx2 0 1 0 2%:Q) cost2 (cv2 3%:Q 1) 1 = Some (cv2 (- (4%:Q / 3%:Q)) 1).
Proof. exact: example_best. Qed.
Example ex_cost : cost2 = mx2 3%:Q 4%:Q 4%:Q 6%:Q.
Proof. exact: cost2E. Qed.
