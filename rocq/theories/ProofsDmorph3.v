(** * D-MORPH regression: concrete cases over the rationals. *)
From mathcomp Require Import all_ssreflect all_algebra.
From Verif Require Import ModelDmorph SpecDmorph ProofsDmorph ProofsDmorph2.
Set Implicit Arguments.
Unset Strict Implicit.
Unset Printing Implicit Defensive.
Import Order.TTheory GRing.Theory Num.Theory.
Local Open Scope ring_scope.

(** A cost of the form _cost_matrix builds. *)
Lemma quad_gram (F : realFieldType) r m (M : 'M[F]_(r, m)) v : quad (M^T *m M) v = sqn (M *m v).
Proof. by rewrite quadE sqnE trmx_mul !mulmxA. Qed.
Lemma gram_cost (F : realFieldType) r m (M : 'M[F]_(r, m)) : is_cost (M^T *m M).
Proof. by split; [rewrite trmx_mul trmxK|move=> v; rewrite quad_gram sqn_ge0]. Qed.

Ltac rc := apply/eqP; vm_compute; reflexivity.

Definition mx2 (a b c d : rat) : 'M[rat]_2 := \matrix_(i, j) if i == 0 then (if j == 0 then a else b) else (if j == 0 then c else d).
Definition cv2 (a b : rat) : 'cV[rat]_2 := \col_i if i == 0 then a else b.
Definition rv2 (a b : rat) : 'rV[rat]_2 := \row_i if i == 0 then a else b.

Lemma two (P : 'I_2 -> Prop) : P 0 -> P 1 -> forall i, P i.
Proof. by move=> h0 h1 [[|[|//]] hi]; [have -> : Ordinal hi = 0 by apply: val_inj|have -> : Ordinal hi = 1 by apply: val_inj]. Qed.
Lemma sum2 (f : 'I_2 -> rat) : \sum_i f i = f 0 + f 1.
Proof. by rewrite big_ord_recl big_ord1; congr (_ + f _); apply: val_inj. Qed.
Lemma mx2_mul a b c d a' b' c' d' : mx2 a b c d *m mx2 a' b' c' d' = mx2 (a * a' + b * c') (a * b' + b * d') (c * a' + d * c') (c * b' + d * d').
Proof. by apply/matrixP; elim/two; elim/two; rewrite mxE sum2 !mxE. Qed.
Lemma mx2_cv a b c d x y : mx2 a b c d *m cv2 x y = cv2 (a * x + b * y) (c * x + d * y).
Proof. by apply/matrixP => i j; rewrite (ord1 j); elim/two: i; rewrite mxE sum2 !mxE. Qed.
Lemma mx2_tr a b c d : (mx2 a b c d)^T = mx2 a c b d.
Proof. by apply/matrixP; elim/two; elim/two; rewrite !mxE. Qed.
Lemma mx2_1 : 1%:M = mx2 1 0 0 1.
Proof. by apply/matrixP; elim/two; elim/two; rewrite !mxE. Qed.
Lemma mx2_0 : 0 = mx2 0 0 0 0.
Proof. by apply/matrixP; elim/two; elim/two; rewrite !mxE. Qed.
Lemma mx2_sub a b c d a' b' c' d' : mx2 a b c d - mx2 a' b' c' d' = mx2 (a - a') (b - b') (c - c') (d - d').
Proof. by apply/matrixP; elim/two; elim/two; rewrite !mxE. Qed.
Lemma mx2_diag a b : diag_mx (rv2 a b) = mx2 a 0 0 b.
Proof. by apply/matrixP; elim/two; elim/two; rewrite !mxE /=. Qed.
Lemma cv2_E (v : 'cV[rat]_2) : v = cv2 (v 0 0) (v 1 0).
Proof. by apply/matrixP => i j; rewrite (ord1 j); elim/two: i; rewrite !mxE. Qed.
Lemma cv2_0 : 0 = cv2 0 0.
Proof. by apply/matrixP => i j; rewrite (ord1 j); elim/two: i; rewrite !mxE. Qed.
Lemma cv2_sub a b c d : cv2 a b - cv2 c d = cv2 (a - c) (b - d).
Proof. by apply/matrixP => i j; rewrite (ord1 j); elim/two: i; rewrite !mxE. Qed.
Lemma lhs1 n m (B : 'M[rat]_(n, m)) : lhs B 1 = B^T *m B.
Proof. by rewrite /lhs invr1 scale1r. Qed.
Lemma rhs1 n m (B : 'M[rat]_(n, m)) y : rhs B y 1 = B^T *m y.
Proof. by rewrite /rhs invr1 scale1r. Qed.

(** The oracles: the pseudo-inverse, the rank, and one singular value decomposition. *)
Definition q_pinv m n (A : 'M[rat]_(m, n)) : option 'M[rat]_(n, m) := Some (penrose A).
Definition q_rank m n (A : 'M[rat]_(m, n)) : nat := \rank A.
Definition q_svd (A0 U : 'M[rat]_2) (d : 'rV[rat]_2) (Vh : 'M[rat]_2) m : 'M[rat]_m -> option ('M[rat]_m * 'rV[rat]_m * 'M[rat]_m) :=
  match m with 2 => fun A => if A == A0 then Some (U, d, Vh) else None | _ => fun _ => None end.
Lemma q_pinvP : pinv_ok q_pinv.
Proof. by move=> m n A G [<-]; apply: penroseP. Qed.
Lemma q_rankP : rank_ok q_rank.
Proof. by []. Qed.
Lemma q_svdP A0 U d Vh : is_svd A0 U d Vh -> svd_ok (q_svd A0 U d Vh).
Proof. by move=> h [|[|[|m]]] A X e Y //=; case: eqP => // -> [<- <- <-]. Qed.

(** Rows (1, 1), (1, 1), (1, 2): a definite cost with entries 3, 4, 4, 6. *)
Definition M3 : 'M[rat]_(3, 2) := \matrix_(i, j) if (i == 2%N :> nat) && (j == 1) then 2%:Q else 1.
Definition cost2 : 'M[rat]_2 := M3^T *m M3.
Lemma cost2E : cost2 = mx2 3%:Q 4%:Q 4%:Q 6%:Q.
Proof. by apply/matrixP; elim/two; elim/two; rewrite !mxE !big_ord_recl big_ord0 !mxE; rc. Qed.
Definition Vh2 : 'M[rat]_2 := mx2 (3%:Q / 5%:Q) (4%:Q / 5%:Q) (- (4%:Q / 5%:Q)) (3%:Q / 5%:Q).
Definition svd_34 := q_svd (mx2 3%:Q 4%:Q 0 0) 1%:M (rv2 5%:Q 0) Vh2.
Lemma svd_34P : svd_ok svd_34.
Proof.
apply: q_svdP; split.
- by rewrite trmx1 mulmx1.
- by rewrite mx2_tr mx2_mul mx2_1; congr mx2; rc.
- by rewrite mul1mx mx2_diag mx2_mul; congr mx2; rc.
- by elim/two; rewrite mxE.
- by elim/two => j; elim/two: j; rewrite !mxE.
Qed.

Lemma proj_E (q : rat) : q != 0 -> 1%:M - penrose (mx2 0 0 0 q) *m mx2 0 0 0 q = mx2 1 0 0 0.
Proof.
move=> q0; have -> : penrose (mx2 0 0 0 q) = mx2 0 0 0 (q^-1).
  by apply: (pinv_unique (penroseP _)); split; rewrite !mx2_mul ?mx2_tr; congr mx2;
     rewrite ?(mul0r, mulr0, add0r, addr0, mulfV q0, mulVf q0, mul1r, mulr1, divfK q0, mulfVK q0) //.
by rewrite mx2_mul mx2_1 mx2_sub; congr mx2; rewrite ?(mul0r, mulr0, add0r, addr0, mulVf q0, subr0, subrr).
Qed.

(** ** More samples than coefficients *)
Definition B2 : 'M[rat]_2 := mx2 0 1 0 2%:Q.
Definition y2 : 'cV[rat]_2 := cv2 3%:Q 1.
Definition best2 : 'cV[rat]_2 := cv2 (- (4%:Q / 3%:Q)) 1.

Lemma B2_lhs : lhs B2 1 = mx2 0 0 0 5%:Q.
Proof. by rewrite lhs1 mx2_tr mx2_mul; congr mx2; rc. Qed.

Lemma definite2 n (B : 'M[rat]_(n, 2)) : (forall v : 'cV_2, B *m v = 0 -> v 1 0 = 0) -> forall v : 'cV_2, B *m v = 0 -> quad cost2 v = 0 -> v = 0.
Proof.
move=> h v /h v1 /(cost_zero (gram_cost _)); rewrite -/cost2 cost2E [v]cv2_E v1 mx2_cv !mulr0 !addr0 cv2_0.
move/matrixP => /(_ 0 0); rewrite !mxE /= => /eqP; rewrite mulf_eq0 /= => /eqP v0.
by rewrite v0.
Qed.
Lemma B2_kernel (v : 'cV_2) : B2 *m v = 0 -> v 1 0 = 0.
Proof. by rewrite [v]cv2_E mx2_cv cv2_0 => /matrixP /(_ 0 0); rewrite !mxE /= mul0r add0r mul1r. Qed.

Lemma dmorph_some n (B : 'M[rat]_(n, 2)) y q : lhs B 1 = mx2 0 0 0 q -> q != 0 -> exists s, d_morph q_pinv q_rank svd_34 B cost2 y 1 = Some s.
Proof.
move=> e q0; rewrite /d_morph /q_pinv e proj_E // cost2E mx2_mul.
have -> : mx2 (1 * 3%:Q + 0 * 4%:Q) (1 * 4%:Q + 0 * 6%:Q) (0 * 3%:Q + 0 * 4%:Q) (0 * 4%:Q + 0 * 6%:Q) = mx2 3%:Q 4%:Q 0 0 by congr mx2; rc.
by rewrite /svd_34 /q_svd eqxx; eexists.
Qed.

Lemma example_best : d_morph q_pinv q_rank svd_34 B2 cost2 y2 1 = Some best2.
Proof.
have [s e] := dmorph_some y2 B2_lhs isT; rewrite e; congr Some.
have [ls mn] := dmorph_best q_pinvP q_rankP svd_34P (ltn0Sn 0) (leqnn 2) (gram_cost M3) (definite2 B2_kernel) e.
have fit : B2^T *m (y2 - B2 *m best2) = 0.
  by rewrite mx2_cv mx2_tr cv2_sub mx2_cv cv2_0; congr cv2; rc.
case: (eqVneq best2 s) => // /eqP ne; have := mn _ (normal_least fit) ne.
have Bz := least_same fit ls.
have [P [Ps PC Pv]] : exists P : 'M[rat]_2, [/\ P^T = P, P *m cost2 *m best2 = 0 & P *m (s - best2) = s - best2] by
  exists (mx2 1 0 0 0); split; [by rewrite mx2_tr|
    by rewrite cost2E mx2_mul mx2_cv cv2_0; congr cv2; rc|
    by rewrite [s - best2]cv2_E (B2_kernel Bz) mx2_cv; congr cv2; rewrite ?mul1r ?mul0r ?mulr0 ?addr0].
have := minimal Ps (gram_cost M3) PC Pv; rewrite addrC subrK => ->.
by rewrite ltNge ler_addl (proj2 (gram_cost M3)).
Qed.

(** ** Fewer samples than coefficients *)
Definition B1 : 'M[rat]_(1, 2) := rv2 0 1.
Definition y1 : 'cV[rat]_1 := const_mx 1.
Lemma B1_cv (v : 'cV[rat]_2) : B1 *m v = const_mx (v 1 0).
Proof. by apply/matrixP => i j; rewrite (ord1 i) (ord1 j) mxE sum2 !mxE /= mul0r add0r mul1r. Qed.
Lemma B1_lhs : lhs B1 1 = mx2 0 0 0 1.
Proof. by rewrite lhs1; apply/matrixP; elim/two; elim/two; rewrite !mxE big_ord1 !mxE /= ?mul0r ?mulr0 ?mulr1. Qed.
Lemma B1_kernel (v : 'cV_2) : B1 *m v = 0 -> v 1 0 = 0.
Proof. by rewrite B1_cv => /matrixP /(_ 0 0); rewrite !mxE. Qed.
Lemma B1_rank : \rank B1 = minn 1 2.
Proof. by rewrite rank_rV; case: eqP => // /matrixP /(_ 0 1); rewrite !mxE. Qed.

Lemma example_few : exists s, d_morph q_pinv q_rank svd_34 B1 cost2 y1 1 = Some s /\ least_squares B1 y1 best2 /\ quad cost2 best2 < quad cost2 s.
Proof.
have [s e] := dmorph_some y1 B1_lhs isT; exists s; split=> //.
have fit (v : 'cV_2) : v 1 0 = 1 -> B1^T *m (y1 - B1 *m v) = 0.
  by move=> v1; rewrite B1_cv v1 subrr mulmx0.
split; first by apply: normal_least; apply: fit; rewrite mxE.
have [ls mn] := dmorph_full q_pinvP q_rankP svd_34P (ltn0Sn 0) B1_rank e.
have -> : s = cv2 0 1.
  have f0 : B1^T *m (y1 - B1 *m cv2 0 1) = 0 by apply: fit; rewrite mxE.
  have s1 : s 1 0 = 1.
    have := B1_kernel (least_same f0 ls); rewrite !mxE /= => /eqP; by rewrite subr_eq0 => /eqP.
  case: (eqVneq (cv2 0 1) s) => // /eqP ne; have := mn _ (normal_least f0) ne.
  by rewrite /sqn !sum2 !mxE /= s1 ltNge expr0n add0r ler_addr sqr_ge0.
by rewrite cost2E /quad !sum2 !mxE; vm_compute.
Qed.

(** ** A cost that vanishes on part of the null space *)
Definition B3 : 'M[rat]_2 := mx2 1 1 (-1) (-1).
Definition y3 : 'cV[rat]_2 := cv2 1 (-1).
Definition svd_0 := q_svd (mx2 0 0 0 0) 1%:M (rv2 0 0) 1%:M.
Lemma svd_0P : svd_ok svd_0.
Proof.
apply: q_svdP; split; rewrite ?trmx1 ?mulmx1 //.
- by rewrite mul1mx mx2_diag.
- by elim/two; rewrite mxE.
- by elim/two => j; elim/two: j; rewrite !mxE.
Qed.
Lemma zero_cost : is_cost (0 : 'M[rat]_2).
Proof. by split; [rewrite linear0|move=> v; rewrite quadE mulmx0 mul0mx mxE]. Qed.

Lemma example_zero : exists s, d_morph q_pinv q_rank svd_0 B3 0 y3 1 = Some s /\ B3 *m cv2 (1 / 2%:Q) (1 / 2%:Q) = y3 /\ B3 *m s <> y3.
Proof.
have e : lhs B3 1 = mx2 2%:Q 2%:Q 2%:Q 2%:Q by rewrite lhs1 mx2_tr mx2_mul; congr mx2; rc.
have eG : penrose (mx2 2%:Q 2%:Q 2%:Q 2%:Q) = mx2 (1 / 8%:Q) (1 / 8%:Q) (1 / 8%:Q) (1 / 8%:Q).
  by apply: (pinv_unique (penroseP _)); split; rewrite !mx2_mul ?mx2_tr; congr mx2; rc.
have r1 : \rank (mx2 2%:Q 2%:Q 2%:Q 2%:Q) = 1%N.
  have -> : mx2 2%:Q 2%:Q 2%:Q 2%:Q = cv2 2%:Q 2%:Q *m rv2 1 1.
    by apply/matrixP; elim/two; elim/two; rewrite !mxE big_ord1 !mxE.
  apply/eqP; rewrite eqn_leq; apply/andP; split.
    by apply: leq_trans (mxrankM_maxl _ _) _; apply: rank_leq_col.
  rewrite lt0n mxrank_eq0; apply/eqP => /matrixP /(_ 0 0); rewrite !mxE big_ord1 !mxE /=; move/eqP.
  by vm_compute.
rewrite /d_morph /q_pinv /q_rank e mulmx0 mx2_0 /svd_0 /q_svd eqxx r1.
eexists; split; first reflexivity; split; first by rewrite mx2_cv; congr cv2; rc.
rewrite rhs1 eG mx2_tr !mx2_cv trmx1.
set D : 'M[rat]_(2, 2 - (minn 2 2 - 1)) := delete_columns _ 1%:M.
have DE : forall i j, D i j = (i == 1)%:R by move=> i j; rewrite !mxE -val_eqE /= (ord1 j).
move: (D) DE => {D} D DE.
have -> : penrose (D^T *m D) = 1%:M.
  have -> : D^T *m D = 1%:M.
    by apply/matrixP => i j; rewrite mxE sum2 ![D^T _ _]mxE !DE (ord1 i) (ord1 j) mxE /= mul0r add0r mul1r.
  by apply: (pinv_unique (penroseP _)); split; rewrite !mulmx1 ?trmx1.
rewrite mulmx1 [X in B3 *m X]cv2_E -mulmxA mx2_cv => /matrixP /(_ 0 0).
rewrite !mxE !big_ord1 !DE /= ?mxE sum2 !mxE !DE /=; move/eqP; by vm_compute.
Qed.
