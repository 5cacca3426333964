(** * D-MORPH regression: the solution, pseudo-inverses exist, and concrete cases. *)
From mathcomp Require Import all_ssreflect all_algebra.
From Verif Require Import ModelDmorph SpecDmorph ProofsDmorph.
Set Implicit Arguments.
Unset Strict Implicit.
Unset Printing Implicit Defensive.
Import Order.TTheory GRing.Theory Num.Theory.
Local Open Scope ring_scope.

Section Solution.
Variable F : realFieldType.
Variable pinv : forall m n, 'M[F]_(m, n) -> option 'M[F]_(n, m).
Variable matrix_rank : forall m n, 'M[F]_(m, n) -> nat.
Variable svd : forall m, 'M[F]_m -> option ('M[F]_m * 'rV[F]_m * 'M[F]_m).
Hypothesis pinvP : pinv_ok pinv.
Hypothesis rankP : rank_ok matrix_rank.
Hypothesis svdP : svd_ok svd.
Variables (n m : nat) (B : 'M[F]_(n, m)) (C : 'M[F]_m) (y : 'cV[F]_n) (c : nat).
Hypothesis c0 : (0 < c)%N.

Lemma dmorph_split s : d_morph pinv matrix_rank svd B C y c = Some s ->
  exists G U d Vh g, let k := (minn n m - \rank (lhs B c))%N in
  [/\ is_pinv (lhs B c) G, is_svd ((1%:M - G *m lhs B c) *m C) U d Vh,
      is_pinv ((delete_columns k U)^T *m delete_columns k Vh^T) g &
      s = delete_columns k Vh^T *m g *m (delete_columns k U)^T *m (G *m rhs B y c)].
Proof.
rewrite /d_morph rankP; case eG: (pinv _) => [G|//]; case eS: (svd _) => [[[U d] Vh]|//].
case eg: (pinv _) => [g|//] [<-].
exists G, U, d, Vh, g; split => //; [exact: pinvP eG|exact: svdP eS|exact: pinvP eg].
Qed.

Lemma dmorph_best s : (m <= n)%N -> is_cost C -> (forall v, B *m v = 0 -> quad C v = 0 -> v = 0) ->
  d_morph pinv matrix_rank svd B C y c = Some s ->
  least_squares B y s /\ forall z, least_squares B y z -> z <> s -> quad C s < quad C z.
Proof.
move=> mn Cc def /dmorph_split [G [U [d [Vh [g]]]]] /= [hG hS hg ->].
have def' : forall v : 'cV_m, lhs B c *m v = 0 -> quad C v = 0 -> v = 0.
  by move=> v /(lhs_zero _ _ c0); apply: def.
move: g hg; have -> : (minn n m - \rank (lhs B c))%N = \rank (1%:M - G *m lhs B c).
  by rewrite (minn_idPr mn) (rank_P hG).
move=> g hg; set x := G *m rhs B y c.
have [h1 h2] := solution hG Cc def' hS x hg.
set s' := _ *m x in h1 h2 *; set P := 1%:M - G *m lhs B c in h1 h2.
have Bs : B *m (s' - x) = 0.
  by apply/(lhs_zero _ _ c0); rewrite -h1 mulmxA (aP hG) mul0mx.
have fit : B^T *m (y - B *m s') = 0.
  have -> : B *m s' = B *m x by apply/eqP; rewrite -subr_eq0 -mulmxBr Bs.
  exact: first_fit.
split; first exact: normal_least.
move=> z lz ne; have Bz := least_same fit lz.
have Pz : P *m (z - s') = z - s' by apply: (P_fix (a := lhs B c)); apply/(lhs_zero _ _ c0).
have := minimal (P_sym hG) Cc h2 Pz; rewrite addrC subrK => ->.
rewrite ltr_addl lt_neqAle (proj2 Cc) andbT eq_sym; apply/eqP => q.
by apply: ne; apply/eqP; rewrite -subr_eq0; apply/eqP; apply: def.
Qed.

Lemma rank_lhs : \rank (lhs B c) = \rank B.
Proof.
have cn : c%:R != 0 :> F by rewrite pnatr_eq0 -lt0n.
rewrite /lhs mxrank_scale_nz ?invr_eq0 //; apply/eqP; rewrite eqn_leq mxrankM_maxr /=.
have h : (kermx (B^T *m B) <= kermx B^T)%MS.
  apply/row_subP => i; apply/sub_kermxP; set u := row i _.
  have hu : u *m (B^T *m B) = 0 by apply/sub_kermxP; apply: row_sub.
  have := congr1 trmx hu; rewrite !trmx_mul trmxK linear0 => /mul_zero e.
  by have := congr1 trmx e; rewrite trmx_mul trmxK linear0.
have := mxrankS h; rewrite !mxrank_ker mxrank_tr => h2.
have := leq_sub2l m h2; rewrite !subKn //; exact: rank_leq_col || exact: rank_leq_row.
Qed.

Lemma delete_all (X : 'M[F]_m) : X^T *m X = 1%:M -> (delete_columns 0 X)^T *m delete_columns 0 X = 1%:M /\ delete_columns 0 X *m (delete_columns 0 X)^T = 1%:M.
Proof.
move=> XX; have XX' := mulmx1C XX; split; apply/matrixP => i j.
  have := congr1 (fun A : 'M_m => A (behind i) (behind j)) XX; rewrite !mxE => e.
  transitivity (\sum_l X^T (behind i) l * X l (behind j)).
    by apply: eq_bigr => l _; rewrite !mxE.
  by rewrite e -!val_eqE.
have := congr1 (fun A : 'M_m => A i j) XX'; rewrite !mxE => <-.
have e0 : (m - 0)%N = m by rewrite subn0.
rewrite (reindex (fun l : 'I_(m - 0) => cast_ord e0 l)) /=; last first.
  by exists (cast_ord (esym e0)) => l _; apply: val_inj.
apply: eq_bigr => l _; rewrite !mxE; congr (X _ _ * X _ _); apply: val_inj => //=.
Qed.

Lemma dmorph_full s : \rank B = minn n m -> d_morph pinv matrix_rank svd B C y c = Some s ->
  least_squares B y s /\ forall z, least_squares B y z -> z <> s -> sqn s < sqn z.
Proof.
move=> full /dmorph_split [G [U [d [Vh]]]] /=; rewrite rank_lhs full subnn => - [g [hG [hU hV _ _ _] hg ->]].
have [U1 U2] := delete_all hU.
have [V1 V2] : (delete_columns 0 Vh^T)^T *m delete_columns 0 Vh^T = 1%:M /\ delete_columns 0 Vh^T *m (delete_columns 0 Vh^T)^T = 1%:M.
  by apply: delete_all; rewrite trmxK.
move: hg U1 U2 V1 V2; set U' := delete_columns 0 U; set V' := delete_columns 0 Vh^T => hg U1 U2 V1 V2.
have -> : g = (U'^T *m V')^T.
  apply: (pinv_unique hg); rewrite trmx_mul trmxK.
  have w1 : U'^T *m V' *m (V'^T *m U') = 1%:M by rewrite -mulmxA (mulmxA V') V2 mul1mx U1.
  have w2 : V'^T *m U' *m (U'^T *m V') = 1%:M by rewrite -mulmxA (mulmxA U') U2 mul1mx V1.
  by split; rewrite ?w1 ?w2 ?mul1mx ?mulmx1 ?trmx1.
rewrite trmx_mul trmxK !mulmxA V2 mul1mx U2 mul1mx.
set x := G *m rhs B y c; have fit : B^T *m (y - B *m x) = 0 by exact: first_fit.
split; first exact: normal_least.
move=> z lz ne; have Bz := least_same fit lz.
have Pz : (1%:M - G *m lhs B c) *m (z - x) = z - x by apply: (P_fix (a := lhs B c)); apply/(lhs_zero _ _ c0).
have Px : x^T *m (1%:M - G *m lhs B c) = 0.
  rewrite -{1}[1%:M - _](P_sym hG) -trmx_mul; suff -> : (1%:M - G *m lhs B c) *m x = 0 by rewrite linear0.
  by case: hG => _ h2 _ _; rewrite /x mulmxA mulmxBl mul1mx h2 subrr mul0mx.
rewrite -[z](subrK x) addrC sqnD -Pz mulmxA Px mul0mx mxE mul0rn addr0 Pz ltr_addl lt_neqAle sqn_ge0 andbT eq_sym.
by apply/eqP => /sqn_eq0 e; apply: ne; apply/eqP; rewrite -subr_eq0 e.
Qed.
End Solution.

(** ** Pseudo-inverses exist *)
Section Exists.
Variable F : realFieldType.
Lemma gram_unit r n (R : 'M[F]_(r, n)) : row_free R -> R *m R^T \in unitmx.
Proof.
move=> fr; rewrite -row_free_unit -kermx_eq0; apply/eqP.
have h : kermx (R *m R^T) *m R = 0.
  apply: row_zero; rewrite trmx_mul mulmxA -(mulmxA _ R) mulmx_ker mul0mx //.
by have := congr1 (mulmx^~ (pinvmx R)) h; rewrite -mulmxA mulmxVp // mulmx1 mul0mx.
Qed.
Definition penrose m n (A : 'M[F]_(m, n)) : 'M[F]_(n, m) :=
  (row_base A)^T *m invmx (row_base A *m (row_base A)^T) *m (invmx ((col_base A)^T *m col_base A) *m (col_base A)^T).
Lemma factor_pinv m n r (L : 'M[F]_(m, r)) (R : 'M[F]_(r, n)) : R *m R^T \in unitmx -> L^T *m L \in unitmx ->
  is_pinv (L *m R) (R^T *m invmx (R *m R^T) *m (invmx (L^T *m L) *m L^T)).
Proof.
move=> uR uL; set X := invmx (R *m R^T); set Y := invmx (L^T *m L).
have XR : R *m R^T *m X = 1%:M by rewrite mulmxV.
have YL : Y *m (L^T *m L) = 1%:M by rewrite mulVmx.
have AG : L *m R *m (R^T *m X *m (Y *m L^T)) = L *m Y *m L^T.
  by rewrite -!mulmxA (mulmxA R) (mulmxA _ X) XR mul1mx.
have GA : R^T *m X *m (Y *m L^T) *m (L *m R) = R^T *m X *m R.
  by rewrite -!mulmxA (mulmxA L^T) (mulmxA Y) YL mul1mx.
have Xs : X^T = X by rewrite /X trmx_inv trmx_mul trmxK.
have Ys : Y^T = Y by rewrite /Y trmx_inv trmx_mul trmxK.
split.
- by rewrite AG -!mulmxA (mulmxA L^T) (mulmxA Y) YL mul1mx.
- by rewrite GA -!mulmxA (mulmxA R) (mulmxA (R *m R^T)) XR mul1mx.
- by rewrite AG !trmx_mul trmxK Ys mulmxA.
- by rewrite GA !trmx_mul trmxK Xs mulmxA.
Qed.
Lemma penroseP m n (A : 'M[F]_(m, n)) : is_pinv A (penrose A).
Proof.
rewrite -[X in is_pinv X _](mulmx_base A); apply: factor_pinv.
- by apply: gram_unit; exact: row_base_free.
- rewrite -[X in _ *m X]trmxK; apply: gram_unit; rewrite /row_free mxrank_tr; exact: col_base_full.
Qed.
End Exists.
