(** * D-MORPH regression: least squares of minimal cost. *)
From mathcomp Require Import all_ssreflect all_algebra.
From Verif Require Import ModelDmorph SpecDmorph.
Set Implicit Arguments.
Unset Strict Implicit.
Unset Printing Implicit Defensive.
Import Order.TTheory GRing.Theory Num.Theory.
Local Open Scope ring_scope.

Section Facts.
Variable F : realFieldType.

(** ** Squared lengths and forms *)
Lemma sqnE n (v : 'cV[F]_n) : sqn v = (v^T *m v) 0 0.
Proof. by rewrite mxE /sqn; apply: eq_bigr => i _; rewrite mxE expr2. Qed.
Lemma quadE m (C : 'M[F]_m) (v : 'cV[F]_m) : quad C v = (v^T *m C *m v) 0 0.
Proof.
rewrite mxE /quad exchange_big /=; apply: eq_bigr => j _; rewrite mxE big_distrl /=.
by apply: eq_bigr => i _; rewrite mxE.
Qed.
Lemma sqn_ge0 n (v : 'cV[F]_n) : 0 <= sqn v.
Proof. by apply: sumr_ge0 => i _; apply: sqr_ge0. Qed.
Lemma sqn_eq0 n (v : 'cV[F]_n) : sqn v = 0 -> v = 0.
Proof.
move=> H; apply/matrixP => i j; rewrite (ord1 j) mxE.
have /psumr_eq0P := H; move=> /(_ (fun i _ => sqr_ge0 _)) /(_ i isT) /eqP.
by rewrite sqrf_eq0 => /eqP.
Qed.
Lemma mx11_tr (A : 'M[F]_1) : A^T 0 0 = A 0 0.
Proof. by rewrite mxE. Qed.
Lemma add11 (A B : 'M[F]_1) : (A + B) 0 0 = A 0 0 + B 0 0.
Proof. by rewrite mxE. Qed.
Lemma trD m n (A B : 'M[F]_(m, n)) : (A + B)^T = A^T + B^T.
Proof. by rewrite linearD. Qed.
Lemma dotC n (u v : 'cV[F]_n) : (v^T *m u) 0 0 = (u^T *m v) 0 0.
Proof. by rewrite -[LHS]mx11_tr trmx_mul trmxK. Qed.
Lemma sum3 (a b c : F) : a + c + (c + b) = a + b + c *+ 2.
Proof. by rewrite [c + b]addrC addrACA mulr2n. Qed.
Lemma sqnD n (u v : 'cV[F]_n) : sqn (u + v) = sqn u + sqn v + (u^T *m v) 0 0 *+ 2.
Proof. by rewrite !sqnE trD mulmxDl !mulmxDr !add11 (dotC u v) sum3. Qed.
Lemma formC m (C : 'M[F]_m) (u v : 'cV[F]_m) : C^T = C -> (v^T *m C *m u) 0 0 = (u^T *m C *m v) 0 0.
Proof. by move=> Cs; rewrite -[LHS]mx11_tr !trmx_mul trmxK Cs mulmxA. Qed.
Lemma quadD m (C : 'M[F]_m) (u v : 'cV[F]_m) : C^T = C -> quad C (u + v) = quad C u + quad C v + (u^T *m C *m v) 0 0 *+ 2.
Proof. by move=> Cs; rewrite !quadE trD !mulmxDl !mulmxDr !add11 (formC u v Cs) sum3. Qed.
Lemma quadZ m (C : 'M[F]_m) t (v : 'cV[F]_m) : quad C (t *: v) = t ^+ 2 * quad C v.
Proof.
rewrite !quadE; have -> : (t *: v)^T = t *: v^T by rewrite linearZ.
by rewrite -!scalemxAl -scalemxAr scalerA mxE expr2.
Qed.

(** A cost that vanishes at a vector has zero gradient there. *)
Lemma cost_zero m (C : 'M[F]_m) v : is_cost C -> quad C v = 0 -> C *m v = 0.
Proof.
case=> Cs Cp Cv; set u := C *m v; apply: sqn_eq0.
have ab : forall t, 0 <= t * (sqn u *+ 2 + t * quad C u).
  move=> t; have := Cp (v + t *: u); rewrite quadD // Cv add0r quadZ.
  have -> : (v^T *m C *m (t *: u)) 0 0 = t * sqn u.
    by rewrite -scalemxAr mxE sqnE; congr (_ * _); rewrite /u trmx_mul Cs.
  by rewrite addrC expr2 -mulrA -mulrnAr -mulrDr.
have a0 := sqn_ge0 u; move: ab a0; set a := sqn u; set b := quad C u => ab a0.
have b0 : 0 <= b by apply: Cp.
have b1 : 0 < b + 1 by apply: ltr_paddl => //; apply: ltr01.
case: (eqVneq a 0) => [//|an0]; exfalso.
have ap : 0 < a by rewrite lt_def an0.
have tp : 0 < a / (b + 1) by apply: divr_gt0.
have := ab (- (a / (b + 1))); rewrite nmulr_rge0; last by rewrite oppr_lt0.
rewrite mulNr subr_le0 => h.
have h2 : a / (b + 1) * b <= a.
  by rewrite mulrAC ler_pdivr_mulr // ler_wpmul2l // ler_addl ler01.
by have := le_trans h h2; rewrite mulr2n ger_addl leNgt ap.
Qed.

(** ** Normal equations *)
Lemma mul_zero n m (B : 'M[F]_(n, m)) (v : 'cV[F]_m) : B^T *m B *m v = 0 -> B *m v = 0.
Proof. by move=> H; apply: sqn_eq0; rewrite sqnE trmx_mul -mulmxA (mulmxA B^T) H mulmx0 mxE. Qed.

Lemma normal_split n m (B : 'M[F]_(n, m)) y s z : B^T *m (y - B *m s) = 0 -> sqn (y - B *m z) = sqn (y - B *m s) + sqn (B *m (s - z)).
Proof.
move=> H; have -> : y - B *m z = (y - B *m s) + B *m (s - z) by rewrite mulmxBr addrA subrK.
rewrite sqnD; have -> : (y - B *m s)^T *m (B *m (s - z)) = 0.
  by rewrite mulmxA -[X in X *m _]trmxK trmx_mul trmxK H linear0 mul0mx.
by rewrite mxE mul0rn addr0.
Qed.

Lemma normal_least n m (B : 'M[F]_(n, m)) y s : B^T *m (y - B *m s) = 0 -> least_squares B y s.
Proof. by move=> H z; rewrite (normal_split z H) ler_addl sqn_ge0. Qed.
Lemma least_same n m (B : 'M[F]_(n, m)) y s z : B^T *m (y - B *m s) = 0 -> least_squares B y z -> B *m (z - s) = 0.
Proof.
move=> H /(_ s); rewrite (normal_split z H) ger_addl => h.
have /sqn_eq0 E : sqn (B *m (s - z)) = 0 by apply/eqP; rewrite eq_le h sqn_ge0.
by rewrite -opprB mulmxN E oppr0.
Qed.

(** ** Pseudo-inverses *)
Lemma row_zero n m (W : 'M[F]_(n, m)) : W *m W^T = 0 -> W = 0.
Proof.
move=> H; apply/matrixP => i j; rewrite mxE.
have : (W *m W^T) i i = 0 by rewrite H mxE.
have G : forall k, true -> 0 <= W i k * W^T k i by move=> k _; rewrite mxE -expr2 sqr_ge0.
rewrite mxE => /(psumr_eq0P G) /(_ j isT) /eqP.
by rewrite mxE -expr2 sqrf_eq0 => /eqP.
Qed.

Lemma pinv_unique m n (A : 'M[F]_(m, n)) G H : is_pinv A G -> is_pinv A H -> G = H.
Proof.
case=> G1 G2 G3 G4 [H1 H2 H3 H4].
have AG : A *m G = A *m H.
  have e1 : (A *m H) *m (A *m G) = A *m G by rewrite mulmxA H1.
  have e2 : (A *m G) *m (A *m H) = A *m H by rewrite mulmxA G1.
  by rewrite -e2 -G3 -H3 -trmx_mul e1 G3.
have GA : G *m A = H *m A.
  have e1 : (G *m A) *m (H *m A) = G *m A by rewrite -mulmxA (mulmxA A) H1.
  have e2 : (H *m A) *m (G *m A) = H *m A by rewrite -mulmxA (mulmxA A) G1.
  by rewrite -e1 -G4 -H4 -trmx_mul e2 H4.
by rewrite -G2 -mulmxA AG mulmxA GA H2.
Qed.

(** ** The projector on the null space *)
Lemma rank_idem m (E : 'M[F]_m) : E *m E = E -> \rank (1%:M - E) = (m - \rank E)%N.
Proof.
move=> EE; have h1 : (\rank (1%:M - E)%R + \rank E <= m)%N.
  by apply: mulmx0_rank_max; rewrite mulmxBl mul1mx EE subrr.
have h2 : (m <= \rank (1%:M - E)%R + \rank E)%N.
  by rewrite -[X in (X <= _)%N](mxrank1 F m) -{1}[1%:M](subrK E); apply: mxrank_add.
by apply/eqP; rewrite eqn_leq leq_subRL ?rank_leq_row // addnC h1 leq_subLR addnC h2.
Qed.

Section Null.
Variables (m : nat) (a G C : 'M[F]_m).
Hypothesis as_ : a^T = a.
Hypothesis aG : is_pinv a G.
Hypothesis Cc : is_cost C.
Hypothesis definite : forall v : 'cV_m, a *m v = 0 -> quad C v = 0 -> v = 0.
Let P := 1%:M - G *m a.

Lemma P_sym : P^T = P.
Proof. by case: aG => _ _ _ h; rewrite /P linearB /= trmx1 h. Qed.
Lemma aP : a *m P = 0.
Proof. by case: aG => h _ _ _; rewrite /P mulmxBr mulmx1 mulmxA h subrr. Qed.
Lemma P_fix (v : 'cV_m) : a *m v = 0 -> P *m v = v.
Proof. by move=> h; rewrite /P mulmxBl mul1mx -mulmxA h mulmx0 subr0. Qed.
Lemma rank_P : \rank P = (m - \rank a)%N.
Proof.
case: aG => h1 h2 _ _; rewrite /P rank_idem; last by rewrite mulmxA h2.
congr (_ - _)%N; apply/eqP; rewrite eqn_leq mxrankM_maxr /=.
by rewrite -[X in (\rank X <= _)%N]h1 -mulmxA; apply: mxrankM_maxr.
Qed.

Lemma quad_P (v : 'cV_m) : P *m C *m v = 0 -> P *m v = v -> quad C v = 0.
Proof. by move=> h e; rewrite quadE -{1}e trmx_mul P_sym -!mulmxA (mulmxA P) h mulmx0 mxE. Qed.

Lemma PC_kernel (v : 'cV_m) : C *m P *m v = 0 -> P *m v = 0.
Proof.
move=> h; apply: definite; first by rewrite mulmxA aP mul0mx.
by rewrite quadE -!mulmxA (mulmxA C) h mulmx0 mxE.
Qed.

Lemma rank_PC : \rank (P *m C) = \rank P.
Proof.
apply/eqP; rewrite eqn_leq mxrankM_maxl /=.
have h : (kermx (P *m C) <= kermx P)%MS.
  apply/row_subP => i; apply/sub_kermxP.
  set u := row i _; have hu : u *m (P *m C) = 0 by apply/sub_kermxP; apply: row_sub.
  have hc : C *m P *m u^T = 0.
    by have := congr1 trmx hu; rewrite !trmx_mul P_sym (proj1 Cc) linear0.
  by have := congr1 trmx (PC_kernel hc); rewrite trmx_mul trmxK P_sym linear0.
have := mxrankS h; rewrite !mxrank_ker => h2.
have := leq_sub2l m h2; rewrite !subKn //; exact: rank_leq_row.
Qed.

(** ** The singular vectors *)
Variables (U Vh : 'M[F]_m) (d : 'rV[F]_m).
Hypothesis sv : is_svd (P *m C) U d Vh.
Let k := \rank P.
Let E : 'M[F]_(m, m - k) := delete_columns k 1%:M.

Lemma deleteE (X : 'M[F]_m) : delete_columns k X = X *m E.
Proof.
apply/matrixP => i j; rewrite !mxE (bigD1 (behind j)) //= !mxE eqxx mulr1 big1 ?addr0 // => l /negbTE h.
by rewrite !mxE h mulr0.
Qed.
Lemma E_orth : E^T *m E = 1%:M.
Proof.
apply/matrixP => i j; rewrite !mxE (bigD1 (behind i)) //= !mxE eqxx mul1r big1 ?addr0.
  by congr (_%:R); congr nat_of_bool; rewrite -!val_eqE /= eqn_add2l.
by move=> l /negbTE h; rewrite !mxE h mul0r.
Qed.

Lemma rank_D : \rank (diag_mx d) = k.
Proof.
case: sv => hU hV hA _ _; rewrite /k -rank_PC hA.
have rV : row_free Vh by apply/row_freeP; exists Vh^T.
rewrite mxrankMfree //.
have rU : row_full U by apply/row_fullP; exists U^T.
by rewrite eqmxMfull.
Qed.

Lemma d_zero (j : 'I_m) : (k <= j)%N -> d 0 j = 0.
Proof.
case: sv => _ _ _ d0 dd kj; case: (eqVneq (d 0 j) 0) => // dj; exfalso.
have dp : forall i : 'I_m, (i <= j)%N -> d 0 i != 0.
  move=> i ij; rewrite gt_eqF // (lt_le_trans _ (dd _ _ ij)) //.
  by rewrite lt_neqAle eq_sym dj d0.
pose W : 'rV[F]_m := \row_i if (i <= j)%N then (d 0 i)^-1 else 0.
have e : diag_mx W *m diag_mx d = pid_mx j.+1.
  rewrite mulmx_diag; apply/matrixP => x y; rewrite !mxE -val_eqE /=.
  case: (x =P y :> nat) => [xy|_]; last by rewrite mulr0n.
  rewrite mulr1n ltnS; case: ifP => h; last by rewrite mul0r.
  by rewrite mulVf // dp.
have := mxrankM_maxr (diag_mx W) (diag_mx d); rewrite e rank_D rank_pid_mx //.
by move=> h; have := leq_ltn_trans kj h; rewrite ltnn.
Qed.

Lemma DE : diag_mx d *m E = 0.
Proof.
apply/matrixP => i j; rewrite mul_diag_mx !mxE.
case: (eqVneq i (behind j)) => [->|_]; last by rewrite mulr0.
by rewrite d_zero ?mul0r //= leq_addr.
Qed.

Let U' := delete_columns k U.
Let V' := delete_columns k Vh^T.

Lemma UU : U'^T *m U' = 1%:M.
Proof. by case: sv => h _ _ _ _; rewrite /U' deleteE trmx_mul -mulmxA (mulmxA U^T) h mul1mx E_orth. Qed.
Lemma VV : V'^T *m V' = 1%:M.
Proof. by case: sv => _ h _ _ _; rewrite /V' deleteE trmx_mul trmxK -mulmxA (mulmxA Vh) h mul1mx E_orth. Qed.
Lemma PCV : P *m C *m V' = 0.
Proof.
case: sv => _ h -> _ _; rewrite /V' deleteE -(mulmxA _ Vh) (mulmxA Vh) h mul1mx -mulmxA.
by rewrite DE mulmx0.
Qed.
Lemma UPC : U'^T *m (P *m C) = 0.
Proof.
case: sv => h _ -> _ _; rewrite /U' deleteE trmx_mul -!mulmxA (mulmxA U^T) h mul1mx mulmxA.
have -> : E^T *m diag_mx d = (diag_mx d *m E)^T by rewrite trmx_mul tr_diag_mx.
by rewrite DE linear0 mul0mx.
Qed.
Lemma UP : U'^T *m P = 0.
Proof.
have sP : (P <= C *m P)%MS.
  have /mxrank_leqif_eq [_ h] : (C *m P <= P)%MS by apply: submxMl.
  have : (C *m P == P)%MS.
    by rewrite -h -[\rank (C *m P)]mxrank_tr trmx_mul P_sym (proj1 Cc) rank_PC.
  by move/andP => [].
have [Z eZ] := submxP sP.
by rewrite -[P]P_sym eZ !trmx_mul P_sym (proj1 Cc) !mulmxA -(mulmxA U'^T) UPC mul0mx.
Qed.

Lemma range_U (v : 'cV_m) : U'^T *m v = 0 -> P *m v = v.
Proof.
move=> h; have s1 : (U'^T <= 1%:M - P)%MS.
  by apply/submxP; exists U'^T; rewrite mulmxBr mulmx1 UP subr0.
have rU : \rank U'^T = (m - k)%N.
  apply/eqP; rewrite eqn_leq rank_leq_row /= -{1}(mxrank1 F (m - k)) -UU.
  exact: mxrankM_maxl.
have rP : \rank (1%:M - P) = (m - k)%N.
  apply: rank_idem; case: aG => _ h2 _ _; rewrite /P mulmxBl mul1mx mulmxBr mulmx1 mulmxA h2.
  by rewrite subrr subr0.
have /submxP [Z eZ] : (1%:M - P <= U'^T)%MS.
  have [_ e] := mxrank_leqif_eq s1.
  by move: e; rewrite rU rP eqxx => /esym /andP [].
apply/eqP; rewrite -subr_eq0 -opprB oppr_eq0; apply/eqP.
by rewrite -[X in X - _]mul1mx -mulmxBl eZ -mulmxA h mulmx0.
Qed.

Lemma UV_cancel (w : 'cV_(m - k)) : U'^T *m V' *m w = 0 -> w = 0.
Proof.
move=> h; have pv : P *m (V' *m w) = V' *m w by apply: range_U; rewrite mulmxA.
have q : quad C (V' *m w) = 0 by apply: quad_P => //; rewrite mulmxA PCV mul0mx.
have av : a *m (V' *m w) = 0 by rewrite -pv mulmxA aP mul0mx.
have := definite av q => /(congr1 (mulmx V'^T)); by rewrite mulmxA VV mul1mx mulmx0.
Qed.

Lemma UV_inverse g : is_pinv (U'^T *m V') g -> U'^T *m V' *m g = 1%:M.
Proof.
case=> h _ _ _; set W := U'^T *m V' in h *.
apply: mulmx1C; apply/eqP; rewrite -subr_eq0; apply/eqP; apply/matrixP => i j.
have z : W *m (g *m W - 1%:M) = 0 by rewrite mulmxBr mulmx1 mulmxA h subrr.
have := @UV_cancel (col j (g *m W - 1%:M)); rewrite -/W colE mulmxA z mul0mx.
move=> /(_ erefl); rewrite -colE => /matrixP /(_ i 0); rewrite [X in X = _ -> _]mxE => ->; by rewrite !mxE.
Qed.

Lemma solution g (x : 'cV_m) : is_pinv (U'^T *m V') g -> let s := V' *m g *m U'^T *m x in
  P *m (s - x) = s - x /\ P *m C *m s = 0.
Proof.
move=> hg s; split.
  apply: range_U; rewrite mulmxBr /s -!mulmxA (mulmxA U'^T) (mulmxA _ g) UV_inverse // mul1mx.
  by rewrite subrr.
by rewrite /s -!mulmxA (mulmxA P) (mulmxA (P *m C)) PCV mul0mx.
Qed.
End Null.

Lemma minimal m (P C : 'M[F]_m) s : P^T = P -> is_cost C -> P *m C *m s = 0 -> forall v, P *m v = v -> quad C (s + v) = quad C s + quad C v.
Proof.
move=> Ps [Cs Cp] h v e; rewrite quadD //; suff -> : (s^T *m C *m v) 0 0 = 0 by rewrite mul0rn addr0.
by rewrite (formC _ _ Cs) -{1}e trmx_mul Ps -!mulmxA (mulmxA P) h mulmx0 mxE.
Qed.

Lemma lhs_sym n m (B : 'M[F]_(n, m)) c : (lhs B c)^T = lhs B c.
Proof. by rewrite /lhs linearZ /= trmx_mul trmxK. Qed.
Lemma lhs_zero n m (B : 'M[F]_(n, m)) c (v : 'cV_m) : (0 < c)%N -> lhs B c *m v = 0 <-> B *m v = 0.
Proof.
move=> c0; rewrite /lhs -scalemxAl; split=> [/eqP|h]; last by rewrite -mulmxA h mulmx0 scaler0.
by rewrite scaler_eq0 invr_eq0 pnatr_eq0 eqn0Ngt c0 /= => /eqP /mul_zero.
Qed.

Lemma first_fit n m (B : 'M[F]_(n, m)) y c G : (0 < c)%N -> is_pinv (lhs B c) G -> B^T *m (y - B *m (G *m rhs B y c)) = 0.
Proof.
move=> c0 [h1 h2 h3 h4].
have cn : c%:R != 0 :> F by rewrite pnatr_eq0 -lt0n.
have e1 : lhs B c *m G *m B^T = B^T.
  apply/eqP; rewrite -subr_eq0; apply/eqP; apply: row_zero.
  set W := _ - _; have WB : W *m B = 0.
    have -> : W *m B = c%:R *: (lhs B c *m G *m lhs B c - lhs B c).
      by rewrite /W mulmxBl scalerBr -!mulmxA /lhs -!scalemxAr !scalerA mulfV // !scale1r !mulmxA.
    by rewrite h1 subrr scaler0.
  have -> : W^T = B *m (lhs B c *m G - 1%:M)^T by rewrite /W -{2}[B^T]mul1mx -mulmxBl trmx_mul trmxK.
  by rewrite mulmxA WB mul0mx.
have e2 : B^T *m (B *m (G *m rhs B y c)) = c%:R *: (lhs B c *m (G *m rhs B y c)).
  by rewrite /lhs -scalemxAl scalerA mulfV // scale1r mulmxA.
rewrite mulmxBr e2 mulmxA /rhs -scalemxAr scalerA mulfV // scale1r mulmxA e1 subrr //.
Qed.
End Facts.
