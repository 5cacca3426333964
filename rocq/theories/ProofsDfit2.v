(** * D-MORPH regression on lists of columns: the cheapest of the best fits. *)
From Coq Require Import Reals List Arith.
From mathcomp Require Import all_ssreflect all_algebra.
From Verif Require Import Base RField Stats SpecRidge SpecEhdmr SpecEfit SpecDfit ProofsEfit ProofsDfit ModelDmorph SpecDmorph ProofsDmorph ProofsDmorph2 ModelDfit.
Set Implicit Arguments.
Unset Strict Implicit.
Unset Printing Implicit Defensive.
Import Order.TTheory GRing.Theory Num.Theory.
Local Open Scope ring_scope.

Lemma big_total n (f : nat -> R) : \sum_(i < n) f i = total n f.
Proof. by elim: n => [|n IH]; [rewrite big_ord0|rewrite big_ord_recr /= IH total_last]. Qed.

Lemma length_entries m (x : 'cV[R]_m) : List.length (entries x) = m.
Proof. by rewrite /entries List.map_length List.seq_length. Qed.
Lemma nth_entries m (x : 'cV[R]_m) (i : 'I_m) : List.nth i (entries x) R0 = x i 0.
Proof.
by rewrite /entries nth_map_seq ?valK //; apply/ssrnat.ltP.
Qed.
Lemma column_entries m (x : 'cV[R]_m) : column_mx m (entries x) = x.
Proof. by apply/matrixP => i j; rewrite (ord1 j) mxE nth_entries. Qed.

Section Fit.
Variables (Bs : list (list (list R))) (y : list R).
Notation n := (List.length y).
Notation B := (List.concat Bs).
Notation m := (List.length B).

Lemma fit_entry xs r : shape Bs xs -> (columns_mx n m B *m column_mx m (List.concat xs)) r 0 = explained Bs xs r.
Proof.
move=> sh; rewrite mxE -(explained_concat _ _ _ sh) -(big_total m (fun j => Rmult (List.nth r (List.nth j B nil) R0) (List.nth j (List.concat xs) R0))).
by apply: eq_bigr => j _; rewrite !mxE.
Qed.
Lemma sqn_misfit xs : shape Bs xs -> sqn (column_mx n y - columns_mx n m B *m column_mx m (List.concat xs)) = misfit Bs y xs.
Proof.
move=> sh; rewrite /sqn /misfit -(big_total n (fun r => pow (Rminus (List.nth r y R0) (explained Bs xs r)) 2)).
by apply: eq_bigr => r _; rewrite R_sqE mxE [in X in _ + X]mxE fit_entry // mxE.
Qed.
Variable C : list (list (list R)).
Hypothesis costs : cost_forms Bs C.
Notation Q := (\matrix_(i < m, j < m) block_entry C i j).

Lemma quad_forms xs : shape Bs xs -> quad Q (column_mx m (List.concat xs)) = forms C xs.
Proof.
move=> sh; case: (costs) => lc hc; case: (sh) => lx hx.
rewrite -forms_entries ?(shape_concat _ _ sh); last first.
- by move=> z; rewrite lc => hz; rewrite (proj1 (hc z hz)) hx.
- by rewrite lc lx.
rewrite /quad -(big_total m (fun i => total m (fun j => Rmult (Rmult (List.nth i (List.concat xs) R0) (block_entry C i j)) (List.nth j (List.concat xs) R0)))).
by apply: eq_bigr => i _; rewrite -big_total; apply: eq_bigr => j _; rewrite !mxE.
Qed.
Lemma cut_entries (v : 'cV[R]_m) : shape Bs (cut Bs (entries v)) /\ column_mx m (List.concat (cut Bs (entries v))) = v.
Proof. by have [s e] := cut_spec Bs (entries v) (length_entries v); split=> //; rewrite e column_entries. Qed.

Lemma cost_is : is_cost Q.
Proof.
case: (costs) => lc hc; split.
- apply/matrixP => i j; rewrite !mxE; apply: entry_sym => c /(List.In_nth _ _ nil) [z [hz <-]] a b.
  by move: hz; rewrite lc => hz; have [l [s _]] := hc z hz; rewrite l => ha hb; apply: s.
- move=> v; have [s <-] := cut_entries v; rewrite quad_forms //; apply/R_leE.
  rewrite /forms /total; apply: Rsum_nonneg => x /List.in_map_iff [z [<- /List.in_seq [_ hz]]].
  move: hz; rewrite /= lc => hz; have [l [_ p]] := hc z hz; apply: p; case: s => ls; exact.
Qed.

Variable pinv : forall m n, 'M[R]_(m, n) -> option 'M[R]_(n, m).
Variable matrix_rank : forall m n, 'M[R]_(m, n) -> nat.
Variable svd : forall m, 'M[R]_m -> option ('M[R]_m * 'rV[R]_m * 'M[R]_m).
Hypothesis pinvP : pinv_ok pinv.
Hypothesis rankP : rank_ok matrix_rank.
Hypothesis svdP : svd_ok svd.

Lemma lists_cheapest k x : lt 0 k -> le m n ->
  (forall vs, shape Bs vs -> (forall r, lt r n -> explained Bs vs r = R0) -> forms C vs = R0 -> forall z i, at2 vs z i = R0) ->
  d_morph_lists pinv matrix_rank svd B C y k = Ok x -> exists xs, x = List.concat xs /\ cheapest_fit Bs y (forms C) xs.
Proof.
move=> /ssrnat.ltP k0 /ssrnat.leP mn definite; rewrite /d_morph_lists; case e: d_morph => [s|//] [<-].
have def v : columns_mx n m B *m v = 0 -> quad Q v = 0 -> v = 0.
  have [sh ev] := cut_entries v; move=> bz qz; rewrite -ev; apply/matrixP => i j; rewrite (ord1 j) mxE [RHS]mxE.
  have z0 : forall z i, at2 (cut Bs (entries v)) z i = R0.
    apply: definite => //; last by rewrite -quad_forms // ev.
    by move=> r /ssrnat.ltP hr; have := fit_entry (Ordinal hr) sh; rewrite ev bz mxE => /esym.
  case: (le_lt_dec (List.length (List.concat (cut Bs (entries v)))) i) => h; first by rewrite List.nth_overflow.
  have [b [hb hi]] : exists b, List.In b (cut Bs (entries v)) /\ List.In (List.nth i (List.concat (cut Bs (entries v))) R0) b.
    by have := List.nth_In (List.concat (cut Bs (entries v))) R0 h; rewrite List.in_concat.
  have [z [hz ez]] := List.In_nth _ _ nil hb; have [q [hq eq]] := List.In_nth _ _ R0 hi.
  by rewrite -eq -ez; exact: z0.
have [ls best] := dmorph_best pinvP rankP svdP k0 mn cost_is def e.
have [sh es] := cut_entries s; exists (cut Bs (entries s)); split; first by rewrite (proj2 (cut_spec Bs (entries s) (length_entries s))).
split=> //; split.
- by move=> zs shz; apply/R_leE; rewrite -(sqn_misfit sh) -(sqn_misfit shz) es; apply: ls.
move=> zs shz eqm ne; apply/R_ltE; rewrite -(quad_forms sh) -(quad_forms shz) es; apply: best.
- by move=> w; rewrite (sqn_misfit shz) eqm -(sqn_misfit sh) es; apply: ls.
move=> eq; apply: ne; apply: (concat_shape_inj Bs) => //.
have -> : List.concat zs = entries (column_mx m (List.concat zs)).
  apply: (List.nth_ext _ _ R0 R0); first by rewrite length_entries (shape_concat _ _ shz).
  move=> i; rewrite (shape_concat _ _ shz) => /ssrnat.ltP hi; by rewrite (nth_entries _ (Ordinal hi)) mxE.
by rewrite eq (proj2 (cut_spec Bs (entries s) (length_entries s))).
Qed.
End Fit.
