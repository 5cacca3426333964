(** * Enhanced HDMR: fits and reported values. *)
From Coq Require Import Reals String List Arith ZArith Bool Lia Lra Psatz Sorted Permutation.
From Verif Require Import Base Arrays ListFacts ModelGroups ModelScale ProofsScale Stats Sums Det ModelFast ModelMorris ModelMorrisAnalyze ModelDgsm ModelPawn
  SpecMorris ProofsMorris3 ProofsMorris7 ProofsDgsm2 ProofsDelta5 ModelHdmr SpecHdmr ProofsHdmr ProofsHdmr2 ProofsHdmr3 ProofsHdmr4 ProofsHdmr5 ProofsHdmr6
  ModelEhdmr SpecEhdmr ProofsEhdmr ProofsEhdmr2 ProofsEhdmr3 ProofsEhdmr4.
Import ListNotations.
Local Open Scope nat_scope.

Section Fit.
Variable solve : list (list R) -> list R -> result (list R).
Variable d_morph : list (list R) -> list (list (list R)) -> list R -> nat -> result (list R).

Lemma solve_block_length : forall n l2 B y x, solve_block solve n l2 B y = Ok x -> length x = length B.
Proof. intros n l2 B y x E. unfold solve_block in E. destruct (solve _ _) as [x'|]; [|discriminate]. cbn [bind] in E. destruct (Nat.eqb_spec (length x') (length B)); [congruence|discriminate]. Qed.

Definition shaped (Bs : list (list (list R))) (xs : list (list R)) : Prop := Forall2 (fun B x => length x = length B) Bs xs.
Lemma shaped_update : forall Bs xs i x, shaped Bs xs -> i < length Bs -> length x = length (nth i Bs []) -> shaped Bs (update xs i x).
Proof.
  intros Bs xs i x H. revert i. induction H as [|B y Bs ys Hy H IH]; intros i Hi L; [simpl in Hi; lia|].
  destruct i; cbn [update nth] in *; constructor; auto. apply IH; [simpl in Hi; lia|auto].
Qed.
Lemma foldM_inv : forall A B (P : A -> Prop) (f : A -> B -> result A) l a a', P a -> (forall a b a', In b l -> P a -> f a b = Ok a' -> P a') ->
  foldM f l a = Ok a' -> P a'.
Proof.
  induction l as [|b l IH]; intros a a' Ha H E; cbn [foldM] in E; [injection E as <-; auto|].
  destruct (f a b) as [a1|] eqn:F; [|discriminate]. cbn [bind] in E. apply (IH a1 a'); auto.
  - apply (H a b a1); auto. left; auto.
  - intros; eapply H; eauto. right; auto.
Qed.
Lemma e_pass_shaped : forall n Bs y xs xs', shaped Bs xs -> e_pass solve n Bs y xs = Ok xs' -> shaped Bs xs'.
Proof.
  intros n Bs y xs xs' H E. unfold e_pass in E. revert E. apply foldM_inv; auto. intros a i a' Hi Ha E. apply in_seq in Hi.
  destruct (solve_block solve n 0 (nth i Bs []) (without n Bs a y i)) as [x|] eqn:S1; [|discriminate]. cbn [bind] in E. injection E as <-.
  apply solve_block_length in S1. apply shaped_update; auto. lia.
Qed.
Lemma e_backfit_shaped : forall fuel n Bs y xs xs', shaped Bs xs -> e_backfit solve fuel n Bs y xs = Ok xs' -> shaped Bs xs'.
Proof.
  induction fuel; intros n Bs y xs xs' H E; cbn [e_backfit] in E; [injection E as <-; auto|].
  destruct (e_pass solve n Bs y xs) as [x1|] eqn:P; [|discriminate]. cbn [bind] in E. apply e_pass_shaped in P; auto.
  destruct (Rltb _ _) in E; [injection E as <-; auto|]. eapply IHfuel; eauto.
Qed.
Lemma e_order_shaped : forall n mi l2 Bs y xs res, e_order solve n mi l2 Bs y = Ok (xs, res) -> shaped Bs xs.
Proof.
  intros n mi l2 Bs y xs res E. unfold e_order in E. destruct (mapM _ Bs) as [x0|] eqn:M; [|discriminate]. cbn [bind] in E.
  destruct (e_backfit solve (S mi) n Bs y x0) as [x1|] eqn:B; [|discriminate]. cbn [bind] in E. injection E as <- _.
  apply e_backfit_shaped in B; auto. clear - M. revert x0 M. induction Bs as [|B Bs IH]; intros x0 M; cbn [mapM] in M; [injection M as <-; constructor|].
  destruct (solve_block solve n l2 B y) as [x|] eqn:S1; [|discriminate]. cbn [bind] in M.
  destruct (mapM (fun B => solve_block solve n l2 B y) Bs) as [x1|] eqn:M1; [|discriminate]. cbn [bind] in M. injection M as <-.
  constructor; [apply solve_block_length in S1; auto|apply IH; auto].
Qed.
Lemma shaped_concat : forall Bs xs, shaped Bs xs -> length (concat xs) = length (concat Bs).
Proof. intros Bs xs H. induction H; cbn; auto. rewrite !app_length. lia. Qed.

Lemma blocks_length : forall c (b : list (list R)) a k, 1 <= c_order c <= 3 -> length b = c_a_tnt c -> a + k <= c_nc_t c ->
  length (concat (blocks c b a k)) = list_sum (map (e_f_p c) (seq a k)).
Proof.
  intros c b a k O L H. unfold blocks. revert a H. induction k; intros a H; cbn; auto. rewrite app_length, IHk by lia.
  rewrite term_columns_length by (auto; lia). auto.
Qed.

Lemma coefficients_length : forall c K mi l2 b y x, 1 <= c_order c <= 3 -> length b = c_a_tnt c ->
  coefficients solve d_morph c K mi l2 b y = Ok x -> length x = c_a_tnt c.
Proof.
  intros c K mi l2 b y x O L E. unfold coefficients in E. destruct (c_ext c).
  - destruct (d_morph _ _ _ _) as [x'|]; [|discriminate]. cbn [bind] in E. destruct (Nat.eqb_spec (length x') (c_a_tnt c)); [congruence|discriminate].
  - destruct (e_order solve (c_subset c) mi l2 (blocks c b 0 (c_nc1 c)) y) as [[x1 r1]|] eqn:E1; [|discriminate]. cbn [bind fst snd] in E.
    apply e_order_shaped, shaped_concat in E1.
    assert (E2 : forall s, (if 1 <? c_order c then e_order solve (c_subset c) mi l2 (blocks c b (c_nc1 c) (c_nc2 c)) r1 else Ok ([], r1)) = Ok s ->
       length (concat (fst s)) = c_tnt2 c).
    { intros (x2, r2) Q. cbn [fst]. unfold c_tnt2, c_nc2. destruct (Nat.ltb_spec 1 (c_order c)) as [O2|O2].
      - apply e_order_shaped, shaped_concat in Q. rewrite Q.
        rewrite blocks_length by (auto; unfold c_nc_t; lia).
        assert (C2 : c_nc2 c = comb (c_d c) 2) by (unfold c_nc2; apply Nat.ltb_lt in O2; rewrite O2; auto). rewrite <- C2.
        assert (G : forall k a, c_nc1 c <= a -> a + k <= c_nc1 c + c_nc2 c -> list_sum (map (e_f_p c) (seq a k)) = c_nt2 c * k).
        { induction k; intros a H1 H2; cbn; [lia|]. rewrite IHk by lia. unfold e_f_p.
          destruct (Nat.ltb_spec a (c_nc1 c)); [lia|]. destruct (Nat.leb_spec (c_nc1 c) a); [|lia]. destruct (Nat.ltb_spec a (c_nc1 c + c_nc2 c)); [|lia]. cbn. lia. }
        rewrite G by lia. lia.
      - injection Q as <- _. cbn. lia. }
    destruct (if 1 <? c_order c then _ else _) as [s|] eqn:Q in E; [|discriminate]. specialize (E2 s Q). cbn [bind] in E.
    destruct (Nat.eqb_spec (c_order c) 3) as [|O3]; [discriminate|]. injection E as <-.
    rewrite app_length, E2, E1. rewrite blocks_length by (auto; unfold c_nc_t; lia).
    assert (G : forall k a, a + k <= c_nc1 c -> list_sum (map (e_f_p c) (seq a k)) = c_nt1 c * k).
    { induction k; intros a H2; cbn; [lia|]. rewrite IHk by lia. unfold e_f_p. destruct (Nat.ltb_spec a (c_nc1 c)); lia. }
    rewrite G by lia. unfold c_a_tnt, c_tnt1, c_tnt3, c_nc3. apply Nat.eqb_neq in O3. rewrite O3. lia.
Qed.

Definition centred (Y : list R) (idx : list nat) : list R := let Yi := map (fun i => nth i Y 0%R) idx in map (fun v => v - mean Yi)%R Yi.

Lemma fanova_one_inv : forall crit c K mi l2 b Y idx f, 1 <= c_order c <= 3 -> length b = c_a_tnt c ->
  fanova_one solve d_morph crit c K mi l2 b Y idx = Ok f ->
  length (ef_x f) = c_a_tnt c /\ ef_y f = centred Y idx /\
  coefficients solve d_morph c K mi l2 (map (take_rows 0%R idx) b) (centred Y idx) = Ok (ef_x f) /\
  ef_Y_e f = map (fun i => combine_columns (length idx) (map (take_rows 0%R idx) (term_columns c b i)) (term_columns c (ef_x f) i)) (seq 0 (c_nc_t c)) /\
  ef_signf f = e_f_test crit c (centred Y idx) (ef_Y_e f) /\
  (ef_S f, ef_Sa f, ef_Sb f) = e_ancova (centred Y idx) (ef_Y_e f).
Proof.
  intros crit c K mi l2 b Y idx f O L E. unfold fanova_one in E. cbv zeta in E.
  change (map (fun v => v - mean (take_rows 0%R idx Y))%R (take_rows 0%R idx Y)) with (centred Y idx) in E.
  destruct (coefficients _ _ _ _ _ _ _ _) as [x|] eqn:C; [|discriminate]. cbn [bind] in E.
  destruct (e_ancova _ _) as ((s, sa), sb) eqn:A in E. injection E as <-. cbn [ef_x ef_y ef_Y_e ef_signf ef_S ef_Sa ef_Sb].
  assert (LX : length x = c_a_tnt c) by (apply (coefficients_length c K mi l2 (map (take_rows 0%R idx) b) (centred Y idx)); auto; rewrite map_length; auto).
  split; auto. split; auto. split; auto. split; [|split; auto].
  rewrite comp_func_spec by auto. apply map_ext_in. intros i Hi. f_equal.
  unfold term_columns. cbv zeta.
  assert (SM : forall a e, slice (map (take_rows 0%R idx) b) a e = map (take_rows 0%R idx) (slice b a e)).
  { intros a e. unfold slice. rewrite skipn_map, firstn_map. auto. }
  rewrite !SM. destruct (i <? c_nc1 c); auto. destruct (i <? c_nc1 c + c_nc2 c); auto.
Qed.

Lemma fit_columns : forall crit c K mi l2 b Y idx f, 1 <= c_order c <= 3 -> length b = c_a_tnt c ->
  fanova_one solve d_morph crit c K mi l2 b Y idx = Ok f ->
  length (ef_Y_e f) = c_nc_t c /\ (forall col, In col (ef_Y_e f) -> length col = length idx).
Proof.
  intros crit c K mi l2 b Y idx f O L E. destruct (fanova_one_inv _ _ _ _ _ _ _ _ _ O L E) as (_ & _ & _ & E4 & _). rewrite E4.
  split; [rewrite map_length, seq_length; auto|]. intros col Hc. apply in_map_iff in Hc. destruct Hc as (i & <- & _).
  apply combine_columns_spec. intros v Hv. apply in_map_iff in Hv. destruct Hv as (w & <- & _). apply length_take_rows.
Qed.
End Fit.

Section Runs.
Variable solve : list (list R) -> list R -> result (list R).
Variable d_morph : list (list R) -> list (list (list R)) -> list R -> nat -> result (list R).
Variable crit : R -> nat -> Z -> option R.
Variable quantile : R -> fval.
Variable argsorts : nat -> list nat.
Notation run := (enhanced_analyze solve d_morph crit quantile argsorts).

(** The fit of each bootstrap. *)
Lemma run_fit : forall pb X Y mo p K sub mi la al ext h, 0 < cols X -> fst (run pb X Y mo p K sub mi la al ext) = Ok h ->
  exists first, first_columns (Z.to_nat p) X = Some first /\
  let c := core_of X mo p K sub ext in let b := extend_basis c (concat first) in
  mo = 2%Z /\ eo_core h = c /\ c_order c = 2 /\ length b = c_a_tnt c /\
  eo_idx h = e_rows (length (rows X)) (Z.to_nat K) (c_subset c) argsorts /\
  length (eo_fits h) = Z.to_nat K /\ length (eo_idx h) = Z.to_nat K /\ 1 <= Z.to_nat K /\
  forall k f idx, nth_error (eo_fits h) k = Some f -> nth_error (eo_idx h) k = Some idx ->
    fanova_one solve d_morph (crit al) c (Z.to_nat K) (Z.to_nat mi) la b Y idx = Ok f.
Proof.
  intros pb X Y mo p K sub mi la al ext h D E. apply run_inv in E; auto. destruct E as (A & -> & first & fits & F1 & M & F).
  exists first. split; auto. cbv zeta in *. set (c := core_of X 2 p K sub ext) in *.
  apply e_finalize_inv in F; [|reflexivity]. destruct F as (_ & F2 & F3 & F4 & _).
  destruct (first_columns_spec _ _ _ F1) as (L1 & L2 & _).
  assert (KB : (1 <= K <= 100)%Z) by (destruct A as (_ & _ & _ & _ & _ & _ & A & _); auto).
  assert (LI : length (eo_idx h) = Z.to_nat K).
  { rewrite F4. unfold e_rows. destruct (Nat.eqb_spec (Z.to_nat K) 1) as [->|]; [reflexivity|]. rewrite map_length, seq_length. auto. }
  split; auto. split; auto. split; auto.
  split; [apply basis_length; auto; cbn; lia|]. split; auto. split; [rewrite F3, (mapM_Ok_length _ _ M), <- F4; auto|]. split; auto. split; [lia|].
  intros k f idx Hf Hi. rewrite F3 in Hf. rewrite F4 in Hi. revert Hf Hi. clear - M. revert fits k M. generalize (e_rows (length (rows X)) (Z.to_nat K) (c_subset c) argsorts).
  induction l as [|i0 l IH]; intros fits k M Hf Hi; [destruct k; discriminate|]. cbn [mapM] in M.
  destruct (fanova_one _ _ _ _ _ _ _ _ _ i0) as [f0|] eqn:Q in M; [|discriminate]. cbn [bind] in M. destruct (mapM _ l) as [fs|] eqn:M1 in M; [|discriminate].
  cbn [bind] in M. injection M as <-. destruct k; cbn [nth_error] in *; [congruence|eapply IH; eauto].
Qed.

(** The rows of each bootstrap are rows of the sample, each at most once. *)
Lemma e_run_rows : forall pb X Y mo p K sub mi la al ext h, 0 < cols X -> fst (run pb X Y mo p K sub mi la al ext) = Ok h ->
  (forall k, Permutation (argsorts k) (seq 0 (length (rows X)))) ->
  forall idx, In idx (eo_idx h) -> length idx = e_subset (length (rows X)) K sub /\ 150 <= length idx /\ NoDup idx /\ forall i, In i idx -> i < length (rows X).
Proof.
  intros pb X Y mo p K sub mi la al ext h D E P idx Hi. pose proof (run_fit _ _ _ _ _ _ _ _ _ _ _ _ D E) as (first & _ & _ & _ & _ & _ & EI & _).
  apply run_inv in E; auto. destruct E as ((_ & _ & HN & _ & _ & _ & HK & HR & _) & _). rewrite EI in Hi. cbn [c_subset core_of] in Hi.
  set (N := length (rows X)) in *. unfold e_rows in Hi. unfold e_subset in *.
  destruct (Nat.eqb_spec (Z.to_nat K) 1) as [E1|E1].
  - destruct Hi as [<-|[]]. rewrite seq_length. assert (K = 1)%Z by lia. destruct (Z.eqb_spec K 1); [|lia].
    split; auto. split; [lia|]. split; [apply seq_NoDup|]. intros i Hi. apply in_seq in Hi. lia.
  - apply in_map_iff in Hi. destruct Hi as (k & <- & _). destruct (Z.eqb_spec K 1); [lia|].
    set (s := match sub with None => N / 2 | Some s => Z.to_nat s end) in *.
    assert (RB : 150 <= s <= N).
    { unfold s. destruct sub as [r|]; [specialize (HR r ltac:(auto) eq_refl); lia|].
      pose proof (Nat.div_le_mono 300 N 2 ltac:(lia) HN) as Q. change (300 / 2) with 150 in Q. pose proof (Nat.div_le_upper_bound N 2 N). lia. }
    assert (LA : length (argsorts k) = N) by (rewrite (Permutation_length (P k)); apply seq_length).
    rewrite firstn_length, LA. split; [lia|]. split; [lia|]. split.
    + assert (ND : NoDup (argsorts k)) by (eapply Permutation_NoDup; [apply Permutation_sym, P|apply seq_NoDup]).
      rewrite <- (firstn_skipn s (argsorts k)) in ND. clear - ND. revert ND. generalize (skipn s (argsorts k)) as t.
      induction (firstn s (argsorts k)) as [|x l IH]; intros t ND; [constructor|]. inversion ND; subst. constructor; [|eapply IH; eauto].
      intros Q. apply H1. apply in_app_iff; auto.
    + intros i Hi. assert (Hin : In i (argsorts k)) by (rewrite <- (firstn_skipn s (argsorts k)); apply in_app_iff; auto).
      apply (Permutation_in _ (P k)) in Hin. apply in_seq in Hin. lia.
Qed.

(** Each component function is a combination of the columns of its own term. *)
Lemma run_components : forall pb X Y mo p K sub mi la al ext h, 0 < cols X -> fst (run pb X Y mo p K sub mi la al ext) = Ok h ->
  exists first, first_columns (Z.to_nat p) X = Some first /\
  forall k f idx i t, nth_error (eo_fits h) k = Some f -> nth_error (eo_idx h) k = Some idx ->
    nth_error (hdmr_term_list (cols X) 2) i = Some t ->
    exists col x, nth_error (ef_Y_e f) i = Some col /\ length x = coefficient_count ext (Z.to_nat p) (length t) /\ length col = length idx /\
      forall r, r < length idx -> nth r col 0%R = Rsum (map2 (fun b v => nth (nth r idx 0%nat) b 0 * v)%R (own_columns ext (fun a => nth a first []) t) x).
Proof.
  intros pb X Y mo p K sub mi la al ext h D E. destruct (run_fit _ _ _ _ _ _ _ _ _ _ _ _ D E) as (first & F1 & Q). exists first. split; auto.
  cbv zeta in Q. set (c := core_of X mo p K sub ext) in *. destruct Q as (-> & _ & O & LB & _ & _ & _ & _ & Q).
  intros k f idx i t Hf Hi Ht. specialize (Q k f idx Hf Hi).
  destruct (first_columns_spec _ _ _ F1) as (L1 & L2 & _).
  apply fanova_one_inv in Q; [|lia|auto]. destruct Q as (LX & _ & _ & QE & _).
  assert (HI : i < c_nc_t c). { rewrite c_nc_t_hdmr, <- hdmr_n_length. apply nth_error_Some_lt in Ht. exact Ht. }
  set (b := extend_basis c (concat first)) in *.
  assert (ET : term_columns c b i = own_columns ext (fun a => nth a first []) t).
  { unfold b. rewrite term_columns_spec by (auto; lia). rewrite term_blocks_own by (first [exact L1 | left; lia]).
    change (all_terms c) with (hdmr_term_list (cols X) 2). rewrite (nth_indep _ _ (own_columns (c_ext c) (fun a => nth a first []) [])) by (rewrite map_length; apply nth_error_Some_lt in Ht; auto).
    rewrite map_nth. rewrite (nth_error_nth _ _ _ Ht). reflexivity. }
  exists (combine_columns (length idx) (map (take_rows 0%R idx) (term_columns c b i)) (term_columns c (ef_x f) i)), (term_columns c (ef_x f) i).
  split. { rewrite QE, nth_error_map', nth_error_seq. destruct (Nat.ltb_spec i (c_nc_t c)); [|lia]. reflexivity. }
  split. { rewrite term_columns_length by (auto; lia). apply (e_f_p_count c i t); auto. lia. }
  assert (W : forall v, In v (map (take_rows 0%R idx) (term_columns c b i)) -> length v = length idx).
  { intros v Hv. apply in_map_iff in Hv. destruct Hv as (w & <- & _). apply length_take_rows. }
  destruct (combine_columns_spec (length idx) _ (term_columns c (ef_x f) i) W) as (W1 & W2). split; auto. intros r Hr. rewrite W2 by auto. rewrite ET. f_equal.
  generalize (term_columns c (ef_x f) i). generalize (own_columns ext (fun a => nth a first []) t). clear - Hr.
  induction l as [|v l IH]; intros [|x xs]; cbn [map map2]; auto. f_equal; auto. f_equal. unfold take_rows.
  rewrite (nth_indep _ _ (nth (nth 0 idx 0) v 0%R)) by (rewrite map_length; auto). 
  rewrite (nth_indep _ _ ((fun i => nth i v 0%R) 0)) by (rewrite map_length; auto). rewrite (map_nth (fun i => nth i v 0%R)). auto.
Qed.

(** Each term is tested with its own number of coefficients. *)
Lemma run_signf : forall pb X Y mo p K sub mi la al ext h, 0 < cols X -> fst (run pb X Y mo p K sub mi la al ext) = Ok h ->
  forall i t, nth_error (hdmr_term_list (cols X) 2) i = Some t ->
  exists ds, length ds = Z.to_nat K /\ nth_error (eo_Signf h) i = Some (100 * mean (map (fun b : bool => if b then 1 else 0) ds))%R /\
    forall k f idx b, nth_error (eo_fits h) k = Some f -> nth_error (eo_idx h) k = Some idx -> nth_error ds k = Some b ->
      exists col, nth_error (ef_Y_e f) i = Some col /\
       (b = true <-> significant (crit al) (squares (centred Y idx)) (squares (map2 Rminus (centred Y idx) col)) (e_subset (length (rows X)) K sub)
          (coefficient_count ext (Z.to_nat p) (length t))).
Proof.
  intros pb X Y mo p K sub mi la al ext h D E i t Ht. pose proof (run_fit _ _ _ _ _ _ _ _ _ _ _ _ D E) as (first & F1 & Q).
  cbv zeta in Q. set (c := core_of X mo p K sub ext) in *. destruct Q as (-> & _ & O & LB & _ & LK & _ & _ & Q).
  assert (HI : i < c_nc_t c). { rewrite c_nc_t_hdmr, <- hdmr_n_length. apply nth_error_Some_lt in Ht. exact Ht. }
  exists (map (fun f => nth i (ef_signf f) false) (eo_fits h)). split; [rewrite map_length; auto|]. split.
  - apply run_inv in E; auto. destruct E as (_ & _ & first' & fits & _ & _ & F). apply e_finalize_inv in F; [|reflexivity]. cbv zeta in F.
    destruct F as (_ & _ & F3 & _ & _ & _ & _ & _ & F9 & _). rewrite F9, nth_error_map', nth_error_seq. fold c. destruct (Nat.ltb_spec i (c_nc_t c)); [|lia].
    cbn [option_map Nat.add]. rewrite F3, map_map. reflexivity.
  - intros k f idx b Hf Hi Hb. specialize (Q k f idx Hf Hi). rewrite nth_error_map', Hf in Hb. cbn [option_map] in Hb. injection Hb as <-.
    assert (O3 : 1 <= c_order c <= 3) by lia. pose proof (fit_columns _ _ _ _ _ _ _ _ _ _ _ O3 LB Q) as (LC & _).
    apply fanova_one_inv in Q; [|lia|auto]. destruct Q as (_ & _ & _ & _ & ES & _).
    destruct (nth_error_lt_Some (ef_Y_e f) (i := i)) as (col & Ec); [lia|]. exists col. split; auto.
    rewrite ES. rewrite (nth_error_nth _ _ _ (nth_e_f_test _ c _ _ _ _ Ec)). rewrite f_selected_spec. rewrite (e_f_p_count c i t) by (auto; lia). reflexivity.
Qed.

(** The gap between a term's total and its two parts is its covariance with what the emulator leaves. *)
Definition e_gap (Y : list R) (j : nat) (fi : efit * list nat) : R :=
  let y := centred Y (snd fi) in
  (cov1 (nth j (ef_Y_e (fst fi)) []) (vsub y (row_sums (length y) (ef_Y_e (fst fi)))) / var y)%R.

Lemma across_efits : forall (g : efit -> list fval) (fits : list efit) (idxs : list (list nat)) j, length idxs = length fits ->
  across (map g fits) j = map (fun fi => nth j (g (fst fi)) None) (combine fits idxs).
Proof.
  intros g fits. unfold across. induction fits as [|f fits IH]; intros [|i idxs] j L; try discriminate; [reflexivity|].
  cbn [map combine fst]. f_equal. apply IH. simpl in L. lia.
Qed.

Lemma centred_length : forall Y idx, length (centred Y idx) = length idx.
Proof. intros. unfold centred. rewrite !map_length. auto. Qed.
Lemma centred_var : forall Y idx, idx <> [] -> var (centred Y idx) = var (map (fun i => nth i Y 0%R) idx).
Proof.
  intros Y idx NE. unfold centred. set (l := map (fun i => nth i Y 0%R) idx). assert (NL : l <> []) by (unfold l; destruct idx; [congruence|discriminate]).
  cbv zeta. unfold var. rewrite (map_ext (fun v => v - mean l)%R (fun v => 1 * v + - mean l)%R) by (intros; ring).
  rewrite mean_map_affine by auto. rewrite map_map. f_equal. apply map_ext. intros. f_equal. ring.
Qed.

Lemma e_run_gap : forall pb X Y mo p K sub mi la al ext h, 0 < cols X -> fst (run pb X Y mo p K sub mi la al ext) = Ok h ->
  (forall k, Permutation (argsorts k) (seq 0 (length (rows X)))) ->
  (forall idx, In idx (eo_idx h) -> var (map (fun i => nth i Y 0%R) idx) <> 0%R) ->
  forall j, j < length (eo_Term h) ->
    exists s sa sb, nth_error (eo_S h) j = Some (Some s) /\ nth_error (eo_Sa h) j = Some (Some sa) /\ nth_error (eo_Sb h) j = Some (Some sb) /\
      (s - (sa + sb) = mean (map (e_gap Y j) (combine (eo_fits h) (eo_idx h))))%R.
Proof.
  intros pb X Y mo p K sub mi la al ext h D E P V j Hj.
  pose proof (e_run_rows _ _ _ _ _ _ _ _ _ _ _ _ D E P) as RR.
  pose proof (e_run_totals _ _ _ _ _ _ _ _ _ _ _ _ _ _ _ _ _ D E) as (ts & _ & _ & TL & LS & _). apply Forall2_length in TL.
  pose proof (run_fit _ _ _ _ _ _ _ _ _ _ _ _ D E) as (first & F1 & Q). cbv zeta in Q. set (c := core_of X mo p K sub ext) in *.
  destruct Q as (-> & _ & O & LB & _ & LK & LI & K1 & Q).
  apply run_inv in E; auto. destruct E as (_ & _ & first' & fits & _ & _ & F). apply e_finalize_inv in F; [|reflexivity]. cbv zeta in F. fold c in F.
  destruct F as (_ & _ & F3 & _ & F5 & F6 & F7 & _). subst fits.
  assert (HN : j < c_nc_t c). { rewrite F5, map_length, seq_length in LS. lia. }
  set (fi := combine (eo_fits h) (eo_idx h)) in *.
  assert (DD : forall q, In q fi -> exists s sa sb, nth j (ef_S (fst q)) None = Some s /\ nth j (ef_Sa (fst q)) None = Some sa /\
     nth j (ef_Sb (fst q)) None = Some sb /\ (s - (sa + sb) = e_gap Y j q)%R).
  { intros q Hq. apply combine_nth_error in Hq; [|congruence]. destruct Hq as (k & Hf & Hi).
    assert (Hin : In (snd q) (eo_idx h)) by (eapply nth_error_In; eauto). destruct (RR _ Hin) as (R1 & R2 & _).
    specialize (Q k _ _ Hf Hi). assert (O3 : 1 <= c_order c <= 3) by lia. pose proof (fit_columns _ _ _ _ _ _ _ _ _ _ _ O3 LB Q) as (LC & WC).
    apply fanova_one_inv in Q; [|lia|auto]. destruct Q as (_ & _ & _ & _ & _ & QA).
    destruct (nth_error_lt_Some (ef_Y_e (fst q)) (i := j)) as (col & Ec); [lia|].
    destruct (e_ancova_gap (centred Y (snd q)) (ef_Y_e (fst q)) j col) as (s & sa & sb & G).
    - rewrite centred_var by (destruct (snd q); [simpl in R2; lia|discriminate]). auto.
    - intros v Hv. rewrite centred_length. auto.
    - auto.
    - rewrite <- QA in G. destruct G as (G1 & G2 & G3 & _ & _ & G6). exists s, sa, sb.
      rewrite (nth_error_nth _ _ _ G1), (nth_error_nth _ _ _ G2), (nth_error_nth _ _ _ G3). split; auto. split; auto. split; auto.
      unfold e_gap. rewrite (nth_error_nth _ _ _ Ec). auto. }
  assert (G : forall g : efit -> list fval, (forall q, In q fi -> exists v, nth j (g (fst q)) None = Some v) ->
    nth_error (map (fun i => fmean (across (map g (eo_fits h)) i)) (seq 0 (c_nc_t c))) j = Some (Some (mean (map (fun q => val (nth j (g (fst q)) None)) fi)))).
  { intros g Hg. rewrite nth_error_map', nth_error_seq. destruct (Nat.ltb_spec j (c_nc_t c)); [|lia]. cbn [option_map Nat.add]. f_equal.
    rewrite (across_efits g (eo_fits h) (eo_idx h)) by congruence. fold fi. unfold fmean.
    rewrite (fall_some _ fi (fun q => nth j (g (fst q)) None) (fun q => val (nth j (g (fst q)) None))); auto.
    intros q Hq. destruct (Hg q Hq) as (v & Ev). rewrite Ev. reflexivity. }
  rewrite F5, F6, F7. eexists _, _, _. rewrite !G.
  - split; [reflexivity|]. split; [reflexivity|]. split; [reflexivity|]. rewrite mean_minus3. f_equal. apply map_ext_in.
    intros q Hq. destruct (DD q Hq) as (s & sa & sb & D1 & D2 & D3 & D4). rewrite D1, D2, D3. exact D4.
  - intros q Hq. destruct (DD q Hq) as (s & sa & sb & D1 & D2 & D3 & D4). eauto.
  - intros q Hq. destruct (DD q Hq) as (s & sa & sb & D1 & D2 & D3 & D4). eauto.
  - intros q Hq. destruct (DD q Hq) as (s & sa & sb & D1 & D2 & D3 & D4). eauto.
Qed.
End Runs.
