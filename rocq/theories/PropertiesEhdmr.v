(** * Enhanced HDMR: C53 - C58, C66, C69 - C72 for src/SALib/analyze/enhanced_hdmr.py. *)
From Coq Require Import Reals String List Arith ZArith Bool Lia Lra Psatz Sorted Permutation.
From Verif Require Import Base Arrays ListFacts ModelGroups ModelScale Stats Sums Det ModelFast ModelMorris ModelMorrisAnalyze ModelDgsm ModelPawn
  ModelHdmr SpecHdmr ProofsHdmr ProofsHdmr2 ProofsHdmr3 ProofsHdmr4 ProofsHdmr5 ProofsHdmr6 ModelEhdmr SpecEhdmr
  ProofsEhdmr ProofsEhdmr2 ProofsEhdmr3 ProofsEhdmr4 ProofsEhdmr5 ProofsEhdmr6 ProofsEhdmr7 ProofsEhdmr8.
Import ListNotations.
Local Open Scope nat_scope.

(** C53: an accepted call leaves in the problem's list of names the label of every term once, and a result has the same labels. *)
Theorem C53_ehdmr : forall solve d_morph crit quantile argsorts pb X Y maxorder poly K sub maxiter l2 alpha ext,
  fits pb (cols X) -> e_settings_ok (length (rows X)) (cols X) (length Y) maxorder poly K sub maxiter l2 alpha ext ->
  exists ts labels, term_list (cols X) (Z.to_nat maxorder) ts /\ term_count (cols X) (Z.to_nat maxorder) (length ts) /\
    Forall2 (label_of (names_used pb (cols X))) ts labels /\
    let r := enhanced_analyze solve d_morph crit quantile argsorts pb X Y maxorder poly K sub maxiter l2 alpha ext in
    e_names (snd r) = Some labels /\ forall h, fst r = Ok h -> eo_Term h = labels.
Proof.
  intros solve d_morph crit quantile argsorts pb X Y mo p K sub mi la al ext F S1.
  assert (A : e_accepted pb X Y mo p K sub mi la al ext) by (apply accepted_iff; auto).
  assert (NR : length (rows X) <> 0) by (destruct S1 as (_ & S1 & _); lia).
  assert (MO : 1 <= Z.to_nat mo <= 3) by (destruct S1 as (_ & _ & _ & S1 & _); lia).
  set (c := core_of X mo p K sub ext).
  exists (hdmr_term_list (cols X) (Z.to_nat mo)), (extended_names c (names_used pb (cols X))).
  split; [apply hdmr_term_list_spec; auto|]. split; [rewrite hdmr_n_length; apply hdmr_count; auto|].
  split.
  { apply (extended_names_spec c). unfold names_used. destruct (e_names pb) as [l|] eqn:E; [apply (proj1 F l E)|rewrite map_length, seq_length; auto]. }
  cbv zeta. rewrite run_accepted by auto. cbn [snd fst e_names]. rewrite names_filled by auto. split; auto.
  intros h E. unfold e_result in E. cbv zeta in E. destruct (basis_matrix _ _) in E; [|discriminate].
  destruct (mapM _ _) in E; [|discriminate]. cbn [bind] in E. unfold e_finalize in E. destruct (_ && _) in E; [discriminate|]. destruct (_ && _) in E; [discriminate|].
  injection E as <-. cbn [eo_Term]. rewrite names_filled by auto. reflexivity.
Qed.
Print Assumptions C53_ehdmr.

Example C53_ehdmr_labels : extended_names (mkCore 4 3 true 300 2) ["a"; "b"; "c"; "d"]%string =
  ["a"; "b"; "c"; "d"; "a/b"; "a/c"; "a/d"; "b/c"; "b/d"; "c/d"; "a/b/c"; "a/b/d"; "a/c/d"; "b/c/d"]%string.
Proof. reflexivity. Qed.

(** C54 for the runs that succeed (they have max_order 2). *)
Theorem C54_ehdmr_partial : forall solve d_morph crit quantile argsorts pb X Y maxorder poly K sub maxiter l2 alpha ext h, 0 < cols X ->
  fst (enhanced_analyze solve d_morph crit quantile argsorts pb X Y maxorder poly K sub maxiter l2 alpha ext) = Ok h ->
  exists ts, term_list (cols X) (Z.to_nat maxorder) ts /\ Forall2 (label_of (names_used pb (cols X))) ts (eo_Term h) /\
    (forall r v, r < cols X -> (nth_error (eo_ST h) r = Some (Some v) <-> sum_with ts r (eo_S h) v)) /\
    (forall r, cols X <= r < length ts -> nth_error (eo_ST h) r = Some None).
Proof.
  intros solve d_morph crit quantile argsorts pb X Y mo p K sub mi la al ext h D E.
  pose proof (run_inv _ _ _ _ _ _ _ _ _ _ _ _ _ _ _ _ _ D E) as (A & _). assert (NR : length (rows X) <> 0) by (destruct A as (_ & _ & A & _); lia).
  destruct (e_run_totals _ _ _ _ _ _ _ _ _ _ _ _ _ _ _ _ _ D E) as (ts & H1 & H2 & H3 & H4 & H5 & H6 & H7). rewrite names_filled in H3 by auto.
  exists ts. split; auto. split; auto. split; auto. intros r v Hr. destruct (H6 r Hr) as (js & N1 & N2 & EE). rewrite EE. split.
  - intros Q. injection Q as Q. apply fsum_Some in Q. destruct Q as (xs & F & ->). exists js. split; auto. split; auto. exists xs. auto.
  - intros (js' & N1' & N2' & xs & F & ->). f_equal.
    assert (P : Permutation js' js) by (apply NoDup_Permutation; auto; intros j; rewrite N2, N2'; tauto).
    assert (Q : fsum (map (fun j => nth j (eo_S h) None) js') = Some (Rsum xs)) by (apply fsum_Some; eauto).
    unfold fsum in *. destruct (all_some (map (fun j => nth j (eo_S h) None) js')) as [l'|] eqn:A'; [|discriminate]. injection Q as <-.
    assert (PM : Permutation (map (fun j => nth j (eo_S h) None) js') (map (fun j => nth j (eo_S h) None) js)) by (apply Permutation_map; auto).
    apply ProofsMorris7.all_some_inv in A'. rewrite A' in PM. apply Permutation_sym, Permutation_map_inv in PM. destruct PM as (l & El & Pl).
    rewrite El, (fall_some _ l Some (fun x => x)) by auto. rewrite map_id. f_equal. apply Rsum_perm. apply Permutation_sym. auto.
Qed.
Print Assumptions C54_ehdmr_partial.

(** C54 is false of max_order 1 and 3: no call reports any index, whatever the data. *)
Theorem C54_ehdmr_refuted : forall solve d_morph crit quantile argsorts pb X Y maxorder poly K sub maxiter l2 alpha ext, 0 < cols X ->
  maxorder <> 2%Z ->
  exists e, fst (enhanced_analyze solve d_morph crit quantile argsorts pb X Y maxorder poly K sub maxiter l2 alpha ext) = Err e.
Proof.
  intros solve d_morph crit quantile argsorts pb X Y mo p K sub mi la al ext D N.
  destruct (fst (enhanced_analyze solve d_morph crit quantile argsorts pb X Y mo p K sub mi la al ext)) as [h|e] eqn:E; [|eauto].
  apply run_inv in E; auto. destruct E as (_ & E & _). contradiction.
Qed.
Print Assumptions C54_ehdmr_refuted.

(** 300 samples of two parameters. *)
Definition ex_sample : mat R := mkMat 2 (map (fun i => [INR i; - INR i]%R) (seq 0 300)).
Definition ex_out : list R := map INR (seq 0 300).
Definition ex_problem : eproblem := mkEproblem (Some ["a"; "b"]%string) None None.
Lemma ex_settings : forall maxorder ext, (1 <= maxorder <= 3)%Z -> e_settings_ok (length (rows ex_sample)) (cols ex_sample) (length ex_out) maxorder 2 1 None 100 (1 / 100) (95 / 100) ext.
Proof.
  intros mo ext H. unfold e_settings_ok. cbn [ex_sample rows cols]. unfold ex_out. rewrite !map_length, !seq_length.
  repeat split; try lia; try lra; try discriminate.
Qed.
Lemma ex_fits : fits ex_problem (cols ex_sample).
Proof. unfold fits, problem_fits. cbn. split; [|split]; intros q Q; try discriminate. injection Q as <-. reflexivity. Qed.
Lemma ex_wf : wf_mat ex_sample.
Proof. apply Forall_forall. intros r Hr. cbn [rows ex_sample] in Hr. apply in_map_iff in Hr. destruct Hr as (i & <- & _). reflexivity. Qed.
Lemma ex_values : forall j, j < cols ex_sample -> distinct_values 3 (column (rows ex_sample) j).
Proof.
  intros j Hj. cbn [ex_sample rows cols] in *. set (l := column _ _).
  assert (E : exists f : nat -> R, (f 0 <> f 1 /\ f 0 <> f 2 /\ f 1 <> f 2) /\ l = map f (seq 0 300)).
  { unfold l, column. generalize (seq 0 300). intros s. destruct j as [|[|j]]; [| |lia].
    - exists INR. split; [simpl; repeat split; lra|]. induction s; cbn; [|f_equal]; auto.
    - exists (fun i => - INR i)%R. split; [simpl; repeat split; lra|]. induction s; cbn; [|f_equal]; auto. }
  destruct E as (f & (N1 & N2 & N3) & E). exists [f 0; f 1; f 2]. split; [|split; auto].
  - repeat constructor; simpl; intuition congruence.
  - rewrite E. intros x [<-|[<-|[<-|[]]]]; apply in_map, in_seq; lia.
Qed.
(** A run of order 2 succeeds, for instance with a solver that returns its right-hand side. *)
Example C54_ehdmr_runs : exists h, fst (enhanced_analyze (fun _ b => Ok b) (fun B _ _ _ => Ok (repeat 0%R (length B))) (fun _ _ _ => Some 3%R) (fun _ => Some 2%R)
  (fun _ => seq 0 300) ex_problem ex_sample ex_out 2 2 1 None 100 (1 / 100) (95 / 100) false) = Ok h.
Proof.
  apply run_succeeds.
  - intros A b. eauto.
  - intros B C y k. eexists. split; [reflexivity|]. apply repeat_length.
  - apply accepted_iff. split; [apply ex_fits|apply ex_settings; lia].
  - apply ex_wf.
  - apply ex_values.
Qed.
(** The same call with max_order 1 raises AttributeError. *)
Example C54_ehdmr_first_order : fst (enhanced_analyze (fun _ b => Ok b) (fun B _ _ _ => Ok (repeat 0%R (length B))) (fun _ _ _ => Some 3%R) (fun _ => Some 2%R)
  (fun _ => seq 0 300) ex_problem ex_sample ex_out 1 2 1 None 100 (1 / 100) (95 / 100) true) = Err AttributeError.
Proof.
  rewrite run_accepted by (apply accepted_iff; split; [apply ex_fits|apply ex_settings; lia]). cbn [fst]. unfold e_result. cbv zeta.
  destruct (proj2 (first_columns_iff 2 ex_sample ltac:(lia) ex_wf ltac:(discriminate)) ex_values) as (f & F).
  unfold basis_matrix. change (c_p (core_of ex_sample 1 2 1 None true)) with 2. rewrite F. destruct (first_columns_spec _ _ _ F) as (L1 & L2 & _).
  unfold e_rows. change (Z.to_nat 1 =? 1) with true. cbv iota. cbn [mapM]. unfold fanova_one. cbv zeta.
  unfold coefficients. cbn [core_of c_ext bind]. rewrite repeat_length, map_length.
  rewrite (basis_length (core_of ex_sample 1 2 1 None true) f L1 L2 ltac:(cbn; lia)), Nat.eqb_refl. cbn [bind]. reflexivity.
Qed.

(** C55: every term is tested with the number of coefficients of its own order (in runs of every order). *)
Theorem C55_ehdmr : forall solve d_morph crit quantile argsorts pb X Y maxorder poly K sub maxiter l2 alpha ext h, 0 < cols X ->
  fst (enhanced_analyze solve d_morph crit quantile argsorts pb X Y maxorder poly K sub maxiter l2 alpha ext) = Ok h ->
  exists ts, term_list (cols X) (Z.to_nat maxorder) ts /\ Forall2 (label_of (names_used pb (cols X))) ts (eo_Term h) /\
  forall i t, nth_error ts i = Some t ->
    exists ds, length ds = Z.to_nat K /\ nth_error (eo_Signf h) i = Some (100 * mean (map (fun b : bool => if b then 1 else 0) ds))%R /\
    forall k f rows_k b, nth_error (eo_fits h) k = Some f -> nth_error (eo_idx h) k = Some rows_k -> nth_error ds k = Some b ->
      exists col, nth_error (ef_Y_e f) i = Some col /\
        let Yk := map (fun j => nth j Y 0%R) rows_k in let y := map (fun v => v - mean Yk)%R Yk in
        (b = true <-> significant (crit alpha) (squares y) (squares (map2 Rminus y col)) (e_subset (length (rows X)) K sub)
          (coefficient_count ext (Z.to_nat poly) (length t))).
Proof.
  intros solve d_morph crit quantile argsorts pb X Y mo p K sub mi la al ext h D E.
  pose proof (run_inv _ _ _ _ _ _ _ _ _ _ _ _ _ _ _ _ _ D E) as (A & M2 & _).
  destruct (proj1 (accepted_iff _ _ _ _ _ _ _ _ _ _ _) A) as (F & S1).
  exists (hdmr_term_list (cols X) (Z.to_nat mo)). assert (MO : 1 <= Z.to_nat mo <= 3) by lia. split; [apply hdmr_term_list_spec; auto|].
  split.
  - rewrite run_accepted in E by auto. cbn [fst] in E. unfold e_result in E. cbv zeta in E. destruct (basis_matrix _ _) in E; [|discriminate].
    destruct (mapM _ _) in E; [|discriminate]. cbn [bind] in E. apply e_finalize_inv in E; [|cbn; lia]. destruct E as (-> & _).
    rewrite names_filled by (destruct S1 as (_ & S1 & _); lia). apply (extended_names_spec (core_of X mo p K sub ext)).
    unfold names_used. destruct (e_names pb) as [nm|] eqn:Q; [apply (proj1 F nm Q)|rewrite map_length, seq_length; auto].
  - intros i t Ht. rewrite M2 in Ht. apply (run_signf _ _ _ _ _ _ _ _ _ _ _ _ _ _ _ _ _ D E i t Ht).
Qed.
Print Assumptions C55_ehdmr.
(** The count used for term [i] whatever the order of the run. *)
Theorem C55_ehdmr_counts : forall c, 1 <= c_order c <= 3 ->
  exists ts, term_list (c_d c) (c_order c) ts /\ forall i t, nth_error ts i = Some t -> e_f_p c i = coefficient_count (c_ext c) (c_p c) (length t).
Proof. intros c O. exists (hdmr_term_list (c_d c) (c_order c)). split; [apply hdmr_term_list_spec; auto|]. intros i t Ht. apply e_f_p_count; auto. Qed.
Print Assumptions C55_ehdmr_counts.
Example C55_ehdmr_example : map (e_f_p (mkCore 3 3 true 300 2)) (seq 0 7) = [2; 2; 2; 8; 8; 8; 26] /\ map (e_f_p (mkCore 3 3 false 300 2)) (seq 0 7) = [2; 2; 2; 4; 4; 4; 8].
Proof. split; reflexivity. Qed.

(** C56 is false: an accepted call of order above 1 changes the names in the caller's problem, and every later call with that
    problem and sample raises ValueError. *)
Theorem C56_ehdmr_refuted : forall solve d_morph crit quantile argsorts pb X Y maxorder poly K sub maxiter l2 alpha ext, 0 < cols X -> (1 < maxorder)%Z ->
  fits pb (cols X) -> e_settings_ok (length (rows X)) (cols X) (length Y) maxorder poly K sub maxiter l2 alpha ext ->
  let pb' := snd (enhanced_analyze solve d_morph crit quantile argsorts pb X Y maxorder poly K sub maxiter l2 alpha ext) in
  e_names pb' <> e_names pb /\
  forall Y' maxorder' poly' K' sub' maxiter' l2' alpha' ext',
    fst (enhanced_analyze solve d_morph crit quantile argsorts pb' X Y' maxorder' poly' K' sub' maxiter' l2' alpha' ext') = Err ValueError.
Proof.
  intros solve d_morph crit quantile argsorts pb X Y mo p K sub mi la al ext D O F S1 pb'.
  assert (A : e_accepted pb X Y mo p K sub mi la al ext) by (apply accepted_iff; auto).
  assert (NR : length (rows X) <> 0) by (destruct S1 as (_ & S1 & _); lia). split.
  - destruct (second_call solve d_morph crit quantile argsorts pb X Y mo p K sub mi la al ext Y mo p K sub mi la al ext D O A) as (_ & N). fold pb' in N.
    intros Q. apply N. rewrite Q. pose proof (fill_fields X pb ltac:(rewrite fill_ok by auto; reflexivity)) as (F1 & _). rewrite F1.
    destruct (e_names pb) eqn:EN; auto. exfalso. unfold pb' in Q. rewrite run_accepted in Q by auto. cbn in Q. discriminate.
  - intros. destruct (second_call solve d_morph crit quantile argsorts pb X Y mo p K sub mi la al ext Y' maxorder' poly' K' sub' maxiter' l2' alpha' ext' D O A) as (H & _).
    fold pb' in H. rewrite H. reflexivity.
Qed.
Print Assumptions C56_ehdmr_refuted.
(** A rejected call changes the problem only by adding missing entries; max_order 1 keeps the names. *)
Theorem C56_ehdmr_rejected : forall solve d_morph crit quantile argsorts pb X Y maxorder poly K sub maxiter l2 alpha ext,
  ~ (fits pb (cols X) /\ e_settings_ok (length (rows X)) (cols X) (length Y) maxorder poly K sub maxiter l2 alpha ext) \/ maxorder = 1%Z ->
  let pb' := snd (enhanced_analyze solve d_morph crit quantile argsorts pb X Y maxorder poly K sub maxiter l2 alpha ext) in
  (forall l, e_names pb = Some l -> e_names pb' = Some l) /\ (forall b, e_bounds pb = Some b -> e_bounds pb' = Some b) /\
  (forall n, e_num pb = Some n -> e_num pb' = Some n).
Proof.
  intros solve d_morph crit quantile argsorts pb X Y mo p K sub mi la al ext H.
  assert (FI : (forall l, e_names pb = Some l -> e_names (filled X pb) = Some l) /\ (forall b, e_bounds pb = Some b -> e_bounds (filled X pb) = Some b) /\
    (forall n, e_num pb = Some n -> e_num (filled X pb) = Some n)).
  { unfold filled, fill_problem. destruct (e_bounds pb) as [b|] eqn:EB; [|destruct (_ && _)]; cbn [snd e_names e_bounds e_num];
      (split; [|split]; intros q Q; try discriminate; rewrite Q; auto); rewrite <- Q; auto. }
  cbv zeta. destruct (accepted_dec crit quantile argsorts pb X Y mo p K sub mi la al ext) as [A|A].
  - destruct H as [H| ->]; [exfalso; apply H, accepted_iff; auto|]. rewrite run_accepted by auto. cbn [snd e_names e_bounds e_num].
    destruct FI as (F1 & F2 & F3). split; [|split]; auto. intros l Q. unfold extended_names. cbn [core_of c_order Z.to_nat Pos.to_nat Pos.iter_op Nat.add Nat.ltb Nat.leb Nat.eqb].
    rewrite !app_nil_r. unfold names_of. rewrite (F1 l Q). auto.
  - destruct (run_rejected solve d_morph crit quantile argsorts _ _ _ _ _ _ _ _ _ _ _ A) as (e & Q & _). rewrite Q. exact FI.
Qed.
Print Assumptions C56_ehdmr_rejected.
Example C56_ehdmr_example : e_names (snd (enhanced_analyze (fun _ b => Ok b) (fun B _ _ _ => Ok (repeat 0%R (length B))) (fun _ _ _ => Some 3%R) (fun _ => Some 2%R)
  (fun _ => seq 0 300) ex_problem ex_sample ex_out 2 2 1 None 100 (1 / 100) (95 / 100) false)) = Some ["a"; "b"; "a/b"]%string.
Proof. rewrite run_accepted by (apply accepted_iff; split; [apply ex_fits|apply ex_settings; lia]). reflexivity. Qed.

(** C57 for runs up to order 2, for bases that are not extended and for three parameters: [first] are the first-order columns by
    parameter.  What is missing are the extended third-order blocks of four parameters or more. *)
Theorem C57_ehdmr_partial : forall c X first, 1 <= c_order c <= 3 -> c_d c = cols X -> first_columns (c_p c) X = Some first ->
  c_order c <> 3 \/ c_ext c = false \/ c_d c = 3 ->
  exists ts, term_list (c_d c) (c_order c) ts /\
    basis_matrix c X = Some (concat (map (own_columns (c_ext c) (fun a => nth a first [])) ts)).
Proof.
  intros c X first O D F H. exists (hdmr_term_list (c_d c) (c_order c)). split; [apply hdmr_term_list_spec; auto|].
  destruct (first_columns_spec _ _ _ F) as (L1 & L2 & _). unfold basis_matrix. rewrite F.
  rewrite extend_basis_spec, term_blocks_own by (auto; congruence). reflexivity.
Qed.
Print Assumptions C57_ehdmr_partial.
(** C57 in a run: each component function combines the columns of its own parameters. *)
Theorem C57_ehdmr_components : forall solve d_morph crit quantile argsorts pb X Y maxorder poly K sub maxiter l2 alpha ext h, 0 < cols X ->
  fst (enhanced_analyze solve d_morph crit quantile argsorts pb X Y maxorder poly K sub maxiter l2 alpha ext) = Ok h ->
  exists ts first, term_list (cols X) 2 ts /\ Forall2 (label_of (names_used pb (cols X))) ts (eo_Term h) /\
  first_columns (Z.to_nat poly) X = Some first /\
  forall k f rows_k i t, nth_error (eo_fits h) k = Some f -> nth_error (eo_idx h) k = Some rows_k -> nth_error ts i = Some t ->
    exists col x, nth_error (ef_Y_e f) i = Some col /\ length x = coefficient_count ext (Z.to_nat poly) (length t) /\ length col = length rows_k /\
      forall r, r < length rows_k ->
        nth r col 0%R = Rsum (map2 (fun b v => nth (nth r rows_k 0%nat) b 0 * v)%R (own_columns ext (fun a => nth a first []) t) x).
Proof.
  intros solve d_morph crit quantile argsorts pb X Y mo p K sub mi la al ext h D E.
  pose proof (run_inv _ _ _ _ _ _ _ _ _ _ _ _ _ _ _ _ _ D E) as (A & M2 & _).
  destruct (proj1 (accepted_iff _ _ _ _ _ _ _ _ _ _ _) A) as (F & S1).
  destruct (run_components _ _ _ _ _ _ _ _ _ _ _ _ _ _ _ _ _ D E) as (first & F1 & Q).
  exists (hdmr_term_list (cols X) 2), first. split; [apply hdmr_term_list_spec; lia|]. split; [|split; auto].
  rewrite run_accepted in E by auto. cbn [fst] in E. unfold e_result in E. cbv zeta in E. destruct (basis_matrix _ _) in E; [|discriminate].
  destruct (mapM _ _) in E; [|discriminate]. cbn [bind] in E. apply e_finalize_inv in E; [|subst mo; reflexivity]. destruct E as (-> & _).
  rewrite names_filled by (destruct S1 as (_ & S1 & _); lia). subst mo. apply (extended_names_spec (core_of X 2 p K sub ext)).
  unfold names_used. destruct (e_names pb) as [nm|] eqn:N; [apply (proj1 F nm N)|rewrite map_length, seq_length; auto].
Qed.
Print Assumptions C57_ehdmr_components.
(** C57 is false of the extended basis of order 3 for four parameters or more: the block of the first triple has the products of
    the parameters 0 and 3 in the place of those of 1 and 2. *)
Theorem C57_ehdmr_refuted : forall c X first, c_order c = 3 -> c_ext c = true -> 4 <= c_d c -> c_d c = cols X -> first_columns (c_p c) X = Some first ->
  let phi a := nth a first [] in let i := c_nc1 c + c_nc2 c in
  exists b, basis_matrix c X = Some b /\ nth_error (hdmr_term_list (c_d c) 3) i = Some [0; 1; 2] /\
    term_columns c b i = phi 0 ++ phi 1 ++ phi 2 ++ products (phi 0) (phi 1) ++ products (phi 0) (phi 2) ++ products (phi 0) (phi 3)
      ++ products (products (phi 0) (phi 1)) (phi 2).
Proof.
  intros c X first O EX D4 D F phi i. destruct (first_columns_spec _ _ _ F) as (L1 & L2 & _).
  eexists. split; [unfold basis_matrix; rewrite F; reflexivity|].
  assert (C2 : c_nc2 c = length (hdmr_c2 (c_d c) 3)) by (unfold c_nc2, hdmr_c2; rewrite O; cbn [Nat.ltb Nat.leb]; rewrite comb_length, seq_length; auto).
  assert (C3 : exists r, hdmr_c3 (c_d c) 3 = [0; 1; 2] :: r).
  { unfold hdmr_c3. cbn [Nat.eqb]. destruct (c_d c) as [|[|[|q]]]; try lia. cbn [seq combinations map app]. eauto. }
  destruct C3 as (r & C3). split.
  - unfold hdmr_term_list, i, c_nc1. rewrite nth_error_app2; rewrite map_length, seq_length; [|lia]. rewrite nth_error_app2; [|lia].
    rewrite C2. replace (c_d c + length (hdmr_c2 (c_d c) 3) - c_d c - length (hdmr_c2 (c_d c) 3)) with 0 by lia. rewrite C3. reflexivity.
  - rewrite term_columns_spec; [|congruence|auto|lia|].
    2:{ unfold i, c_nc_t. assert (1 <= c_nc3 c); [|lia]. unfold c_nc3. rewrite O. cbn [Nat.eqb]. rewrite <- (seq_length (c_d c) 0), <- comb_length.
        unfold hdmr_c3 in C3. cbn [Nat.eqb] in C3. rewrite C3. simpl. lia. }
    unfold term_blocks. rewrite O. cbn [Nat.ltb Nat.leb Nat.eqb].
    assert (LS : length (second_terms c) = c_nc2 c) by (rewrite C2; reflexivity).
    rewrite app_nth2; rewrite map_length, seq_length; [|unfold i, c_nc1; lia]. rewrite app_nth2; rewrite map_length, LS; [|unfold i, c_nc1; lia].
    unfold i, c_nc1. replace (c_d c + c_nc2 c - c_d c - c_nc2 c) with 0 by lia.
    unfold third_terms. unfold hdmr_c3 in C3. cbn [Nat.eqb] in C3. rewrite C3. cbn [map nth third_columns]. rewrite EX.
    assert (SE : exists r, second_terms c = [0; 1] :: [0; 2] :: [0; 3] :: r).
    { unfold second_terms. destruct (c_d c) as [|[|[|[|q]]]]; try lia. cbn [seq combinations map app]. eauto. }
    destruct SE as (r' & SE). unfold pair_products. rewrite SE. cbn [nth]. rewrite <- !app_assoc. reflexivity.
Qed.
Print Assumptions C57_ehdmr_refuted.
Example C57_ehdmr_example : forall phi0 phi1 phi2 phi3 : list R, map2 Rmult phi0 phi3 <> map2 Rmult phi1 phi2 ->
  let first := [[phi0]; [phi1]; [phi2]; [phi3]] in let c := mkCore 4 3 true 300 1 in
  nth 10 (term_blocks c first) [] <> own_columns true (fun a => nth a first []) [0; 1; 2].
Proof. intros phi0 phi1 phi2 phi3 H first c Q. cbn in Q. injection Q as Q. auto. Qed.

(** C58: the total differs from the two parts by the covariance of the term with the residual of the fit. *)
Theorem C58_ehdmr_partial : forall solve d_morph crit quantile argsorts pb X Y maxorder poly K sub maxiter l2 alpha ext h, 0 < cols X ->
  fst (enhanced_analyze solve d_morph crit quantile argsorts pb X Y maxorder poly K sub maxiter l2 alpha ext) = Ok h ->
  (forall k, Permutation (argsorts k) (seq 0 (length (rows X)))) ->
  (forall rows_k, In rows_k (eo_idx h) -> var (map (fun i => nth i Y 0%R) rows_k) <> 0%R) ->
  forall j, j < length (eo_Term h) ->
    exists s sa sb gaps, nth_error (eo_S h) j = Some (Some s) /\ nth_error (eo_Sa h) j = Some (Some sa) /\ nth_error (eo_Sb h) j = Some (Some sb) /\
      (s - (sa + sb) = mean gaps)%R /\
      Forall2 (fun (fr : efit * list nat) g => let Yk := map (fun i => nth i Y 0%R) (snd fr) in
        exists col c, nth_error (ef_Y_e (fst fr)) j = Some col /\
          covariance col (map (fun i => nth i Yk 0 - mean Yk - Rsum (map (fun e => nth i e 0) (ef_Y_e (fst fr))))%R (seq 0 (length Yk))) c /\
          (g = c / var Yk)%R) (combine (eo_fits h) (eo_idx h)) gaps.
Proof.
  intros solve d_morph crit quantile argsorts pb X Y mo p K sub mi la al ext h D E P V j Hj.
  destruct (e_run_gap _ _ _ _ _ _ _ _ _ _ _ _ _ _ _ _ _ D E P V j Hj) as (s & sa & sb & H1 & H2 & H3 & H4).
  exists s, sa, sb, (map (e_gap Y j) (combine (eo_fits h) (eo_idx h))). split; auto. split; auto. split; auto. split; auto.
  pose proof (e_run_rows _ _ _ _ _ _ _ _ _ _ _ _ _ _ _ _ _ D E P) as RR.
  pose proof (e_run_totals _ _ _ _ _ _ _ _ _ _ _ _ _ _ _ _ _ D E) as (ts & _ & _ & TL & LS & _). apply Forall2_length in TL.
  pose proof (run_fit _ _ _ _ _ _ _ _ _ _ _ _ _ _ _ _ _ D E) as (first & F1 & Q). cbv zeta in Q. set (c := core_of X mo p K sub ext) in *.
  destruct Q as (-> & _ & O & LB & _ & LK & LI & K1 & Q).
  apply run_inv in E; auto. destruct E as (_ & _ & first' & fits & _ & _ & F). apply e_finalize_inv in F; [|reflexivity]. cbv zeta in F. fold c in F.
  destruct F as (_ & _ & _ & _ & F5 & _).
  assert (HN : j < c_nc_t c). { rewrite F5, map_length, seq_length in LS. lia. }
  match goal with |- Forall2 ?R _ _ => assert (G : forall l, incl l (combine (eo_fits h) (eo_idx h)) -> Forall2 R l (map (e_gap Y j) l)) end.
  { induction l as [|q l IH]; intros I; [constructor|]. cbn [map]. constructor.
    - cbv zeta. assert (Hp : In q (combine (eo_fits h) (eo_idx h))) by (apply I; left; auto).
      apply combine_nth_error in Hp; [|congruence]. destruct Hp as (k & Hf & Hi).
      assert (Hin : In (snd q) (eo_idx h)) by (eapply nth_error_In; eauto). destruct (RR _ Hin) as (R1 & R2 & _).
      specialize (Q k _ _ Hf Hi). apply fit_columns in Q; [|lia|auto]. destruct Q as (LY & CL).
      destruct (nth_error_lt_Some (ef_Y_e (fst q)) (i := j)) as (col & Ec); [lia|].
      assert (Lc : length col = length (snd q)) by (apply CL; eapply nth_error_In; eauto).
      destruct (row_sums_spec (length (snd q)) (ef_Y_e (fst q)) CL) as (RL & RN).
      assert (ER : vsub (centred Y (snd q)) (row_sums (length (snd q)) (ef_Y_e (fst q))) =
        map (fun i => nth i (map (fun i => nth i Y 0%R) (snd q)) 0 - mean (map (fun i => nth i Y 0%R) (snd q)) - Rsum (map (fun e => nth i e 0) (ef_Y_e (fst q))))%R
          (seq 0 (length (map (fun i => nth i Y 0%R) (snd q))))).
      { apply (nth_ext _ _ 0%R 0%R).
        - unfold vsub. rewrite length_map2, centred_length, RL, !map_length, seq_length. lia.
        - intros i Hi'. unfold vsub in Hi'. rewrite length_map2, centred_length, RL, Nat.min_id in Hi'.
          rewrite nth_seq_map by (rewrite map_length; auto). unfold vsub. rewrite nth_map2R by (rewrite ?centred_length, ?RL; auto). rewrite RN by auto.
          f_equal. unfold centred. cbv zeta. set (l0 := map (fun i => nth i Y 0%R) (snd q)).
          rewrite (nth_indep _ 0%R (0 - mean l0)%R) by (unfold l0; rewrite !map_length; auto). rewrite (map_nth (fun v => v - mean l0)%R). reflexivity. }
      exists col, (cov1 col (vsub (centred Y (snd q)) (row_sums (length (snd q)) (ef_Y_e (fst q))))). split; auto. split.
      + rewrite <- ER. apply cov1_covariance; [|lia]. unfold vsub. rewrite length_map2, centred_length, RL. lia.
      + unfold e_gap. cbv zeta. rewrite (nth_error_nth _ _ _ Ec), centred_length, centred_var by (intros Z; rewrite Z in *; simpl in *; lia). reflexivity.
    - apply IH. intros x Hx. apply I. right; auto. }
  apply G. apply incl_refl.
Qed.
Print Assumptions C58_ehdmr_partial.
(** The parts add up for a fit that reproduces the output. *)
Theorem C58_ehdmr_exact : forall Y Y_e j y, var Y <> 0%R -> 2 <= length Y -> (forall c, In c Y_e -> length c = length Y) -> nth_error Y_e j = Some y ->
  (exists t, forall i, i < length Y -> (nth i Y 0 - Rsum (map (fun c => nth i c 0) Y_e) = t)%R) ->
  exists s sa sb, let '(St, Sa, Sb) := e_ancova Y Y_e in
    nth_error St j = Some (Some s) /\ nth_error Sa j = Some (Some sa) /\ nth_error Sb j = Some (Some sb) /\ s = (sa + sb)%R.
Proof.
  intros Y Y_e j y V L2 H E (t & Ht). destruct (e_ancova_gap Y Y_e j y V H E) as (s & sa & sb & G). exists s, sa, sb.
  destruct (e_ancova Y Y_e) as ((St & Sa) & Sb). destruct G as (G1 & G2 & G3 & _ & _ & G4). split; auto. split; auto. split; auto.
  assert (Z : cov1 y (vsub Y (row_sums (length Y) Y_e)) = 0%R).
  { destruct (row_sums_spec (length Y) Y_e H) as (RL & RN).
    assert (EC : vsub Y (row_sums (length Y) Y_e) = map (fun _ => t) Y).
    { apply (nth_ext _ _ 0%R 0%R); [unfold vsub; rewrite length_map2, RL, map_length; lia|]. intros i Hi. unfold vsub in Hi. rewrite length_map2, RL, Nat.min_id in Hi.
      unfold vsub. rewrite nth_map2R by (rewrite ?RL; auto). rewrite RN, Ht by auto. rewrite (nth_indep _ 0%R t) by (rewrite map_length; auto).
      symmetry. apply (map_nth (fun _ => t) Y 0%R). }
    rewrite EC. unfold cov1. replace (mean (map (fun _ => t) Y)) with t.
    - assert (ZZ : forall a b : list R, Rsum (map2 (fun u v => (u - mean y) * (v - t))%R a (map (fun _ => t) b)) = 0%R).
      { intros a b. revert a. induction b as [|b0 b IHb]; intros [|u a]; cbn; auto; try reflexivity. change (Rsum (?u :: ?v)) with (u + Rsum v)%R. rewrite IHb. ring. }
      rewrite ZZ. unfold Rdiv. ring.
    - unfold mean. rewrite Rsum_const, map_length. field. apply not_0_INR. lia. }
  rewrite Z in G4. unfold Rdiv in G4. lra.
Qed.
Print Assumptions C58_ehdmr_exact.
(** C58 is false of other fits: the output -1, 1 and a term -1/2, 1/2 give the total 1 and the parts 1/2 and 0. *)
Theorem C58_ehdmr_refuted : exists Y Y_e s sa sb, e_ancova Y Y_e = ([Some s], [Some sa], [Some sb]) /\ (s <> sa + sb)%R.
Proof.
  exists [-1; 1]%R, [[- (1 / 2); 1 / 2]]%R, 1%R, (1 / 2)%R, 0%R. split; [|lra].
  assert (V : var [-1; 1]%R = 1%R) by (unfold var, mean, Rsum; simpl; field).
  unfold e_ancova, fdiv. rewrite V. assert (Q : Reqb 1 0 = false) by (destruct (Reqb 1 0) eqn:B; auto; apply Reqb_true in B; lra). cbn [map]. rewrite Q.
  assert (E1 : cov1 [- (1 / 2); 1 / 2]%R [-1; 1]%R = 1%R) by (unfold cov1, mean, Rsum; simpl; field).
  assert (E2 : cov1 [- (1 / 2); 1 / 2]%R [- (1 / 2); 1 / 2]%R = (1 / 2)%R) by (unfold cov1, mean, Rsum; simpl; field).
  assert (E3 : cov1 [- (1 / 2); 1 / 2]%R (vsub (row_sums (length [-1; 1]%R) [[- (1 / 2); 1 / 2]]%R) [- (1 / 2); 1 / 2]%R) = 0%R)
    by (unfold cov1, row_sums, vadd, vsub, mean, Rsum; simpl; field).
  rewrite E1, E2, E3. unfold Rdiv. rewrite Rinv_1, !Rmult_1_r. reflexivity.
Qed.
Print Assumptions C58_ehdmr_refuted.

(** C66: without bootstrap, the emulator evaluated on the analysed samples gives the fitted values of the output minus its mean
    (the mean is not added). *)
Theorem C66_ehdmr_training_partial : forall solve d_morph crit quantile argsorts pb X Y maxorder poly sub maxiter l2 alpha ext h, 0 < cols X -> wf_mat X ->
  fst (enhanced_analyze solve d_morph crit quantile argsorts pb X Y maxorder poly 1 sub maxiter l2 alpha ext) = Ok h ->
  exists f, eo_fits h = [f] /\ ef_y f = map (fun v => v - mean Y)%R Y /\
    e_emulate h X = map Some (row_sums (length Y) (ef_Y_e f)).
Proof. intros. eapply e_training; eauto. Qed.
Print Assumptions C66_ehdmr_training_partial.
(** C66 is false of other points: as for hdmr.py, increasing affine maps of the coordinates do not change the predictions. *)
Theorem C66_ehdmr_elsewhere_refuted : forall h X X' (a b : nat -> R), cols X' = cols X -> length (rows X') = length (rows X) ->
  (forall j, 0 < a j)%R -> (forall j, j < cols X -> column (rows X') j = map (fun x => a j * x + b j)%R (column (rows X) j)) ->
  e_emulate h X' = e_emulate h X.
Proof. apply e_emulate_rescaled. Qed.
Print Assumptions C66_ehdmr_elsewhere_refuted.

(** C69: the reported sums and the number of entries per list. *)
Theorem C69_ehdmr : forall solve d_morph crit quantile argsorts pb X Y maxorder poly K sub maxiter l2 alpha ext h, 0 < cols X ->
  fst (enhanced_analyze solve d_morph crit quantile argsorts pb X Y maxorder poly K sub maxiter l2 alpha ext) = Ok h ->
  (forall xs, eo_S h = map Some xs -> eo_S_sum h = Some (Rsum xs)) /\
  (forall xs, eo_Sa h = map Some xs -> eo_Sa_sum h = Some (Rsum xs)) /\
  (forall xs, eo_Sb h = map Some xs -> eo_Sb_sum h = Some (Rsum xs)) /\
  let n := length (eo_Term h) in
  length (eo_S h) = n /\ length (eo_Sa h) = n /\ length (eo_Sb h) = n /\ length (eo_ST h) = n /\
  length (eo_S_conf h) = n /\ length (eo_Sa_conf h) = n /\ length (eo_Sb_conf h) = n /\ length (eo_ST_conf h) = n /\ length (eo_Signf h) = n.
Proof.
  intros solve d_morph crit quantile argsorts pb X Y mo p K sub mi la al ext h D E.
  pose proof (e_run_totals _ _ _ _ _ _ _ _ _ _ _ _ _ _ _ _ _ D E) as (ts & _ & _ & TL & LS & _). apply Forall2_length in TL.
  apply run_inv in E; auto. destruct E as (_ & -> & first & fits & _ & _ & F). apply e_finalize_inv in F; [|reflexivity]. cbv zeta in F.
  destruct F as (_ & _ & _ & _ & F5 & F6 & F7 & F8 & F9 & F10 & _ & F12 & F13 & F14 & F15 & F16). injection F10 as G1 G2 G3.
  assert (A : forall xs, fsum (map Some xs) = Some (Rsum xs)) by (intros; unfold fsum; rewrite (fall_some _ xs Some (fun x => x)), map_id; auto).
  split; [intros xs Q; rewrite G3, Q; auto|]. split; [intros xs Q; rewrite G1, Q; auto|]. split; [intros xs Q; rewrite G2, Q; auto|].
  cbv zeta. assert (N : length (eo_Term h) = c_nc_t (core_of X 2 p K sub ext)) by (rewrite <- TL, <- LS, F5, map_length, seq_length; auto).
  assert (DN : c_d (core_of X 2 p K sub ext) <= c_nc_t (core_of X 2 p K sub ext)) by (unfold c_nc_t, c_nc1; lia).
  rewrite N, F5, F6, F7, F8, F9. rewrite !app_length, !map_length, !seq_length, !repeat_length.
  repeat split; auto; lia.
Qed.
Print Assumptions C69_ehdmr.
(** C69 is false of the half-widths of the sums, as for hdmr.py. *)
Theorem C69_ehdmr_sum_widths_refuted : forall solve d_morph crit quantile argsorts pb X Y maxorder poly K sub maxiter l2 alpha ext h, 0 < cols X ->
  fst (enhanced_analyze solve d_morph crit quantile argsorts pb X Y maxorder poly K sub maxiter l2 alpha ext) = Ok h ->
  (eo_S_sum_conf h = None \/ eo_S_sum_conf h = Some 0%R) /\ (eo_Sa_sum_conf h = None \/ eo_Sa_sum_conf h = Some 0%R) /\
  (eo_Sb_sum_conf h = None \/ eo_Sb_sum_conf h = Some 0%R).
Proof.
  intros solve d_morph crit quantile argsorts pb X Y mo p K sub mi la al ext h D E.
  apply run_inv in E; auto. destruct E as (_ & -> & first & fits & _ & _ & F). apply e_finalize_inv in F; [|reflexivity]. cbv zeta in F.
  destruct F as (_ & _ & _ & _ & _ & _ & _ & _ & _ & _ & F11 & _). injection F11 as G1 G2 G3.
  assert (Z : forall m (x : fval), fmul m (fsd [x]) = None \/ fmul m (fsd [x]) = Some 0%R).
  { intros [m|] x; [rewrite fsd_one; destruct x; auto|left; reflexivity]. }
  rewrite G1, G2, G3. auto.
Qed.
Print Assumptions C69_ehdmr_sum_widths_refuted.

(** C70: the columns of each parameter have mean zero over the sample and are orthonormal. *)
Theorem C70_orthonormal : forall p X first, wf_mat X -> rows X <> [] -> first_columns p X = Some first ->
  length first = cols X /\
  forall j b, nth_error first j = Some b -> length b = p /\ (forall a, In a b -> length a = length (rows X)) /\ orthonormal b.
Proof. intros p X first W NE E. split; [apply (first_columns_spec _ _ _ E)|]. intros j b Hb. eapply first_columns_orthonormal; eauto. Qed.
Print Assumptions C70_orthonormal.
(** They exist exactly when every parameter has more different values than the polynomial order. *)
Theorem C70_exist : forall p X, 1 <= p -> wf_mat X -> rows X <> [] ->
  ((exists first, first_columns p X = Some first) <-> forall j, j < cols X -> distinct_values (S p) (column (rows X) j)).
Proof. apply first_columns_iff. Qed.
Print Assumptions C70_exist.
(** Over the values 0, 1/2 and 1, the first column is proportional to -1, 0, 1. *)
Example C70_example : exists a b, poly_columns 2 [0; 1 / 2; 1]%R = Some [a; b] /\ nth 1 a 0%R = 0%R /\ (0 < nth 2 a 0)%R /\ (nth 0 a 0 = - nth 2 a 0)%R.
Proof.
  assert (D0 : det_ij [0; 1 / 2; 1]%R 0 = (1 / 6)%R) by (unfold det_ij, moments, moment, det, sum, Rsum, skip; simpl; field).
  assert (D1 : det_ij [0; 1 / 2; 1]%R 1 = (1 / 2592)%R) by (unfold det_ij, moments, moment, det, sum, Rsum, skip; simpl; field).
  unfold poly_columns. cbn [seq forallb]. rewrite D0, D1.
  assert (P0 : Rltb 0 (1 / 6) = true) by (apply Rltb_true; lra). assert (P1 : Rltb 0 (1 / 2592) = true) by (apply Rltb_true; lra). rewrite P0, P1. cbn [andb map].
  eexists. eexists. split; [reflexivity|]. cbn [nth].
  assert (SQ : (0 < sqrt (1 / 6))%R) by (apply sqrt_lt_R0; lra).
  assert (PX : forall x, poly [0; 1 / 2; 1]%R 0 x = ((x - 1 / 2) / sqrt (1 / 6))%R).
  { intros x. unfold poly, poly_coeff. rewrite D0. unfold moments, moment, det, sum, Rsum, skip. simpl. field. lra. }
  rewrite !PX. split; [field; lra|]. split.
  - apply Rmult_lt_0_compat; [lra|]. apply Rinv_0_lt_compat. auto.
  - field. lra.
Qed.

(** C71: the cost of a term's coefficients in the extended basis is the sum of the squares of its function's mean and of its
    inner products with the term's lower-order columns; it is zero exactly when the function has mean zero and is orthogonal to
    them.  First-order terms cost nothing.  Third order is covered for three parameters (see C57). *)
Theorem C71_cost_partial : forall c first, length first = c_d c -> (forall b, In b first -> length b = c_p c) ->
  (forall b col, In b first -> In col b -> length col = c_subset c) -> c_ext c = true -> 1 <= c_order c <= 3 -> (c_order c = 3 -> c_d c = 3) ->
  exists ts, term_list (c_d c) (c_order c) ts /\
  forall i t, nth_error ts i = Some t ->
  exists C, nth_error (cost_blocks c (extend_basis c (concat first))) i = Some C /\
    forall x, length x = coefficient_count true (c_p c) (length t) ->
      let phi a := nth a first [] in
      let f := combination (c_subset c) (own_columns true phi t) x in
      (length t = 1 -> quadratic C x = 0%R) /\
      (2 <= length t ->
        quadratic C x = (mean f ^ 2 + Rsum (map (fun a => inner a f ^ 2) (lower_columns phi t)))%R /\
        (quadratic C x = 0%R <-> mean f = 0%R /\ forall a, In a (lower_columns phi t) -> inner a f = 0%R)).
Proof.
  intros c first L1 L2 L3 EX O D3. exists (hdmr_term_list (c_d c) (c_order c)). split; [apply hdmr_term_list_spec; auto|].
  intros i t Ht. destruct (cost_block_spec c first L1 L2 L3 EX O D3 i t Ht) as (C & EC & H). exists C. split; auto.
  intros x Lx. cbv zeta. destruct (H x Lx) as (H1 & H2). split; auto. intros T2. rewrite (H2 T2). split; auto.
  set (f := combination _ _ _). rewrite <- (map_map (fun a => inner a f) (fun v => v ^ 2)%R). rewrite sum_squares_zero. split; intros (A & B); split; auto.
  - intros a Ha. apply B. apply (in_map (fun a => inner a f)). auto.
  - intros v Hv. apply in_map_iff in Hv. destruct Hv as (a & <- & Ha). auto.
Qed.
Print Assumptions C71_cost_partial.
(** Two parameters with one column each over two points: the constant function 1 of the pair costs 1 (its mean) plus nothing. *)
Example C71_example : quadratic (square_of (sr 2 [[-1; 1]; [1; -1]; [-1; -1]]%R 2) 3) [0; 0; -1]%R = 1%R.
Proof.
  etransitivity; [apply (sr_quadratic 2 [[-1; 1]; [1; -1]; [-1; -1]]%R [0; 0; -1]%R 2); [intros b [<-|[<-|[<-|[]]]]; reflexivity|reflexivity]|].
  unfold combination, inner, mean, Rsum. simpl. field.
Qed.

(** C72: calls whose options or problem are not as required raise ValueError or RuntimeError; of the others, exactly those with
    max_order 2 and more different values of every parameter than poly_order succeed, provided the solvers do.
    (The documentation has max_order 1 to 3 and max_iter 1 to 1000; the latter is accepted from 100 to 999.) *)
Theorem C72_success_partial : forall solve d_morph crit quantile argsorts pb X Y maxorder poly K sub maxiter l2 alpha ext, 0 < cols X -> wf_mat X ->
  (forall A b, exists x, solve A b = Ok x /\ length x = length b) -> (forall B C y k, exists x, d_morph B C y k = Ok x /\ length x = length B) ->
  let r := fst (enhanced_analyze solve d_morph crit quantile argsorts pb X Y maxorder poly K sub maxiter l2 alpha ext) in
  let ok := fits pb (cols X) /\ e_settings_ok (length (rows X)) (cols X) (length Y) maxorder poly K sub maxiter l2 alpha ext in
  (~ ok -> r = Err ValueError \/ r = Err RuntimeError) /\
  (ok -> ((exists h, r = Ok h) <-> maxorder = 2%Z /\ forall j, j < cols X -> distinct_values (S (Z.to_nat poly)) (column (rows X) j))).
Proof.
  intros solve d_morph crit quantile argsorts pb X Y mo p K sub mi la al ext D W HS HD r ok. split.
  - intros N. destruct (run_rejected solve d_morph crit quantile argsorts pb X Y mo p K sub mi la al ext) as (e & Q & E).
    + intros A. apply N, accepted_iff. auto.
    + unfold r. rewrite Q. cbn [fst]. destruct E as [-> | ->]; auto.
  - intros A. apply accepted_iff in A. split.
    + intros (h & E). pose proof (run_inv _ _ _ _ _ _ _ _ _ _ _ _ _ _ _ _ _ D E) as (_ & M2 & first & fits & F & _). split; auto.
      destruct A as (_ & _ & A1 & _ & _ & A2 & _).
      apply (first_columns_iff (Z.to_nat p) X); auto; [lia| |eauto]. intros Q. rewrite Q in A1. simpl in A1. lia.
    + intros (-> & V). apply run_succeeds; auto.
Qed.
Print Assumptions C72_success_partial.
(** C72 is false of the documented options: max_order 1 and 3 (see C54) and max_iter 1000 are refused. *)
Theorem C72_options_refuted : forall solve d_morph crit quantile argsorts pb X Y maxorder poly K sub l2 alpha, 0 < cols X ->
  exists e, fst (enhanced_analyze solve d_morph crit quantile argsorts pb X Y maxorder poly K sub 1000 l2 alpha false) = Err e.
Proof.
  intros solve d_morph crit quantile argsorts pb X Y mo p K sub la al D.
  destruct (fst _) as [h|e] eqn:E; [|eauto]. exfalso. apply run_inv in E; auto. destruct E as (A & _). destruct A as (_ & A).
  destruct A as (_ & _ & _ & _ & _ & _ & _ & _ & A & _). specialize (A eq_refl). lia.
Qed.
Print Assumptions C72_options_refuted.
(** With too few values the calls fail in the linear algebra. *)
Theorem C72_degenerate : forall solve d_morph crit quantile argsorts pb X Y maxorder poly K sub maxiter l2 alpha ext, wf_mat X ->
  fits pb (cols X) -> e_settings_ok (length (rows X)) (cols X) (length Y) maxorder poly K sub maxiter l2 alpha ext ->
  ~ (forall j, j < cols X -> distinct_values (S (Z.to_nat poly)) (column (rows X) j)) ->
  fst (enhanced_analyze solve d_morph crit quantile argsorts pb X Y maxorder poly K sub maxiter l2 alpha ext) = Err (if ext then LinAlgError else ValueError).
Proof. intros. apply run_degenerate; auto. apply accepted_iff. auto. Qed.
Print Assumptions C72_degenerate.
