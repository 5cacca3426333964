(** * HDMR: C53 - C55, C58 and C66 - C69 for src/SALib/analyze/hdmr.py. *)
From Coq Require Import Reals String List Arith ZArith Bool Lia Lra Psatz Sorted Permutation.
From Verif Require Import Base Arrays ListFacts ModelGroups ModelScale Stats Sums ModelFast ModelMorris ModelMorrisAnalyze ModelDgsm ModelPawn
  ModelHdmr SpecHdmr ProofsHdmr ProofsHdmr2 ProofsHdmr3 ProofsHdmr4 ProofsHdmr5 ProofsHdmr6.
Import ListNotations.
Local Open Scope nat_scope.

(** C53: the labels name every term once: the parameters, then the pairs, then the triples. *)
Theorem C53_hdmr : forall regress crit quantile argsorts junk names X Y maxorder maxiter m K Ro alpha lambdax h,
  hdmr_analyze regress crit quantile argsorts junk names X Y maxorder maxiter m K Ro alpha lambdax = Ok h ->
  exists ts, term_list (cols X) (Z.to_nat maxorder) ts /\ term_count (cols X) (Z.to_nat maxorder) (length ts) /\
    Forall2 (label_of names) ts (h_Term h).
Proof.
  intros. destruct (run_totals _ _ _ _ _ _ _ _ _ _ _ _ _ _ _ _ H) as (ts & H1 & H2 & H3 & _). eauto.
Qed.
Print Assumptions C53_hdmr.

Example C53_hdmr_labels : hdmr_terms ["a"; "b"; "c"; "d"]%string 4 3 =
  Ok ["a"; "b"; "c"; "d"; "a/b"; "a/c"; "a/d"; "b/c"; "b/d"; "c/d"; "a/b/c"; "a/b/d"; "a/c/d"; "b/c/d"]%string.
Proof. reflexivity. Qed.
Example C53_hdmr_count : term_count 4 3 14 /\ term_count 4 2 10 /\ term_count 4 1 4.
Proof. repeat split. Qed.

(** C54: the total of a parameter is the sum of the indices of the terms that contain it; it is a number exactly when
    they all are.  Terms of more than one parameter have no total. *)
Theorem C54_hdmr : forall regress crit quantile argsorts junk names X Y maxorder maxiter m K Ro alpha lambdax h,
  hdmr_analyze regress crit quantile argsorts junk names X Y maxorder maxiter m K Ro alpha lambdax = Ok h ->
  exists ts, term_list (cols X) (Z.to_nat maxorder) ts /\ Forall2 (label_of names) ts (h_Term h) /\
    (forall r v, r < cols X -> (nth_error (h_ST h) r = Some (Some v) <-> sum_with ts r (h_S h) v)) /\
    (forall r, cols X <= r < length ts -> nth_error (h_ST h) r = Some None).
Proof.
  intros. destruct (run_totals _ _ _ _ _ _ _ _ _ _ _ _ _ _ _ _ H) as (ts & H1 & H2 & H3 & H4 & H5 & H6 & H7).
  exists ts. split; auto. split; auto. split; auto. intros r v Hr. destruct (H6 r Hr) as (js & N1 & N2 & E). rewrite E. split.
  - intros Q. injection Q as Q. apply fsum_Some in Q. destruct Q as (xs & F & ->). exists js. split; auto. split; auto. exists xs. auto.
  - intros (js' & N1' & N2' & xs & F & ->). f_equal.
    assert (P : Permutation js' js) by (apply NoDup_Permutation; auto; intros j; rewrite N2, N2'; tauto).
    assert (Q : fsum (map (fun j => nth j (h_S h) None) js') = Some (Rsum xs)) by (apply fsum_Some; eauto).
    unfold fsum in *. destruct (all_some (map (fun j => nth j (h_S h) None) js')) as [l'|] eqn:A'; [|discriminate]. injection Q as <-.
    assert (PM : Permutation (map (fun j => nth j (h_S h) None) js') (map (fun j => nth j (h_S h) None) js)) by (apply Permutation_map; auto).
    apply ProofsMorris7.all_some_inv in A'. rewrite A' in PM. apply Permutation_sym, Permutation_map_inv in PM. destruct PM as (l & El & Pl).
    rewrite El, (fall_some _ l Some (fun x => x)) by auto. rewrite map_id. f_equal. apply Rsum_perm. apply Permutation_sym. auto.
Qed.
Print Assumptions C54_hdmr.

(** Four parameters, order 3: parameter 1 is in the terms a/b, b/c, b/d, a/b/c, a/b/d and b/c/d besides its own. *)
Example C54_hdmr_rows : total_rows 4 3 1 = [1; 4; 7; 8; 10; 11; 13].
Proof. reflexivity. Qed.
Example C54_hdmr_example : exists v, total_of [[Some 1; Some 2; Some 3; Some 4; Some 5; Some 6]]%R 3 2 0 = [Some v] /\ v = (1 + 4 + 5)%R.
Proof. eexists. split; [reflexivity|]. unfold Rsum. simpl. lra. Qed.

(** C55: every term but the first pair and the first triple is tested with the number of coefficients of its own order. *)
Theorem C55_hdmr_partial : forall regress crit quantile argsorts junk names X y maxorder maxiter m K Ro alpha lambdax h,
  hdmr_analyze regress crit quantile argsorts junk names X (Vector y) maxorder maxiter m K Ro alpha lambdax = Ok h ->
  forall k i f rows_k b o, nth_error (h_Em h) k = Some f -> nth_error (h_idx h) k = Some rows_k ->
    nth_error (h_select h) (i * Z.to_nat K + k) = Some b ->
    order_at (cols X) i o -> i <> cols X -> 2 * i <> 2 * cols X + cols X * (cols X - 1) ->
    exists col, nth_error (fit_Y_em f) i = Some col /\
      let res := map (fun v => v - fit_f0 f)%R (map (fun j => nth j y 0%R) rows_k) in
      (b = true <-> significant (crit alpha) (squares res) (squares (map2 Rminus res col))
        (st_R (settings_of (length (rows X)) maxorder maxiter m K Ro alpha lambdax)) ((Z.to_nat m + 3) ^ o)).
Proof.
  intros regress crit quantile argsorts junk names X y mo mi m K Ro al la h E k i f rk b o Hf Hi Hb O N1 N2.
  destruct (run_select _ _ _ _ _ _ _ _ _ _ _ _ _ _ _ _ E k i f rk b Hf Hi Hb) as (Hn & col & Hc & H).
  assert (MO : 1 <= Z.to_nat mo <= 3) by (apply run_inv in E; destruct E as ((_ & _ & _ & _ & Q & _) & _); lia).
  exists col. split; auto. cbv zeta in *. rewrite (own_order _ _ _ _ _ MO Hn O N1 N2) in H. exact H.
Qed.
Print Assumptions C55_hdmr_partial.

(** The first pair is tested with the coefficients of a first-order term. *)
Theorem C55_hdmr_first_pair : forall regress crit quantile argsorts junk names X y maxorder maxiter m K Ro alpha lambdax h,
  hdmr_analyze regress crit quantile argsorts junk names X (Vector y) maxorder maxiter m K Ro alpha lambdax = Ok h ->
  forall k f rows_k b, nth_error (h_Em h) k = Some f -> nth_error (h_idx h) k = Some rows_k ->
    nth_error (h_select h) (cols X * Z.to_nat K + k) = Some b ->
    exists col, nth_error (fit_Y_em f) (cols X) = Some col /\
      let res := map (fun v => v - fit_f0 f)%R (map (fun j => nth j y 0%R) rows_k) in
      (b = true <-> significant (crit alpha) (squares res) (squares (map2 Rminus res col))
        (st_R (settings_of (length (rows X)) maxorder maxiter m K Ro alpha lambdax)) (Z.to_nat m + 3)).
Proof.
  intros regress crit quantile argsorts junk names X y mo mi m K Ro al la h E k f rk b Hf Hi Hb.
  destruct (run_select _ _ _ _ _ _ _ _ _ _ _ _ _ _ _ _ E k (cols X) f rk b Hf Hi Hb) as (Hn & col & Hc & H).
  assert (MO : 1 <= Z.to_nat mo <= 3) by (apply run_inv in E; destruct E as ((_ & _ & _ & _ & Q & _) & _); lia).
  exists col. split; auto. cbv zeta in *. destruct (wrong_count (cols X) (Z.to_nat mo) (Z.to_nat m + 3) MO) as (W & _). rewrite W in H. exact H.
Qed.
Print Assumptions C55_hdmr_first_pair.

(** Data on which this matters: two parameters, whatever the critical values are, if the share of the variance that a
    pair must explain is larger than the share a single parameter must explain. *)
Theorem C55_hdmr_refuted : forall crit m1 r c1 c2, 4 <= m1 -> m1 * m1 < r ->
  crit m1 (Z.of_nat r - Z.of_nat m1)%Z = Some c1 -> crit (m1 * m1) (Z.of_nat r - Z.of_nat (m1 * m1))%Z = Some c2 -> (0 <= c2)%R ->
  (c1 * INR m1 / (INR r - INR m1) < c2 * INR (m1 * m1) / (INR r - INR (m1 * m1)))%R ->
  exists Y Y_em col, length Y = r /\ mean Y = 0%R /\ length Y_em = 3 /\ nth_error Y_em 2 = Some col /\
    nth_error (f_test crit Y 0 Y_em r m1 (m1 * m1) (m1 * m1 * m1) 2 1) 2 = Some true /\
    ~ significant crit (squares (map (fun v => v - 0)%R Y)) (squares (map2 Rminus (map (fun v => v - 0)%R Y) col)) r (m1 ^ 2).
Proof.
  intros crit m1 r c1 c2 H4 Hr E1 E2 C2 LT.
  set (rho := (c2 * INR (m1 * m1) / (INR r - INR (m1 * m1)))%R) in *.
  assert (M1 : (4 <= INR m1)%R) by (apply (le_INR 4) in H4; simpl in H4; lra).
  assert (R2 : (0 < INR r - INR (m1 * m1))%R) by (apply lt_INR in Hr; lra).
  assert (M2 : (INR m1 <= INR (m1 * m1))%R) by (apply le_INR; nia).
  assert (RH : (0 <= rho)%R) by (unfold rho; apply Rmult_le_pos; [apply Rmult_le_pos; lra|left; apply Rinv_0_lt_compat; auto]).
  set (a := sqrt (1 + rho)). assert (A2 : (a * a = 1 + rho)%R) by (apply sqrt_sqrt; lra).
  assert (NZ : r = S (S (r - 2))) by nia.
  set (z := repeat 0%R (r - 2)). set (col := (a - 1)%R :: (- (a - 1))%R :: z).
  exists (a :: (- a)%R :: z), [repeat 0%R r; repeat 0%R r; col], col.
  assert (Z1 : map (fun v => v - 0)%R (a :: (- a)%R :: z) = a :: (- a)%R :: z).
  { rewrite (map_ext _ (fun v => v)) by (intros; ring). apply map_id. }
  assert (SZ : forall n, squares (repeat 0%R n) = 0%R) by (induction n; [reflexivity|]; unfold squares in *; cbn [repeat map Rsum fold_right]; unfold Rsum in *; cbn [fold_right]; rewrite IHn; ring).
  assert (S0 : squares (a :: (- a)%R :: z) = (2 * (1 + rho))%R).
  { transitivity (a ^ 2 + ((- a) ^ 2 + squares z))%R; [reflexivity|]. unfold z. rewrite SZ. rewrite <- A2. ring. }
  assert (Zm : forall n, map2 Rminus (repeat 0%R n) (repeat 0%R n) = repeat 0%R n) by (induction n; cbn; [auto|rewrite IHn; f_equal; ring]).
  assert (S1 : squares (map2 Rminus (a :: (- a)%R :: z) col) = 2%R).
  { unfold col. cbn [map2]. unfold z. rewrite Zm. fold z. transitivity ((a - (a - 1)) ^ 2 + ((- a - - (a - 1)) ^ 2 + squares z))%R; [reflexivity|].
    unfold z. rewrite SZ. ring. }
  split; [unfold z; simpl; rewrite repeat_length; lia|]. split.
  { unfold mean. assert (Q : Rsum z = 0%R).
    { unfold z. generalize (r - 2). intros q. induction q; [reflexivity|].
      change (repeat 0%R (S q)) with (0%R :: repeat 0%R q). unfold Rsum in *. cbn [fold_right]. rewrite IHq. ring. }
    replace (Rsum (a :: (- a)%R :: z)) with (a + (- a + Rsum z))%R by reflexivity. rewrite Q. unfold Rdiv. ring. }
  split; [reflexivity|]. split; [reflexivity|]. split.
  - match goal with |- nth_error (f_test _ _ _ ?E _ _ _ _ _ _) 2 = _ => rewrite (nth_f_test _ _ _ E _ _ _ _ _ _ 2 col eq_refl) end. f_equal. apply f_selected_spec. rewrite Z1, S0, S1. cbn [f_test_p Nat.leb].
    split; [nia|]. exists c1. split; auto. right. split; [lra|].
    assert (0 < INR r - INR m1)%R by lra.
    apply Rmult_lt_reg_r with (INR m1 / (INR r - INR m1))%R; [apply Rdiv_lt_0_compat; lra|].
    replace ((2 * (1 + rho) - 2) / INR m1 / (2 / (INR r - INR m1)) * (INR m1 / (INR r - INR m1)))%R with rho by (field; lra). lra.
  - rewrite Z1, S0, S1. replace (m1 ^ 2) with (m1 * m1) by (simpl; lia). intros (_ & c & Ec & D). rewrite E2 in Ec. injection Ec as <-.
    destruct D as [(D & _)|(_ & D)]; [lra|]. revert D. apply Rle_not_lt. right.
    unfold rho. field. nra.
Qed.
Print Assumptions C55_hdmr_refuted.

(** The premises are met, for instance by the critical values 3 and 2 with four coefficients and 40 points. *)
Example C55_hdmr_refuted_example : (3 * INR 4 / (INR 40 - INR 4) < 2 * INR (4 * 4) / (INR 40 - INR (4 * 4)))%R.
Proof. simpl. lra. Qed.

(** C58 for the average over the bootstraps: the total differs from the two parts by the covariance of the term with the
    residual and by a share of the term's variance (covariances are divided by R - 1, the structural part by R). *)
Theorem C58_hdmr_partial : forall regress crit quantile argsorts junk names X y maxorder maxiter m K Ro alpha lambdax h,
  hdmr_analyze regress crit quantile argsorts junk names X (Vector y) maxorder maxiter m K Ro alpha lambdax = Ok h ->
  (forall k, Permutation (argsorts k) (seq 0 (length (rows X)))) ->
  (forall rows_k, In rows_k (h_idx h) -> var (map (fun i => nth i y 0%R) rows_k) <> 0%R) ->
  forall j, j < length (h_Term h) ->
    exists s sa sb gaps, nth_error (h_S h) j = Some (Some s) /\ nth_error (h_Sa h) j = Some (Some sa) /\ nth_error (h_Sb h) j = Some (Some sb) /\
      (s - (sa + sb) = mean gaps)%R /\
      Forall2 (fun (fr : fit * list nat) g => let Y := map (fun i => nth i y 0%R) (snd fr) in
        exists col c, nth_error (fit_Y_em (fst fr)) j = Some col /\ covariance col (map2 Rminus Y (fit_Y_e (fst fr))) c /\
          (g = (c + var col / (INR (length (snd fr)) - 1)) / var Y)%R) (combine (h_Em h) (h_idx h)) gaps.
Proof.
  intros regress crit quantile argsorts junk names X y mo mi m K Ro al la h E P V j Hj.
  destruct (run_gap _ _ _ _ _ _ _ _ _ _ _ _ _ _ _ _ E P V j Hj) as (s & sa & sb & H1 & H2 & H3 & H4).
  exists s, sa, sb, (map (gap_of y j) (combine (h_Em h) (h_idx h))). split; auto. split; auto. split; auto. split; auto.
  pose proof (run_fits _ _ _ _ _ _ _ _ _ _ _ _ _ _ _ _ E) as (LE & LI & RF). cbv zeta in RF.
  pose proof (run_rows _ _ _ _ _ _ _ _ _ _ _ _ _ _ _ _ E P) as RR.
  destruct (run_sums _ _ _ _ _ _ _ _ _ _ _ _ _ _ _ _ E) as (_ & _ & _ & _ & _ & _ & LS & _).
  assert (G : forall l, incl l (combine (h_Em h) (h_idx h)) -> Forall2 (fun (fr : fit * list nat) g => let Y := map (fun i => nth i y 0%R) (snd fr) in
        exists col c, nth_error (fit_Y_em (fst fr)) j = Some col /\ covariance col (map2 Rminus Y (fit_Y_e (fst fr))) c /\
          (g = (c + var col / (INR (length (snd fr)) - 1)) / var Y)%R) l (map (gap_of y j) l)).
  { induction l as [|p l IH]; intros I; [constructor|]. cbn [map]. constructor.
    - cbv zeta. assert (Hp : In p (combine (h_Em h) (h_idx h))) by (apply I; left; auto).
      apply combine_nth_error in Hp; [|congruence]. destruct Hp as (k & Hf & Hi).
      assert (Hin : In (snd p) (h_idx h)) by (eapply nth_error_In; eauto). destruct (RR _ Hin) as (R1 & R2 & _).
      specialize (RF k _ _ Hf Hi). apply compute_one_inv in RF. destruct RF as (Bs & Y1 & Y2 & Y3 & A & C). cbv zeta in C. rewrite bases_length in C.
      destruct C as (_ & _ & _ & _ & _ & _ & _ & LY & CL & _ & _ & YE & _ & _).
      destruct (nth_error_lt_Some (fit_Y_em (fst p)) (i := j)) as (col & Ec).
      { rewrite LY. apply ProofsMorris7.all_some_inv in A || idtac.
        assert (LT : length (h_Term h) = hdmr_n (cols X) (Z.to_nat mo)).
        { apply run_inv in E. destruct E as (_ & y' & fits & _ & _ & F). cbv zeta in F. apply finalize_inv in F. destruct F as (F1 & _).
          apply hdmr_terms_spec, Forall2_length in F1. rewrite <- F1. apply hdmr_n_length. }
        cbn [settings_of st_maxorder]. lia. }
      exists col, (cov1 col (map2 Rminus (map (fun i => nth i y 0%R) (snd p)) (fit_Y_e (fst p)))). split; auto.
      assert (Lc : length col = length (snd p)) by (apply CL; eapply nth_error_In; eauto).
      destruct (row_sums_spec (length (snd p)) (fit_Y_em (fst p)) CL) as (RL & _). split.
      + apply cov1_covariance; [|lia]. rewrite length_map2, map_length, YE, map_length, <- R1, RL. lia.
      + unfold gap_of. rewrite (nth_error_nth _ _ _ Ec). reflexivity.
    - apply IH. intros x Hx. apply I. right; auto. }
  apply G. apply incl_refl.
Qed.
Print Assumptions C58_hdmr_partial.

(** C58 is false even of an emulator that reproduces the output: the parts of a term that varies fall short of its total. *)
Theorem C58_hdmr_refuted : forall Y Y_em V j y t, (0 < V)%R -> 2 <= length Y -> (forall c, In c Y_em -> length c = length Y) ->
  nth_error Y_em j = Some y -> (forall i, i < length Y -> nth i Y 0%R = (t + Rsum (map (fun c => nth i c 0%R) Y_em))%R) -> (0 < var y)%R ->
  exists s sa sb, let '(St, Sa, Sb) := ancova Y Y_em V in
    nth_error St j = Some (Some s) /\ nth_error Sa j = Some (Some sa) /\ nth_error Sb j = Some (Some sb) /\ (sa + sb < s)%R.
Proof.
  intros Y Y_em V j y t HV L H E EX VY. apply (ancova_exact_emulator Y Y_em V j y t); auto.
  destruct (row_sums_spec (length Y) Y_em H) as (RL & RN).
  apply (nth_ext _ _ 0%R (t + 0)%R); [rewrite map_length; auto|]. intros i Hi. rewrite (map_nth (fun e => t + e)%R). rewrite RN by auto. auto.
Qed.
Print Assumptions C58_hdmr_refuted.

(** The output 0, 2 explained by one term: total 2, parts 1 and 0. *)
Example C58_hdmr_example : ancova [0; 2]%R [[-1; 1]]%R (var [0; 2]%R) = ([Some 2]%R, [Some 1]%R, [Some 0]%R).
Proof.
  assert (V : var [0; 2]%R = 1%R) by (unfold var, mean, Rsum; simpl; field).
  unfold ancova, fdiv. rewrite V. assert (Q : Reqb 1 0 = false) by (destruct (Reqb 1 0) eqn:B; auto; apply Reqb_true in B; lra). cbn [map]. rewrite Q.
  assert (Vy : var [-1; 1]%R = 1%R) by (unfold var, mean, Rsum; simpl; field). rewrite Vy.
  repeat f_equal; unfold cov1, row_sums, vadd, vsub, mean, Rsum; simpl; field.
Qed.

(** C66: without bootstrap, the emulator evaluated on the analysed samples and outputs gives the fitted outputs; without the
    outputs it gives them minus their mean. *)
Theorem C66_training : forall regress crit quantile argsorts junk names X y maxorder maxiter m Ro alpha lambdax h, wf_mat X ->
  hdmr_analyze regress crit quantile argsorts junk names X (Vector y) maxorder maxiter m 1 Ro alpha lambdax = Ok h ->
  exists f, h_Em h = [f] /\ length (fit_Y_e f) = length y /\
    emulate h X (Some y) = map Some (fit_Y_e f) /\
    emulate h X None = map (fun e => Some (e - mean y)%R) (fit_Y_e f).
Proof. intros. destruct (run_emulator _ _ _ _ _ _ _ _ _ _ _ _ _ _ _ H H0) as (f & H1 & H2 & _ & H3 & H4). eauto. Qed.
Print Assumptions C66_training.

(** C66 is false of other points: moving all points, in each coordinate, by an increasing affine map does not change the predictions. *)
Theorem C66_elsewhere_refuted : forall h X X' Y (a b : nat -> R), wf_mat X -> wf_mat X' -> cols X' = cols X -> length (rows X') = length (rows X) ->
  (forall j, 0 < a j)%R -> (forall j, j < cols X -> column (rows X') j = map (fun x => a j * x + b j)%R (column (rows X) j)) ->
  emulate h X' Y = emulate h X Y.
Proof. apply emulate_rescaled. Qed.
Print Assumptions C66_elsewhere_refuted.

(** One parameter with the first of the four splines as its function: the prediction at 1 depends on the other points. *)
Definition ex_fit : fit := mkFit 0 [[1; 0; 0; 0]]%R [] [] [] [] [] 0 [] [] [].
Definition ex_emulator : hdmr_out := mkHdmr [] [] [] [] [] [] [] [] None None None None None None [] [] [ex_fit] [] 1 1.
Example C66_elsewhere_example :
  nth 1 (emulate ex_emulator (mkMat 1 [[0]; [1]]%R) None) None = Some 0%R /\
  nth 1 (emulate ex_emulator (mkMat 1 [[0]; [1]; [2]]%R) None) None = Some (1 / 48)%R.
Proof.
  assert (M2 : Rmax 0 1 = 1%R) by (apply Rmax_right; lra). assert (M3 : Rmax 1 2 = 2%R) by (apply Rmax_right; lra).
  assert (N2 : Rmin 0 1 = 0%R) by (apply Rmin_left; lra). assert (N3 : Rmin 0 2 = 0%R) by (apply Rmin_left; lra).
  assert (G : forall xs k, normalise (map (fun r => r) xs) = Some k -> k <> [] ->
    emulate ex_emulator (mkMat 1 (map (fun x => [x]) xs)) None = map (fun x => Some (spline 1 0 x + 0)%R) k).
  { intros xs k H NE. unfold emulate. cbn [cols rows seq map h_m ex_emulator h_Em h_maxorder].
    assert (EC : column (map (fun x => [x]) xs) 0 = xs) by (clear; induction xs; cbn; [|f_equal]; auto).
    rewrite EC. rewrite map_id in H. rewrite H. cbn [option_map all_some]. cbn [hdmr_c2 hdmr_c3 Nat.ltb Nat.leb Nat.eqb map length seq combine app].
    cbn [fst snd term_basis nth].
    assert (LK : length k = length xs) by (apply normalise_unit in H; apply H).
    unfold row_sums. cbn [fold_left]. rewrite mean_coefficients_one. cbn [ex_fit fit_C1 nth].
    assert (MV : matvec (basis1 1 k) [1; 0; 0; 0]%R = map (fun x => spline 1 0 x) k).
    { unfold matvec, basis1. rewrite map_map. apply map_ext. intros x. cbn [Nat.add seq map]. unfold dot, Rsum. cbn [map2 fold_right]. ring. }
    rewrite MV, map_length, <- LK.
    assert (AD : forall l : list R, vadd (repeat 0%R (length l)) l = l) by (induction l; cbn; [|f_equal; auto; unfold vadd in *]; auto; ring).
    rewrite <- (map_length (fun x => spline 1 0 x) k), AD, map_map. reflexivity. }
  split.
  - change [[0]; [1]]%R with (map (fun x => [x]) [0; 1]%R). rewrite (G [0; 1]%R [0; 1]%R); [|cbn [map]|discriminate].
    + cbn [map nth]. f_equal. rewrite spline_outside; [ring|]. right. simpl. lra.
    + unfold normalise, ptp, maxl, minl. cbn [fold_left]. rewrite M2, N2. destruct (Reqb (1 - 0) 0) eqn:Q; [apply Reqb_true in Q; lra|].
      cbn [map]. repeat f_equal; field.
  - change [[0]; [1]; [2]]%R with (map (fun x => [x]) [0; 1; 2]%R). rewrite (G [0; 1; 2]%R [0; 1 / 2; 1]%R); [|cbn [map]|discriminate].
    + cbn [map nth]. f_equal. rewrite spline_inside by (simpl; lra). rewrite cardinal_high by (simpl; lra). simpl. field.
    + unfold normalise, ptp, maxl, minl. cbn [fold_left]. rewrite M2, M3, N2, N3. destruct (Reqb (2 - 0) 0) eqn:Q; [apply Reqb_true in Q; lra|].
      cbn [map]. repeat f_equal; field.
Qed.

(** C67: at each sample the basis of a parameter that varies is non-negative and adds up to m^3. *)
Theorem C67_basis : forall m col v, 1 <= m -> normalise col = Some v ->
  length (basis1 m v) = length col /\
  forall row, In row (basis1 m v) -> length row = m + 3 /\ (forall b, In b row -> 0 <= b)%R /\ Rsum row = (INR m ^ 3)%R.
Proof.
  intros m col v Hm H. apply normalise_unit in H. destruct H as (L & U). split; [unfold basis1; rewrite map_length; auto|].
  intros row Hr. unfold basis1 in Hr. apply in_map_iff in Hr. destruct Hr as (x & <- & Hx). split; [rewrite map_length, seq_length; auto|]. split.
  - intros b Hb. apply in_map_iff in Hb. destruct Hb as (i & <- & _). apply spline_nonneg.
  - apply spline_partition; auto.
Qed.
Print Assumptions C67_basis.

Example C67_example : normalise [3; 5; 4]%R = Some [0; 1; 1 / 2]%R.
Proof.
  unfold normalise, ptp, maxl, minl. cbn [fold_left]. assert (A1 : Rmax 3 5 = 5%R) by (apply Rmax_right; lra). assert (A2 : Rmax 5 4 = 5%R) by (apply Rmax_left; lra).
  assert (A3 : Rmin 3 5 = 3%R) by (apply Rmin_left; lra). assert (A4 : Rmin 3 4 = 3%R) by (apply Rmin_left; lra). rewrite A1, A2, A3, A4.
  destruct (Reqb (5 - 3) 0) eqn:Q; [apply Reqb_true in Q; lra|]. cbn [map]. repeat f_equal; field.
Qed.

(** C68: data and options are refused with RuntimeError exactly when they are not as documented.  Accepted ones are analysed, if
    no parameter is constant. *)
Theorem C68_accepted : forall regress crit quantile argsorts junk names X y maxorder maxiter m K Ro alpha lambdax,
  (forall b l, exists t, regress b l = Ok t) -> 0 < cols X -> cols X <= length names ->
  (~ settings_ok (length (rows X)) (cols X) (Vector y) maxorder maxiter m K Ro alpha lambdax ->
   hdmr_analyze regress crit quantile argsorts junk names X (Vector y) maxorder maxiter m K Ro alpha lambdax = Err RuntimeError) /\
  (settings_ok (length (rows X)) (cols X) (Vector y) maxorder maxiter m K Ro alpha lambdax ->
   ((forall j, j < cols X -> ptp (column (rows X) j) <> 0%R) <->
    exists h, hdmr_analyze regress crit quantile argsorts junk names X (Vector y) maxorder maxiter m K Ro alpha lambdax = Ok h)).
Proof.
  intros regress crit quantile argsorts junk names X y mo mi m K Ro al la HR D LN. split.
  - intros H. unfold hdmr_analyze. destruct (check_settings_inv (length (rows X)) (cols X) (Vector y) mo mi m K Ro al la _ eq_refl) as [(H' & _)|(_ & C)]; [contradiction|].
    rewrite C. reflexivity.
  - intros H. split.
    + intros P. apply run_ok; auto.
    + intros (h & E) j Hj Z. rewrite (run_constant _ _ _ _ _ _ _ _ _ _ _ _ _ _ _ j H Hj Z) in E. discriminate.
Qed.
Print Assumptions C68_accepted.

(** 300 samples of two parameters, a run that is accepted. *)
Definition ex_X : mat R := mkMat 2 (map (fun i => [INR i; - INR i]%R) (seq 0 300)).
Example C68_example : exists h, hdmr_analyze (fun _ _ => Ok None) (fun _ _ _ => Some 3%R) (fun _ => Some 2%R) (fun _ => seq 0 300) (fun _ _ => [])
  ["a"; "b"]%string ex_X (Vector (map INR (seq 0 300))) 2 100 2 20 None (95 / 100) (1 / 100) = Ok h.
Proof.
  apply run_ok.
  - unfold settings_ok. cbn [ex_X rows cols y_rows y_size]. rewrite !map_length, !seq_length.
    repeat split; try lia; try lra; discriminate.
  - eauto.
  - simpl. lia.
  - intros j Hj. cbn [ex_X rows cols] in *. set (l := column _ _). intros Z.
    assert (E : exists f : nat -> R, f 0 <> f 1 /\ l = map f (seq 0 300)).
    { unfold l, column. generalize (seq 0 300). intros s. destruct j as [|[|j]]; [| |lia].
      - exists INR. split; [simpl; lra|]. induction s; cbn; [|f_equal]; auto.
      - exists (fun i => - INR i)%R. split; [simpl; lra|]. induction s; cbn; [|f_equal]; auto. }
    destruct E as (f & N & E). assert (NE : l <> []) by (rewrite E; discriminate).
    apply N. apply (proj1 (ptp_zero_iff l NE) Z); rewrite E; apply in_map, in_seq; lia.
  - simpl. lia.
Qed.

(** The rows of each bootstrap: all of them without bootstrap, else as many as asked for (by default half of them), without repetition. *)
Theorem C68_rows : forall regress crit quantile argsorts junk names X y maxorder maxiter m K Ro alpha lambdax h,
  hdmr_analyze regress crit quantile argsorts junk names X (Vector y) maxorder maxiter m K Ro alpha lambdax = Ok h ->
  (forall k, Permutation (argsorts k) (seq 0 (length (rows X)))) ->
  Z.of_nat (length (h_idx h)) = K /\
  forall idx, In idx (h_idx h) -> NoDup idx /\ (forall i, In i idx -> i < length (rows X)) /\
    length idx = if (K =? 1)%Z then length (rows X) else match Ro with None => length (rows X) / 2 | Some r => Z.to_nat r end.
Proof.
  intros regress crit quantile argsorts junk names X y mo mi m K Ro al la h E P. split.
  - pose proof (run_fits _ _ _ _ _ _ _ _ _ _ _ _ _ _ _ _ E) as (LE & LI & _). rewrite LI.
    apply run_inv in E. destruct E as ((_ & _ & _ & _ & _ & _ & _ & _ & Q & _) & _). lia.
  - intros idx Hi. destruct (run_rows _ _ _ _ _ _ _ _ _ _ _ _ _ _ _ _ E P idx Hi) as (H1 & H2 & H3 & H4). split; auto.
Qed.
Print Assumptions C68_rows.

(** An output given as a matrix with one column is accepted by the checks ("Y should be a N x 1 vector") and then refused. *)
Theorem C68_column_refuted : forall regress crit quantile argsorts junk names X Y maxorder maxiter m K Ro alpha lambdax,
  settings_ok (length (rows X)) (cols X) (Matrix Y) maxorder maxiter m K Ro alpha lambdax ->
  hdmr_analyze regress crit quantile argsorts junk names X (Matrix Y) maxorder maxiter m K Ro alpha lambdax = Err ValueError.
Proof. intros. unfold hdmr_analyze. rewrite (check_settings_ok _ _ _ _ _ _ _ _ _ _ H). reflexivity. Qed.
Print Assumptions C68_column_refuted.
Example C68_column_example : settings_ok 300 2 (Matrix (mkMat 1 (repeat [1%R] 300))) 2 100 2 20 None (95 / 100) (1 / 100).
Proof. unfold settings_ok. cbn [y_rows y_size rows cols]. rewrite repeat_length. repeat split; try lia; try lra; discriminate. Qed.

(** C69: the reported sums are the sums of the reported indices. *)
Theorem C69_sums : forall regress crit quantile argsorts junk names X Y maxorder maxiter m K Ro alpha lambdax h,
  hdmr_analyze regress crit quantile argsorts junk names X Y maxorder maxiter m K Ro alpha lambdax = Ok h ->
  (forall xs, h_S h = map Some xs -> h_S_sum h = Some (Rsum xs)) /\
  (forall xs, h_Sa h = map Some xs -> h_Sa_sum h = Some (Rsum xs)) /\
  (forall xs, h_Sb h = map Some xs -> h_Sb_sum h = Some (Rsum xs)).
Proof.
  intros regress crit quantile argsorts junk names X Y mo mi m K Ro al la h E.
  destruct (run_sums _ _ _ _ _ _ _ _ _ _ _ _ _ _ _ _ E) as (H1 & H2 & H3 & _).
  assert (A : forall xs, fsum (map Some xs) = Some (Rsum xs)) by (intros; unfold fsum; rewrite (fall_some _ xs Some (fun x => x)), map_id; auto).
  split; [|split]; intros xs Q; [rewrite H1|rewrite H2|rewrite H3]; rewrite Q; apply A.
Qed.
Print Assumptions C69_sums.

(** C69: every list has an entry per term, but the test decisions have one per term and bootstrap. *)
Theorem C69_lengths : forall regress crit quantile argsorts junk names X Y maxorder maxiter m K Ro alpha lambdax h,
  hdmr_analyze regress crit quantile argsorts junk names X Y maxorder maxiter m K Ro alpha lambdax = Ok h ->
  let n := length (h_Term h) in
  length (h_S h) = n /\ length (h_Sa h) = n /\ length (h_Sb h) = n /\ length (h_ST h) = n /\
  length (h_S_conf h) = n /\ length (h_Sa_conf h) = n /\ length (h_Sb_conf h) = n /\ length (h_ST_conf h) = n /\
  length (h_select h) = n * Z.to_nat K.
Proof.
  intros regress crit quantile argsorts junk names X Y mo mi m K Ro al la h E.
  destruct (run_sums _ _ _ _ _ _ _ _ _ _ _ _ _ _ _ _ E) as (_ & _ & _ & _ & _ & _ & H). exact H.
Qed.
Print Assumptions C69_lengths.

(** C69 is false of the half-widths of the sums: they are 0 (or nan) whatever the spread over the bootstraps. *)
Theorem C69_sum_widths_refuted : forall regress crit quantile argsorts junk names X Y maxorder maxiter m K Ro alpha lambdax h,
  hdmr_analyze regress crit quantile argsorts junk names X Y maxorder maxiter m K Ro alpha lambdax = Ok h ->
  (h_S_sum_conf h = None \/ h_S_sum_conf h = Some 0%R) /\ (h_Sa_sum_conf h = None \/ h_Sa_sum_conf h = Some 0%R) /\
  (h_Sb_sum_conf h = None \/ h_Sb_sum_conf h = Some 0%R).
Proof.
  intros regress crit quantile argsorts junk names X Y mo mi m K Ro al la h E.
  destruct (run_sums _ _ _ _ _ _ _ _ _ _ _ _ _ _ _ _ E) as (_ & _ & _ & H1 & H2 & H3 & _). auto.
Qed.
Print Assumptions C69_sum_widths_refuted.
