(** * Enhanced HDMR: which runs succeed, the cost matrix and the emulator. *)
From Coq Require Import Reals String List Arith ZArith Bool Lia Lra Psatz Sorted Permutation.
From Verif Require Import Base Arrays ListFacts ModelGroups ModelScale ProofsScale Stats Sums Det ModelFast ModelMorris ModelMorrisAnalyze ModelDgsm ModelPawn
  ModelHdmr SpecHdmr ProofsHdmr ProofsHdmr2 ProofsHdmr3 ProofsHdmr4 ProofsHdmr5 ProofsHdmr6 ModelEhdmr SpecEhdmr ProofsMorris7
  ProofsEhdmr ProofsEhdmr2 ProofsEhdmr3 ProofsEhdmr4 ProofsEhdmr5 ProofsEhdmr6.
Import ListNotations.
Local Open Scope nat_scope.

(** ** The first-order columns *)

Lemma NoDup_map_on : forall A B (f : A -> B) l, (forall x y, In x l -> In y l -> f x = f y -> x = y) -> NoDup l -> NoDup (map f l).
Proof.
  intros A B f l. induction l as [|a l IH]; intros H N; cbn; constructor; inversion N; subst.
  - intros I. apply in_map_iff in I. destruct I as (y & E & Hy). apply H2. rewrite <- (H y a); auto; [right; auto|left; auto].
  - apply IH; auto. intros; apply H; auto; right; auto.
Qed.

Lemma normalise_values : forall m col, col <> [] -> 2 <= m ->
  (distinct_values m col <-> exists v, normalise col = Some v /\ distinct_values m v).
Proof.
  intros m col NE Hm. unfold normalise. destruct (Reqb (ptp col) 0) eqn:P.
  - split; [|intros (v & Q & _); discriminate]. intros (l & N & I & L). exfalso. apply Reqb_true in P. rewrite ptp_zero_iff in P by auto.
    destruct l as [|a [|b l]]; simpl in L; try lia. inversion N; subst. apply H1. left. symmetry. apply P; apply I; simpl; auto.
  - assert (PP : ptp col <> 0%R). { intros Q. rewrite (proj2 (Reqb_true _ _) Q) in P. discriminate. }
    assert (INJ : forall x y : R, ((x - minl col) / ptp col = (y - minl col) / ptp col -> x = y)%R).
    { intros x y E. apply (f_equal (fun z => z * ptp col)%R) in E. unfold Rdiv in E. rewrite !Rmult_assoc, !Rinv_l, !Rmult_1_r in E by auto. lra. }
    split.
    + intros (l & N & I & L). eexists. split; [reflexivity|]. exists (map (fun x => (x - minl col) / ptp col)%R l). split; [|split].
      * apply NoDup_map_on; auto.
      * intros v Hv. apply in_map_iff in Hv. destruct Hv as (x & <- & Hx). apply (in_map (fun x => (x - minl col) / ptp col)%R). auto.
      * rewrite map_length. auto.
    + intros (v & E & l & N & I & L). injection E as <-. exists (map (fun z => z * ptp col + minl col)%R l). split; [|split].
      * apply NoDup_map_on; auto. intros x y _ _ E. assert (x * ptp col = y * ptp col)%R by lra. apply Rmult_eq_reg_r in H; auto.
      * intros z Hz. apply in_map_iff in Hz. destruct Hz as (u & <- & Hu). apply I in Hu. apply in_map_iff in Hu. destruct Hu as (x & <- & Hx).
        replace ((x - minl col) / ptp col * ptp col + minl col)%R with x by (field; auto). auto.
      * rewrite map_length. auto.
Qed.

Lemma all_some_None : forall A (l : list (option A)), In None l -> all_some l = None.
Proof. induction l as [|[x|] l IH]; intros H; [destruct H| |reflexivity]. destruct H as [H|H]; [discriminate|]. cbn [all_some]. rewrite (IH H). reflexivity. Qed.

Lemma first_columns_iff : forall p X, 1 <= p -> wf_mat X -> rows X <> [] ->
  ((exists f, first_columns p X = Some f) <-> forall j, j < cols X -> distinct_values (S p) (column (rows X) j)).
Proof.
  intros p X Hp W NE. unfold first_columns.
  assert (CN : forall j, j < cols X -> column (rows X) j <> []).
  { intros j Hj Q. apply NE. apply (f_equal (@length R)) in Q. rewrite (column_length _ _ (cols X)) in Q by auto. destruct (rows X); auto. discriminate. }
  assert (ONE : forall j, j < cols X -> (distinct_values (S p) (column (rows X) j) <->
    match normalise (column (rows X) j) with Some xs => poly_columns p xs | None => None end <> None)).
  { intros j Hj. rewrite normalise_values by (auto; lia). split.
    - intros (v & -> & V). apply poly_columns_iff; auto. destruct V as (l & _ & I & L). destruct v; [|discriminate]. destruct l; [discriminate|]. destruct (I r); simpl; auto.
    - intros H. destruct (normalise (column (rows X) j)) as [v|] eqn:E; [|congruence]. exists v. split; auto. apply poly_columns_iff in H; auto.
      intros ->. apply normalise_unit in E. destruct E as (E & _). specialize (CN j Hj). destruct (column (rows X) j); [congruence|discriminate]. }
  split.
  - intros (f & E) j Hj. apply ONE; auto. intros Q. rewrite all_some_None in E; [discriminate|]. apply in_map_iff. exists j. split; [auto|apply in_seq; lia].
  - intros H. eexists. apply (all_some_of_any _ _ _ _ (fun j => match match normalise (column (rows X) j) with Some xs => poly_columns p xs | None => None end with Some b => b | None => [] end)).
    intros j Hj. apply in_seq in Hj. specialize (H j ltac:(lia)). apply ONE in H; [|lia].
    destruct (match normalise (column (rows X) j) with Some xs => poly_columns p xs | None => None end); [auto|congruence].
Qed.

Lemma first_columns_orthonormal : forall p X first, first_columns p X = Some first -> rows X <> [] -> wf_mat X ->
  forall j b, nth_error first j = Some b -> length b = p /\ (forall a, In a b -> length a = length (rows X)) /\ orthonormal b.
Proof.
  intros p X first E NE W j b Hb. destruct (first_columns_spec _ _ _ E) as (_ & L2 & L3). apply nth_error_In in Hb. split; auto. split; [intros a Ha; eapply L3; eauto|].
  unfold first_columns in E. destruct (all_some_In_map _ _ _ _ _ E Hb) as (i & Hi & Q). apply in_seq in Hi. destruct (normalise _) as [v|] eqn:N in Q; [|discriminate].
  apply (poly_columns_orthonormal v) in Q; [apply Q|]. intros ->. apply normalise_unit in N. destruct N as (N & _).
  rewrite (column_length _ _ (cols X)) in N by (auto; lia). destruct (rows X); [congruence|discriminate].
Qed.

(** ** Runs that succeed *)

Section Success.
Variable solve : list (list R) -> list R -> result (list R).
Variable d_morph : list (list R) -> list (list (list R)) -> list R -> nat -> result (list R).
Hypothesis HS : forall A b, exists x, solve A b = Ok x /\ length x = length b.
Hypothesis HD : forall B C y k, exists x, d_morph B C y k = Ok x /\ length x = length B.

Lemma solve_block_ok : forall n l2 B y, exists x, solve_block solve n l2 B y = Ok x.
Proof.
  intros n l2 B y. unfold solve_block. destruct (HS (gram n l2 B) (rhs n B y)) as (x & -> & L). cbn [bind]. unfold rhs in L. rewrite map_length in L. rewrite L, Nat.eqb_refl. eauto.
Qed.
Lemma e_pass_ok : forall n Bs y xs, exists xs', e_pass solve n Bs y xs = Ok xs'.
Proof.
  intros n Bs y xs. unfold e_pass. generalize (seq 0 (length Bs)). intros l. revert xs. induction l as [|i l IH]; intros xs; cbn [foldM]; [eauto|].
  destruct (solve_block_ok n 0 (nth i Bs []) (without n Bs xs y i)) as (x & ->). cbn [bind]. apply IH.
Qed.
Lemma e_backfit_ok : forall fuel n Bs y xs, exists xs', e_backfit solve fuel n Bs y xs = Ok xs'.
Proof.
  induction fuel; intros n Bs y xs; cbn [e_backfit]; [eauto|]. destruct (e_pass_ok n Bs y xs) as (x & ->). cbn [bind]. destruct (Rltb _ _); eauto.
Qed.
Lemma e_order_ok : forall n mi l2 Bs y, exists r, e_order solve n mi l2 Bs y = Ok r.
Proof.
  intros n mi l2 Bs y. unfold e_order.
  assert (M : exists x0, mapM (fun B => solve_block solve n l2 B y) Bs = Ok x0).
  { induction Bs as [|B Bs IH]; cbn [mapM]; [eauto|]. destruct (solve_block_ok n l2 B y) as (x & ->). destruct IH as (x0 & ->). cbn [bind]. eauto. }
  destruct M as (x0 & ->). cbn [bind]. destruct (e_backfit_ok (S mi) n Bs y x0) as (x & ->). cbn [bind]. eauto.
Qed.
Lemma coefficients_ok : forall c K mi l2 b y, c_order c = 2 -> length b = c_a_tnt c -> exists x, coefficients solve d_morph c K mi l2 b y = Ok x.
Proof.
  intros c K mi l2 b y O L. unfold coefficients. destruct (c_ext c).
  - destruct (HD b (cost_blocks c b) y K) as (x & -> & L'). cbn [bind]. rewrite L', L, Nat.eqb_refl. eauto.
  - destruct (e_order_ok (c_subset c) mi l2 (blocks c b 0 (c_nc1 c)) y) as (r & ->). cbn [bind]. rewrite O. cbn [Nat.ltb Nat.leb Nat.eqb].
    destruct (e_order_ok (c_subset c) mi l2 (blocks c b (c_nc1 c) (c_nc2 c)) (snd r)) as (r' & ->). cbn [bind]. eauto.
Qed.
Lemma fanova_one_ok : forall crit c K mi l2 b Y idx, c_order c = 2 -> length b = c_a_tnt c -> exists f, fanova_one solve d_morph crit c K mi l2 b Y idx = Ok f.
Proof.
  intros crit c K mi l2 b Y idx O L. unfold fanova_one. cbv zeta.
  destruct (coefficients_ok c K mi l2 (map (take_rows 0%R idx) b) (map (fun v => v - mean (take_rows 0%R idx Y))%R (take_rows 0%R idx Y)) O ltac:(rewrite map_length; auto)) as (x & ->).
  cbn [bind]. unfold e_ancova. eauto.
Qed.

Lemma run_succeeds : forall crit quantile argsorts pb X Y p K sub mi la al ext, e_accepted pb X Y 2 p K sub mi la al ext -> wf_mat X ->
  (forall j, j < cols X -> distinct_values (S (Z.to_nat p)) (column (rows X) j)) ->
  exists h, fst (enhanced_analyze solve d_morph crit quantile argsorts pb X Y 2 p K sub mi la al ext) = Ok h.
Proof.
  intros crit quantile argsorts pb X Y p K sub mi la al ext A W V. rewrite run_accepted by auto. cbn [fst]. unfold e_result. cbv zeta.
  set (c := core_of X 2 p K sub ext).
  destruct A as (_ & _ & A1 & _ & _ & A2 & _).
  destruct (proj2 (first_columns_iff (Z.to_nat p) X ltac:(lia) W ltac:(intros Q; rewrite Q in A1; simpl in A1; lia)) V) as (f & F).
  unfold basis_matrix. change (c_p c) with (Z.to_nat p). rewrite F. destruct (first_columns_spec _ _ _ F) as (L1 & L2 & _).
  assert (LB : length (extend_basis c (concat f)) = c_a_tnt c) by (apply basis_length; auto; cbn; lia).
  assert (M : exists fits, mapM (fanova_one solve d_morph (crit al) c (Z.to_nat K) (Z.to_nat mi) la (extend_basis c (concat f)) Y)
                            (e_rows (length (rows X)) (Z.to_nat K) (c_subset c) argsorts) = Ok fits).
  { generalize (e_rows (length (rows X)) (Z.to_nat K) (c_subset c) argsorts). induction l as [|i l IH]; cbn [mapM]; [eauto|].
    destruct (fanova_one_ok (crit al) c (Z.to_nat K) (Z.to_nat mi) la (extend_basis c (concat f)) Y i eq_refl LB) as (g & ->). destruct IH as (x0 & ->). cbn [bind]. eauto. }
  destruct M as (fits & ->). cbn [bind]. unfold e_finalize. change (c_order c) with 2. cbn [Nat.eqb andb]. eexists. reflexivity.
Qed.
End Success.

Lemma run_degenerate : forall solve d_morph crit quantile argsorts pb X Y mo p K sub mi la al ext, e_accepted pb X Y mo p K sub mi la al ext -> wf_mat X ->
  ~ (forall j, j < cols X -> distinct_values (S (Z.to_nat p)) (column (rows X) j)) ->
  fst (enhanced_analyze solve d_morph crit quantile argsorts pb X Y mo p K sub mi la al ext) = Err (if ext then LinAlgError else ValueError).
Proof.
  intros solve d_morph crit quantile argsorts pb X Y mo p K sub mi la al ext A W V. rewrite run_accepted by auto. cbn [fst]. unfold e_result. cbv zeta.
  destruct A as (_ & _ & A1 & _ & _ & A2 & _).
  unfold basis_matrix. change (c_p (core_of X mo p K sub ext)) with (Z.to_nat p).
  destruct (first_columns (Z.to_nat p) X) as [f|] eqn:F; auto. exfalso. apply V.
  apply (proj1 (first_columns_iff (Z.to_nat p) X ltac:(lia) W ltac:(intros Q; rewrite Q in A1; simpl in A1; lia))). eauto.
Qed.

(** ** The cost matrix *)

Lemma combination_columns : forall n B x, (forall b, In b B -> length b = n) -> combine_columns n B x = combination n B x.
Proof.
  intros n B x H. destruct (combine_columns_spec n B x H) as (L & N). apply (nth_ext _ _ 0%R 0%R).
  - unfold combination. rewrite map_length, seq_length. auto.
  - intros i Hi. rewrite L in Hi. rewrite N by auto. unfold combination. symmetry. apply nth_error_nth. rewrite nth_error_map', nth_error_seq.
    destruct (Nat.ltb_spec i n); [reflexivity|lia].
Qed.

Lemma nth_seq_map : forall (f : nat -> R) n i, i < n -> nth i (map f (seq 0 n)) 0%R = f i.
Proof. intros f n i H. apply nth_error_nth. rewrite nth_error_map', nth_error_seq. destruct (Nat.ltb_spec i n); [reflexivity|lia]. Qed.

Lemma square_of_quadratic : forall M x, quadratic (square_of M (length x)) x = Rsum (map (fun r => sum (length x) (fun i => nth i r 0 * nth i x 0)%R ^ 2)%R M).
Proof.
  intros M x. unfold quadratic. set (w := length x). fold (sum w (fun i => Rsum (map (fun j => nth i x 0 * nth j (nth i (square_of M w) []) 0 * nth j x 0)%R (seq 0 w)))).
  transitivity (sum w (fun i => sum w (fun j => Rsum (map (fun r => (nth i r 0 * nth i x 0) * (nth j r 0 * nth j x 0))%R M)))).
  - apply sum_ext. intros i Hi. apply sum_ext. intros j Hj. unfold square_of.
    assert (E : nth i (map (fun i => map (fun j => Rsum (map (fun r => nth i r 0 * nth j r 0)%R M)) (seq 0 w)) (seq 0 w)) [] = map (fun j => Rsum (map (fun r => nth i r 0 * nth j r 0)%R M)) (seq 0 w)).
    { apply nth_error_nth. rewrite nth_error_map', nth_error_seq. destruct (Nat.ltb_spec i w); [reflexivity|lia]. }
    rewrite E, nth_seq_map by auto. rewrite <- Rsum_map_scal. rewrite (Rmult_comm _ (nth j x 0%R)), <- Rsum_map_scal. apply Rsum_ext. intros. ring.
  - induction M as [|r M IH].
    + apply sum_zero. intros. apply sum_zero. auto.
    + cbn [map]. change (Rsum (?u :: ?v)) with (u + Rsum v)%R. rewrite <- IH. clear IH.
      rewrite (sum_ext _ _ (fun i => (nth i r 0 * nth i x 0) * sum w (fun j => nth j r 0 * nth j x 0) + sum w (fun j => Rsum (map (fun r0 => nth i r0 0 * nth i x 0 * (nth j r0 0 * nth j x 0)) M)))%R).
      2:{ intros i Hi. rewrite <- sum_scal, <- sum_plus. apply sum_ext. intros j Hj. reflexivity. }
      rewrite sum_plus. f_equal. rewrite (sum_ext _ _ (fun i => sum w (fun j => nth j r 0 * nth j x 0) * (nth i r 0 * nth i x 0))%R) by (intros; ring).
      rewrite sum_scal. ring.
Qed.

Lemma map2_sum : forall (B : list (list R)) (x : list R) (f : list R -> R) , length x = length B -> Rsum (map2 (fun b v => f b * v)%R B x) = sum (length x) (fun i => f (nth i B []) * nth i x 0)%R.
Proof.
  intros B. induction B as [|b B IH]; intros [|v x] f L; try discriminate; [reflexivity|]. cbn [map2 length]. change (Rsum (?u :: ?v)) with (u + Rsum v)%R.
  rewrite sum_first. cbn [nth]. f_equal. apply IH. simpl in L. lia.
Qed.

Lemma dot_combination : forall n B x a, (forall b, In b B -> length b = n) -> length x = length B -> length a = n ->
  dot a (combination n B x) = sum (length x) (fun i => dot a (nth i B []) * nth i x 0)%R.
Proof.
  intros n B x a H L La. unfold dot at 1.
  assert (D : forall b, length b = n -> Rsum (map2 Rmult a b) = sum n (fun t => nth t a 0 * nth t b 0)%R).
  { clear - La. revert a La. induction n; intros [|u a] La [|v b] Lb; try discriminate; [reflexivity|]. cbn [map2]. change (Rsum (?u :: ?v)) with (u + Rsum v)%R.
    rewrite sum_first. cbn [nth]. f_equal. apply IHn; simpl in *; lia. }
  rewrite D by (unfold combination; rewrite map_length, seq_length; auto).
  transitivity (sum n (fun t => sum (length x) (fun i => nth t a 0 * nth t (nth i B []) 0 * nth i x 0))%R).
  - apply sum_ext. intros t Ht. unfold combination. rewrite nth_seq_map by auto. rewrite (map2_sum B x (fun b => nth t b 0%R)) by auto. rewrite <- sum_scal. apply sum_ext. intros. ring.
  - rewrite sum_swap. apply sum_ext. intros i Hi. unfold dot. rewrite D by (apply H, nth_In; lia).
    rewrite Rmult_comm, <- sum_scal. apply sum_ext. intros. ring.
Qed.

Lemma mean_combination : forall n B x, (forall b, In b B -> length b = n) -> length x = length B ->
  mean (combination n B x) = sum (length x) (fun i => mean (nth i B []) * nth i x 0)%R.
Proof.
  intros n B x H L. unfold mean at 1. unfold combination at 2. rewrite map_length, seq_length. 
  unfold combination. fold (sum n (fun i => Rsum (map2 (fun b v => nth i b 0 * v)%R B x))).
  rewrite (sum_ext _ _ (fun i => sum (length x) (fun j => nth i (nth j B []) 0 * nth j x 0)%R)) by (intros t Ht; apply (map2_sum B x (fun b => nth t b 0%R)); auto).
  rewrite sum_swap. unfold Rdiv. rewrite Rmult_comm, <- sum_scal. apply sum_ext. intros i Hi.
  assert (Lb : length (nth i B []) = n) by (apply H, nth_In; lia). unfold mean. rewrite Lb, sum_list, Lb.
  rewrite (sum_ext _ (fun t => nth t (nth i B []) 0 * nth i x 0)%R (fun t => nth i x 0 * nth t (nth i B []) 0)%R) by (intros; ring). rewrite sum_scal. unfold Rdiv. ring.
Qed.

(** The quadratic form of a block is the sum of the squares of the function's mean and of its inner products with the lower columns. *)
Lemma sr_quadratic : forall n B x lower, (forall b, In b B -> length b = n) -> length x = length B ->
  quadratic (square_of (sr n B lower) (length x)) x =
  (mean (combination n B x) ^ 2 + Rsum (map (fun a => inner a (combination n B x) ^ 2) (firstn lower B)))%R.
Proof.
  intros n B x lower H L. rewrite square_of_quadratic. unfold sr. cbn [map]. change (Rsum (?u :: ?v)) with (u + Rsum v)%R. f_equal.
  - rewrite mean_combination by auto. f_equal. apply sum_ext. intros i Hi. f_equal. rewrite (nth_indep _ 0%R (mean [])) by (rewrite map_length; lia). apply map_nth.
  - rewrite map_map. apply Rsum_ext. intros a Ha. f_equal. unfold inner. fold (dot a (combination n B x)).
    assert (La : length a = n) by (apply H; rewrite <- (firstn_skipn lower B); apply in_app_iff; auto).
    rewrite dot_combination by auto. rewrite La. unfold Rdiv. rewrite Rmult_comm, <- sum_scal. apply sum_ext. intros i Hi.
    rewrite (nth_indep _ 0%R (dot a [] * / INR n)%R) by (rewrite map_length; lia). rewrite (map_nth (fun b => dot a b * / INR n)%R). ring.
Qed.
