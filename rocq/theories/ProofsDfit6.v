(** * Enhanced HDMR with the extended basis: runs without bootstrap. *)
From Coq Require Import Reals String List Arith ZArith Bool Lia Lra Psatz Permutation Sorted.
From Verif Require Import Base Arrays ModelFast ListFacts ModelGroups Stats Sums ModelScale ModelMorris ModelMorrisAnalyze ModelHdmr SpecHdmr SpecRidge ProofsRidge ProofsRidge2 ProofsMorris3 ProofsHdmr ProofsHdmr2 ProofsHdmr3 ModelEhdmr SpecEhdmr SpecEfit SpecDfit ProofsEfit ProofsEfit2 ProofsEfit3
  ProofsEhdmr ProofsEhdmr2 ProofsEhdmr3 ProofsEhdmr4 ProofsEhdmr5 ProofsEhdmr6 ProofsEhdmr7 ProofsEhdmr8 RField SpecDmorph ModelDfit ProofsDfit ProofsDfit2 ProofsDfit3 ProofsDfit4 ProofsDfit5.
Import ListNotations.
Local Open Scope nat_scope.

Lemma cov1_seq : forall n f g, cov1 (map f (seq 0 n)) (map g (seq 0 n)) = ((total n (fun r => f r * g r) - total n f * total n g / INR n) / (INR n - 1))%R.
Proof.
  intros n f g. unfold cov1. rewrite !mean_seq, map_length, seq_length. f_equal. destruct n as [|n]; [unfold total; cbn; unfold Rdiv; ring|]. assert (IN : (INR (S n) <> 0)%R) by (apply not_0_INR; lia).
  set (k := S n) in *. transitivity (total k (fun r => (f r - total k f / INR k) * (g r - total k g / INR k))%R).
  - unfold total at 3. generalize (total k f / INR k)%R (total k g / INR k)%R. intros a b. induction (seq 0 k) as [|x l IH]; auto. cbn [map map2]. rewrite !Rsum_cons, IH. auto.
  - rewrite (total_ext k _ (fun r => f r * g r + (- (total k g / INR k) * f r + (- (total k f / INR k) * g r + total k f / INR k * (total k g / INR k))))%R) by (intros; ring).
    rewrite !total_plus, !total_scal. assert (EC : forall v, total k (fun _ => v) = (INR k * v)%R).
    { intros v. unfold total. rewrite Rsum_const, seq_length. ring. }
    rewrite EC. field. auto.
Qed.
Lemma rows_all : forall n B, (forall c, In c B -> length c = n) -> rows_of (seq 0 n) B = B.
Proof.
  intros n B H. unfold rows_of. rewrite <- (map_id B) at 2. apply map_ext_in. intros c Hc. apply (nth_ext _ _ 0%R 0%R); [rewrite map_length, seq_length; symmetry; auto|].
  intros r Hr. rewrite map_length, seq_length in Hr. apply nth_map_seq. auto.
Qed.
Lemma take_all : forall (Y : list R) n, length Y = n -> map (fun i => nth i Y 0%R) (seq 0 n) = Y.
Proof. intros Y n <-. apply (nth_ext _ _ 0%R 0%R); [rewrite map_length, seq_length; auto|]. intros r Hr. rewrite map_length, seq_length in Hr. apply nth_map_seq. auto. Qed.

Section Run.
Variable solve : list (list R) -> list R -> result (list R).
Variable d_morph : list (list R) -> list (list (list R)) -> list R -> nat -> result (list R).
Variable crit : R -> nat -> Z -> option R.
Variable quantile : R -> fval.
Variable argsorts : nat -> list nat.

(** Without bootstrap the indices are those of the only fit. *)
Lemma one_fit : forall pb X Y mo p sub mi l2 al ext h, 0 < cols X -> fst (enhanced_analyze solve d_morph crit quantile argsorts pb X Y mo p 1 sub mi l2 al ext) = Ok h ->
  eo_idx h = [seq 0 (length Y)] /\ length Y = length (rows X) /\ 300 <= length Y /\
  exists f, eo_fits h = [f] /\ length (ef_Y_e f) = length (hdmr_term_list (cols X) 2) /\
  (var Y <> 0%R -> forall j fj, nth_error (ef_Y_e f) j = Some fj -> let y := centred Y (seq 0 (length Y)) in let s := row_sums (length Y) (ef_Y_e f) in
    nth_error (eo_S h) j = Some (Some (cov1 fj y / var Y)%R) /\ nth_error (eo_Sa h) j = Some (Some (cov1 fj fj / var Y)%R) /\ nth_error (eo_Sb h) j = Some (Some (cov1 fj (vsub s fj) / var Y)%R)).
Proof.
  intros pb X Y mo p sub mi l2 al ext h D E. destruct (run_fit _ _ _ _ _ _ _ _ _ _ _ _ _ _ _ _ _ D E) as (first & F1 & Q). cbv zeta in Q. set (c := core_of X mo p 1 sub ext) in *.
  destruct Q as (-> & _ & O & LB & EI & LF & LI & _ & Q). pose proof (run_inv _ _ _ _ _ _ _ _ _ _ _ _ _ _ _ _ _ D E) as (A & _).
  assert (LY : length Y = length (rows X)) by (destruct A as (_ & _ & _ & A & _); auto). assert (GE : 300 <= length (rows X)) by (destruct A as (_ & _ & A & _); auto).
  change (Z.to_nat 1) with 1 in *. unfold e_rows in EI. cbn [Nat.eqb] in EI. rewrite <- LY in EI. split; auto. split; auto. split; [lia|].
  destruct (eo_fits h) as [|f [|]] eqn:EF; try discriminate. exists f. split; auto.
  assert (QF := Q 0 f (seq 0 (length Y)) eq_refl). rewrite EI in QF. specialize (QF eq_refl).
  assert (O3 : 1 <= c_order c <= 3) by lia. pose proof (fit_columns _ _ _ _ _ _ _ _ _ _ _ O3 LB QF) as (LC & WC).
  assert (NCT : c_nc_t c = length (hdmr_term_list (cols X) 2)) by (rewrite c_nc_t_hdmr, <- hdmr_n_length; reflexivity).
  split; [lia|]. intros V j fj Hj. cbv zeta. apply fanova_one_inv in QF; [|lia|auto]. destruct QF as (_ & _ & _ & _ & _ & QA).
  assert (VC : var (centred Y (seq 0 (length Y))) = var Y) by (rewrite centred_var, take_all; auto; destruct Y; [simpl in *; lia|discriminate]).
  unfold e_ancova in QA. rewrite centred_length, seq_length, VC in QA. injection QA as Q1 Q2 Q3.
  apply run_inv in E; auto. destruct E as (_ & _ & first' & fits & _ & _ & FN). apply e_finalize_inv in FN; [|reflexivity]. cbv zeta in FN. fold c in FN.
  destruct FN as (_ & _ & F3 & _ & F5 & F6 & F7 & _). rewrite EF in F3. subst fits.
  assert (HN : j < c_nc_t c) by (apply nth_error_Some_lt in Hj; lia).
  assert (G : forall g (l : list fval) v, l = map (fun i => fmean (across (map g [f]) i)) (seq 0 (c_nc_t c)) -> nth_error (g f) j = Some (Some v) -> nth_error l j = Some (Some v)).
  { intros g l v -> Hg. rewrite nth_error_map', nth_error_seq. destruct (Nat.ltb_spec j (c_nc_t c)); [|lia]. cbn [option_map Nat.add]. f_equal. unfold across. cbn [map].
    rewrite (nth_error_nth _ _ _ Hg). unfold fmean. cbn [all_some]. f_equal. unfold mean, Rsum. simpl. field. }
  assert (FD : forall v, fdiv v (var Y) = Some (v / var Y)%R). { intros v. unfold fdiv. destruct (ModelScale.Reqb (var Y) 0) eqn:ER; auto. apply Reqb_true in ER. contradiction. }
  split; [|split].
  - apply (G ef_S); auto. rewrite Q1, nth_error_map', Hj. cbn [option_map]. rewrite FD. auto.
  - apply (G ef_Sa); auto. rewrite Q2, nth_error_map', Hj. cbn [option_map]. rewrite FD. auto.
  - apply (G ef_Sb); auto. rewrite Q3, nth_error_map', Hj. cbn [option_map]. rewrite FD. auto.
Qed.
End Run.

Section Whole.
Variable solve : list (list R) -> list R -> result (list R).
Variable pinv : forall m n, matrix.matrix R m n -> option (matrix.matrix R n m).
Variable matrix_rank : forall m n, matrix.matrix R m n -> nat.
Variable svd : forall m, matrix.matrix R m m -> option (matrix.matrix R m m * matrix.matrix R 1 m * matrix.matrix R m m).
Hypothesis pinvP : pinv_ok (F:=R_realFieldType) pinv.
Hypothesis rankP : rank_ok (F:=R_realFieldType) matrix_rank.
Hypothesis svdP : svd_ok (F:=R_realFieldType) svd.
Variable crit : R -> nat -> Z -> option R.
Variable quantile : R -> fval.
Variable argsorts : nat -> list nat.
Notation run := (enhanced_analyze solve (d_morph_lists pinv matrix_rank svd) crit quantile argsorts).

Theorem run_whole : forall pb X Y mo p sub mi l2 al h, 0 < cols X -> wf_mat X -> fst (run pb X Y mo p 1 sub mi l2 al true) = Ok h ->
  exists first f, first_columns (Z.to_nat p) X = Some first /\ eo_fits h = [f] /\
    let phi a := nth a first [] in
    let ts := map (fun i => [i]) (seq 0 (cols X)) ++ combinations 2 (seq 0 (cols X)) in
    length (concat (map (own_columns true phi) ts)) <= length Y -> independent (map (own_columns false phi) ts) (length Y) ->
    (forall z a b, nth_error ts z = Some [a; b] -> forall col, In col (phi a ++ phi b) -> inner col (nth z (ef_Y_e f) []) = 0%R) /\
    (var Y <> 0%R ->
      (forall j, j < cols X -> exists s sa sb, nth_error (eo_S h) j = Some (Some s) /\ nth_error (eo_Sa h) j = Some (Some sa) /\ nth_error (eo_Sb h) j = Some (Some sb) /\ (s = sa + sb)%R) /\
      (cols X = 2 -> nth_error (eo_Sb h) 2 = Some (Some 0%R))).
Proof.
  intros pb X Y mo p sub mi l2 al h D W E. destruct (one_fit _ _ _ _ _ _ _ _ _ _ _ _ _ _ _ _ D E) as (EI & LY & GE & f & EF & LF & IND1).
  assert (E' : fst (enhanced_analyze solve (d_morph_lists pinv matrix_rank svd) crit quantile (fun _ => seq 0 (length (rows X))) pb X Y mo p 1 sub mi l2 al true) = Ok h) by exact E.
  destruct (run_cheapest solve pinv matrix_rank svd pinvP rankP svdP crit quantile _ pb X Y mo p 1 sub mi l2 al h D W E' (fun _ => Permutation_refl _)) as (first & F1 & RC).
  exists first, f. split; auto. split; auto. cbv zeta. intros LC IND.
  specialize (RC 0 f (seq 0 (length Y))). rewrite EF, EI in RC. specialize (RC eq_refl eq_refl). cbv zeta in RC. rewrite seq_length in RC.
  destruct (first_columns_spec _ _ _ F1) as (L1 & L2 & L3). specialize (L3 W).
  assert (NR : rows X <> []) by (intros Q; rewrite Q in LY; simpl in LY; lia).
  set (phi := fun a => nth a first []) in *. set (ts := map (fun i => [i]) (seq 0 (cols X)) ++ combinations 2 (seq 0 (cols X))) in *. set (n := length Y) in *.
  assert (PN : forall a col, In col (phi a) -> length col = n).
  { intros a col Hc. rewrite LY. unfold phi in Hc. destruct (Nat.lt_ge_cases a (length first)) as [Ha|Ha]; [eapply L3; eauto; apply nth_In; auto|rewrite nth_overflow in Hc by auto; destruct Hc]. }
  assert (PHE : forall a, rows_of (seq 0 n) (nth a first []) = phi a) by (intros a; apply rows_all; apply PN).
  assert (LT2 : forall t, In t ts -> length t <= 2).
  { intros t Ht. apply in_app_or in Ht as [Ht|Ht]; [apply in_map_iff in Ht as (i & <- & _); simpl; lia|]. apply in_pairs in Ht as (a & a' & -> & _). simpl. lia. }
  assert (OE : forall ext, map (own_columns ext (fun a => rows_of (seq 0 n) (nth a first []))) ts = map (own_columns ext phi) ts).
  { intros ext. apply map_ext_in. intros t Ht. pose proof (LT2 t Ht). destruct t as [|x [|x' [|]]]; try (simpl in *; lia); cbn [own_columns]; rewrite ?PHE; auto. }
  rewrite !OE in RC. specialize (RC LC IND). destruct RC as (xs & EX & CH & LE & CE).
  set (Bs := map (own_columns true phi) ts) in *.
  assert (HE : forall vs, hierarchy n (fun a => rows_of (seq 0 n) (nth a first [])) ts vs = hierarchy n phi ts vs).
  { intros vs. unfold hierarchy. apply total_ext. intros z Hz. cbv zeta. pose proof (LT2 _ (nth_In ts [] Hz)). destruct (nth z ts []) as [|x [|x' [|]]]; try (simpl in *; lia); cbn [own_columns lower_columns]; rewrite ?PHE; auto. }
  assert (CH' : cheapest_fit Bs (centred Y (seq 0 n)) (hierarchy n phi ts) xs).
  { destruct CH as (C1 & C2 & C3). split; auto. split; auto. intros es H1 H2 H3. rewrite <- !HE. auto. }
  clear CH. assert (PL : forall a, a < cols X -> length (phi a) = Z.to_nat p) by (intros a Ha; apply L2, nth_In; rewrite L1; auto).
  assert (PR : forall t, In t (combinations 2 (seq 0 (cols X))) -> exists a b, t = [a; b] /\ a < cols X /\ b < cols X /\ a <> b).
  { intros t Ht. apply in_pairs in Ht as (a & a' & -> & H1 & H2). exists a, a'. repeat split; auto; lia. }
  assert (NP : 0 < n) by lia. assert (LYC : length (centred Y (seq 0 n)) = n) by (rewrite centred_length, seq_length; auto).
  assert (MC : forall a col, a < cols X -> In col (phi a) -> total n (fun r => nth r col 0%R) = 0%R).
  { intros a col Ha Hc. assert (HB : nth_error first a = Some (phi a)) by (apply nth_error_nth'; lia). destruct (first_columns_orthonormal _ _ _ F1 NR W a _ HB) as (_ & _ & ON).
    destruct (In_nth _ _ [] Hc) as (q & Hq & HQ). assert (HQ' : nth_error (phi a) q = Some col) by (rewrite <- HQ; apply nth_error_nth'; auto). destruct (ON q q col col HQ' HQ') as (M & _).
    rewrite <- (take_all col n) in M by (eapply PN; eauto). rewrite mean_seq in M. apply (f_equal (fun t => t * INR n)%R) in M. unfold Rdiv in M. rewrite Rmult_assoc, Rinv_l, Rmult_1_r, Rmult_0_l in M by (apply not_0_INR; lia). auto. }
  assert (MZ : forall a q, a < cols X -> q < Z.to_nat p -> total n (F phi a q) = 0%R).
  { intros a q Ha Hq. apply (MC a); auto. apply nth_In. rewrite PL; auto. }
  pose proof (pair_orthogonal (cols X) (Z.to_nat p) n phi (combinations 2 (seq 0 (cols X))) PL PN PR NP (centred Y (seq 0 n)) LYC xs CH' MZ) as PO.
  destruct CH' as (SH & BEST & _). pose proof (residual_orthogonal Bs (centred Y (seq 0 n)) xs BEST) as RO. rewrite LYC in RO.
  assert (LBS : length Bs = length ts) by apply map_length.
  set (comp := fun z r => total (width Bs z) (fun i => at3 Bs z i r * at2 xs z i)%R).
  assert (CS : forall z, z < length ts -> nth z (ef_Y_e f) [] = map (comp z) (seq 0 n)).
  { intros z Hz. rewrite CE by auto. unfold combination. apply map_ext. intros r. rewrite (map2_total (fun v => nth r v 0%R)); [reflexivity|]. destruct SH as (_ & SH). apply SH. lia. }
  assert (TSD : forall j, cols X + j < length ts -> nth (cols X + j) ts [] = nth j (combinations 2 (seq 0 (cols X))) []) by (intros; apply ts_pair).
  assert (LTS : length ts = cols X + length (combinations 2 (seq 0 (cols X)))) by apply ts_length.
  assert (FP : forall j, j < length (combinations 2 (seq 0 (cols X))) -> forall r, comp (cols X + j) r = fpair (cols X) (Z.to_nat p) phi (combinations 2 (seq 0 (cols X))) xs j r).
  { intros j Hj r. unfold comp, Bs, ts. rewrite (pair_total (cols X) (Z.to_nat p) phi _ PL PR j r (at2 xs (cols X + j))) by auto. reflexivity. }
  assert (ORT : forall j col, j < length (combinations 2 (seq 0 (cols X))) -> In col (phi (fa (combinations 2 (seq 0 (cols X))) j) ++ phi (fb (combinations 2 (seq 0 (cols X))) j)) -> total n (fun r => nth r col 0 * comp (cols X + j)%nat r)%R = 0%R).
  { intros j col Hj Hc. destruct (pair_ends (cols X) _ PR j Hj) as (_ & HA & HB & _). apply in_app_or in Hc as [Hc|Hc]; destruct (In_nth _ _ [] Hc) as (q & Hq & <-); rewrite PL in Hq by auto; destruct (PO j q Hj Hq) as (Q1 & Q2).
    - etransitivity; [|exact Q1]. apply total_ext. intros r Hr. rewrite FP by auto. reflexivity.
    - etransitivity; [|exact Q2]. apply total_ext. intros r Hr. rewrite FP by auto. reflexivity. }
  split.
  - intros z a b Hz col Hc. assert (LZ : z < length ts) by (eapply nth_error_Some_lt; eauto). apply nth_error_nth with (d := []) in Hz. rewrite CS by auto.
    assert (GD : cols X <= z). { destruct (Nat.lt_ge_cases z (cols X)) as [Hd|]; auto. unfold ts in Hz. rewrite ts_single in Hz by auto. discriminate. }
    replace z with (cols X + (z - cols X)) in * by lia. set (j := z - cols X) in *. rewrite TSD in Hz by auto. assert (Hj : j < length (combinations 2 (seq 0 (cols X)))) by lia.
    destruct (pair_ends (cols X) _ PR j Hj) as (PE & HA & HB & _). rewrite Hz in PE. injection PE as -> ->.
    assert (LCOL : length col = n) by (apply in_app_or in Hc as [Hc|Hc]; eapply PN; eauto). rewrite inner_seq by auto. rewrite ORT by auto. unfold Rdiv. ring.
  - intros V. specialize (IND1 V).
    assert (YC : forall r, r < n -> nth r (centred Y (seq 0 n)) 0%R = (nth r Y 0 - mean Y)%R).
    { intros r Hr. unfold centred. cbv zeta. rewrite (take_all Y n eq_refl). rewrite (nth_indep _ 0%R (0 - mean Y)%R) by (rewrite map_length; auto). rewrite (map_nth (fun v => v - mean Y)%R). auto. }
    assert (YS : centred Y (seq 0 n) = map (fun r => nth r (centred Y (seq 0 n)) 0%R) (seq 0 n)) by (symmetry; apply take_all; auto).
    assert (WC : forall c, In c (ef_Y_e f) -> length c = n).
    { intros c Hc. destruct (In_nth _ _ [] Hc) as (z & Hz & <-). rewrite CS by lia. rewrite map_length, seq_length. auto. }
    destruct (row_sums_spec n (ef_Y_e f) WC) as (RL & RN).
    assert (RS : row_sums n (ef_Y_e f) = map (explained Bs xs) (seq 0 n)).
    { apply (nth_ext _ _ 0%R 0%R); [rewrite RL, map_length, seq_length; auto|]. intros r Hr. rewrite RL in Hr. rewrite RN, nth_map_seq by auto. rewrite (Rsum_map_total _ []). rewrite LE. unfold explained. rewrite LBS. apply total_ext. intros z Hz. rewrite CS by auto. rewrite nth_map_seq by auto. reflexivity. }
    assert (M1 : forall j, j < cols X -> total n (comp j) = 0%R).
    { intros j Hj. unfold comp. rewrite total_swap. rewrite (total_ext _ _ (fun _ => 0%R)); [apply total_zero|]. intros i Hi. rewrite (total_ext n _ (fun r => at2 xs j i * at3 Bs j i r)%R) by (intros; ring). rewrite total_scal.
      unfold at3, at2. unfold width in Hi. unfold Bs, ts in *. rewrite block_of in * by lia. rewrite ts_single in * by auto. cbn [own_columns] in *. rewrite (MC j) by (auto; apply nth_In; auto). ring. }
    assert (CVS : forall a b, length a = n -> length b = n -> vsub a b = map (fun r => nth r a 0 - nth r b 0)%R (seq 0 n)).
    { intros a b La Lb. apply (nth_ext _ _ 0%R 0%R); [unfold vsub; rewrite length_map2, map_length, seq_length; lia|]. intros r Hr. unfold vsub in Hr. rewrite length_map2 in Hr. rewrite nth_vsub by lia. rewrite nth_map_seq by lia. auto. }
    split.
    + intros j Hj. assert (HJ : nth_error (ef_Y_e f) j = Some (map (comp j) (seq 0 n))) by (rewrite <- CS by lia; apply nth_error_nth'; lia).
      destruct (IND1 j _ HJ) as (I1 & I2 & I3). do 3 eexists. split; [exact I1|]. split; [exact I2|]. split; [exact I3|].
      rewrite RS, CVS by (rewrite map_length, seq_length; auto). rewrite YS, !cov1_seq. rewrite !M1 by auto. rewrite (total_ext n (fun r => comp j r * (nth r (map (explained Bs xs) (seq 0 n)) 0 - nth r (map (comp j) (seq 0 n)) 0))%R (fun r => comp j r * explained Bs xs r + - 1 * (comp j r * comp j r))%R)
        by (intros r Hr; rewrite !nth_map_seq by auto; ring). rewrite total_plus, total_scal.
      specialize (RO j ltac:(lia)). change (total n (fun r => comp j r * (nth r (centred Y (seq 0 n)) 0 - explained Bs xs r))%R = 0%R) in RO.
      rewrite (total_ext n _ (fun r => comp j r * nth r (centred Y (seq 0 n)) 0 + - 1 * (comp j r * explained Bs xs r))%R) in RO by (intros; ring). rewrite total_plus, total_scal in RO.
      replace (total n (fun r => comp j r * nth r (centred Y (seq 0 n)) 0))%R with (total n (fun r => comp j r * explained Bs xs r))%R by lra. unfold Rdiv. ring.
    + intros C2. assert (CB : combinations 2 (seq 0 (cols X)) = [[0; 1]]) by (rewrite C2; reflexivity). rewrite CB in LTS. simpl length in LTS.
      assert (HJ : nth_error (ef_Y_e f) 2 = Some (map (comp 2%nat) (seq 0 n))) by (rewrite <- CS by lia; apply nth_error_nth'; lia).
      destruct (IND1 2 _ HJ) as (_ & _ & I3). rewrite I3. f_equal. f_equal.
      rewrite RS, CVS by (rewrite map_length, seq_length; auto). rewrite cov1_seq.
      assert (EE : forall r, r < n -> (nth r (map (explained Bs xs) (seq 0 n)) 0 - nth r (map (comp 2%nat) (seq 0 n)) 0 = comp 0%nat r + comp 1%nat r)%R).
      { intros r Hr. rewrite !nth_map_seq by auto. unfold explained. rewrite LBS, LTS, C2. change (total (2 + 1) (fun z => comp z r) - comp 2%nat r = comp 0%nat r + comp 1%nat r)%R. unfold total. cbn. ring. }
      rewrite (total_ext n _ (fun r => comp 2%nat r * comp 0%nat r + comp 2%nat r * comp 1%nat r)%R) by (intros; rewrite EE by auto; ring).
      rewrite (total_ext n (fun r => nth r (map (explained Bs xs) (seq 0 n)) 0 - nth r (map (comp 2%nat) (seq 0 n)) 0)%R (fun r => comp 0%nat r + comp 1%nat r)%R) by auto.
      rewrite total_plus, (total_plus n (comp 0%nat) (comp 1%nat)), (M1 0), (M1 1) by lia.
      assert (CZ : forall j, j < 2 -> total n (fun r => comp 2%nat r * comp j r)%R = 0%R).
      { intros j Hj. unfold comp at 2. rewrite (total_ext n _ (fun r => total (width Bs j) (fun i => at2 xs j i * (at3 Bs j i r * comp 2%nat r)))%R) by (intros; rewrite <- total_scal; apply total_ext; intros; ring).
        rewrite total_swap. rewrite (total_ext _ _ (fun _ => 0%R)); [apply total_zero|]. intros i Hi. rewrite total_scal. unfold at3, at2. unfold width in Hi.
        assert (BJ : nth j Bs [] = phi j) by (unfold Bs, ts; rewrite block_of by lia; rewrite ts_single by lia; reflexivity). rewrite BJ in *.
        specialize (ORT 0 (nth i (phi j) [])). rewrite CB in ORT. cbn [length fa fb nth] in ORT. rewrite C2 in ORT. cbn [Nat.add] in ORT. rewrite ORT; [ring|lia|].
        apply in_or_app. destruct j as [|[|]]; [left|right|lia]; apply nth_In; auto. }
      rewrite !CZ by lia. unfold Rdiv. ring.
Qed.
End Whole.
