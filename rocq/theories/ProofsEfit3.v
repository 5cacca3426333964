(** * Enhanced HDMR without the extended basis: the fits of a run, and what the penalty does to them. *)
From Coq Require Import Reals String List Arith ZArith Bool Lia Lra Psatz Permutation.
From Verif Require Import Base Arrays ListFacts ModelGroups Stats Sums ModelScale ModelMorris ModelMorrisAnalyze ModelHdmr SpecHdmr SpecRidge ProofsRidge ProofsRidge2 ProofsHdmr ProofsHdmr2 ProofsHdmr3 ModelEhdmr SpecEhdmr SpecEfit ProofsEfit ProofsEfit2 ProofsEhdmr2 ProofsEhdmr3 ProofsEhdmr4 ProofsEhdmr5.
Import ListNotations.
Local Open Scope nat_scope.

Lemma terms_two : forall d, hdmr_term_list d 2 = map (fun i => [i]) (seq 0 d) ++ combinations 2 (seq 0 d).
Proof. intros d. unfold hdmr_term_list. cbn. rewrite ?app_nil_r. reflexivity. Qed.

Lemma seq_as_map : forall a k, seq a k = map (fun z => a + z) (seq 0 k).
Proof. induction a as [|a IH]; intros k; [symmetry; apply map_id|]. rewrite <- seq_shift, IH, map_map. reflexivity. Qed.

Section Run.
Variable solve : list (list R) -> list R -> result (list R).
Hypothesis S0 : solves solve.
Variable d_morph : list (list R) -> list (list (list R)) -> list R -> nat -> result (list R).
Variable crit : R -> nat -> Z -> option R.
Variable quantile : R -> fval.
Variable argsorts : nat -> list nat.
Notation run := (enhanced_analyze solve d_morph crit quantile argsorts).

Definition rows_of (idx : list nat) (B : list (list R)) : list (list R) := map (fun col => map (fun i => nth i col 0%R) idx) B.

Theorem run_backfitted : forall pb X Y mo p K sub mi l2 al h, 0 < cols X -> fst (run pb X Y mo p K sub mi l2 al false) = Ok h ->
  (forall k, Permutation (argsorts k) (seq 0 (length (rows X)))) ->
  exists first, first_columns (Z.to_nat p) X = Some first /\
  forall k f idx, nth_error (eo_fits h) k = Some f -> nth_error (eo_idx h) k = Some idx ->
    let own t := rows_of idx (own_columns false (fun a => nth a first []) t) in
    let B1 := map own (map (fun i => [i]) (seq 0 (cols X))) in
    let B2 := map own (combinations 2 (seq 0 (cols X))) in
    exists x1 x2, ef_x f = concat x1 ++ concat x2 /\
      backfitted (Z.to_nat mi) l2 B1 (centred Y idx) x1 /\
      backfitted (Z.to_nat mi) l2 B2 (map (fun r => nth r (centred Y idx) 0 - explained B1 x1 r)%R (seq 0 (length idx))) x2 /\
      forall r, r < length idx -> Rsum (map (fun col => nth r col 0%R) (ef_Y_e f)) = (explained B1 x1 r + explained B2 x2 r)%R.
Proof.
  intros pb X Y mo p K sub mi l2 al h D E P. pose proof (e_run_rows _ _ _ _ _ _ _ _ _ _ _ _ _ _ _ _ _ D E P) as RR.
  destruct (run_fit _ _ _ _ _ _ _ _ _ _ _ _ _ _ _ _ _ D E) as (first & F1 & Q). exists first. split; auto.
  cbv zeta in Q. set (c := core_of X mo p K sub false) in *. destruct Q as (-> & _ & O & LB & _ & _ & _ & _ & Q).
  intros k f idx Hf Hi. specialize (Q k f idx Hf Hi). cbv zeta.
  destruct (RR idx (nth_error_In _ _ Hi)) as (LI & GE & _). assert (NI : c_subset c = length idx) by (rewrite LI; reflexivity).
  destruct (first_columns_spec _ _ _ F1) as (L1 & L2 & _).
  assert (L2P : (0 <= l2)%R). { apply run_inv in E; auto. destruct E as ((_ & _ & _ & _ & _ & _ & _ & _ & _ & _ & LL) & _). lra. }
  apply fanova_one_inv in Q; [|lia|auto]. destruct Q as (LX & _ & QC & QE & _).
  set (b := extend_basis c (concat first)) in *. set (bi := map (take_rows 0%R idx) b) in *.
  set (own := fun t => rows_of idx (own_columns false (fun a => nth a first []) t)).
  assert (SM : forall A B (g : A -> B) l i, term_columns c (map g l) i = map g (term_columns c l i)).
  { intros A B g l i. unfold term_columns. cbv zeta. unfold slice. rewrite !skipn_map, !firstn_map.
    destruct (i <? c_nc1 c); auto. destruct (i <? c_nc1 c + c_nc2 c); auto. }
  assert (NCT : c_nc_t c = length (hdmr_term_list (cols X) 2)) by (rewrite c_nc_t_hdmr, <- hdmr_n_length; reflexivity).
  assert (NC1 : c_nc1 c = cols X) by reflexivity.
  assert (NC2 : c_nc2 c = length (combinations 2 (seq 0 (cols X)))).
  { rewrite terms_two, app_length, map_length, seq_length in NCT. unfold c_nc_t, c_nc3 in NCT. rewrite O in NCT. cbn [Nat.eqb] in NCT. lia. }
  assert (ET : forall i, i < c_nc_t c -> term_columns c bi i = own (nth i (hdmr_term_list (cols X) 2) [])).
  { intros i Hi2. unfold bi. rewrite SM. unfold b. rewrite term_columns_spec by (auto; lia). rewrite term_blocks_own by (first [exact L1 | left; lia]).
    change (all_terms c) with (hdmr_term_list (cols X) 2). rewrite (nth_indep _ _ (own_columns (c_ext c) (fun a => nth a first []) [])) by (rewrite map_length; lia).
    rewrite map_nth. reflexivity. }
  set (B1 := map own (map (fun i => [i]) (seq 0 (cols X)))). set (B2 := map own (combinations 2 (seq 0 (cols X)))).
  assert (EB1 : blocks c bi 0 (c_nc1 c) = B1).
  { unfold blocks, B1. rewrite NC1, map_map. apply map_ext_in. intros i Hi2. apply in_seq in Hi2. rewrite ET by (unfold c_nc_t; lia).
    rewrite terms_two, app_nth1 by (rewrite map_length, seq_length; lia). rewrite nth_map_seq by lia. reflexivity. }
  assert (EB2 : blocks c bi (c_nc1 c) (c_nc2 c) = B2).
  { unfold blocks, B2. apply (nth_ext _ _ [] []); [rewrite !map_length, seq_length; lia|]. intros j Hj. rewrite map_length, seq_length in Hj.
    rewrite (nth_indep _ [] (term_columns c bi 0)) by (rewrite map_length, seq_length; auto). rewrite (map_nth (term_columns c bi)), seq_nth by auto.
    rewrite ET by (unfold c_nc_t; lia). rewrite terms_two, app_nth2 by (rewrite map_length, seq_length; lia). rewrite map_length, seq_length.
    rewrite (nth_indep _ [] (own [])) by (rewrite map_length; lia). rewrite (map_nth own). f_equal. f_equal. lia. }
  assert (W : forall t v, In v (own t) -> length v = length idx).
  { intros t v Hv. unfold own, rows_of in Hv. apply in_map_iff in Hv as (w & <- & _). apply map_length. }
  assert (W1 : forall B v, In B B1 -> In v B -> length v = length idx) by (intros B v HB; apply in_map_iff in HB as (t & <- & _); apply W).
  assert (W2 : forall B v, In B B2 -> In v B -> length v = length idx) by (intros B v HB; apply in_map_iff in HB as (t & <- & _); apply W).
  unfold coefficients in QC. change (c_ext c) with false in QC. cbv iota in QC. rewrite O, NI, EB1, EB2 in QC. change (1 <? 2) with true in QC. change (2 =? 3) with false in QC. cbv iota in QC.
  destruct (e_order solve (length idx) (Z.to_nat mi) l2 B1 (centred Y idx)) as [[x1 r1]|] eqn:E1; [|discriminate]. cbn [bind snd fst] in QC.
  destruct (e_order solve (length idx) (Z.to_nat mi) l2 B2 r1) as [[x2 r2]|] eqn:E2; [|discriminate]. cbn [bind snd fst] in QC. injection QC as EX.
  assert (NP : 0 < length idx) by lia.
  destruct (order_backfitted solve S0 _ _ _ _ _ _ _ W1 (centred_length Y idx) NP L2P E1) as (H1 & SH1 & LR1 & R1).
  destruct (order_backfitted solve S0 _ _ _ _ _ _ _ W2 LR1 NP L2P E2) as (H2 & SH2 & _ & _).
  assert (ER : r1 = map (fun r => nth r (centred Y idx) 0 - explained B1 x1 r)%R (seq 0 (length idx))).
  { apply (nth_ext _ _ 0%R 0%R); [rewrite map_length, seq_length; auto|]. intros r Hr. rewrite nth_map_seq by lia. apply R1. lia. }
  exists x1, x2. split; [auto|]. split; auto. split; [rewrite <- ER; auto|].
  (* the components *)
  assert (FP : forall i, i < c_nc_t c -> length (term_columns c bi i) = e_f_p c i) by (intros i Hi2; apply term_columns_length; auto; [lia|unfold bi; rewrite map_length; auto]).
  destruct SH1 as (N1 & S1). destruct SH2 as (N2 & S2).
  assert (LB1 : length B1 = cols X) by (unfold B1; rewrite !map_length, seq_length; auto). assert (LB2 : length B2 = c_nc2 c) by (unfold B2; rewrite map_length; auto).
  assert (B1T : forall z, z < cols X -> nth z B1 [] = term_columns c bi z).
  { intros z Hz. rewrite <- EB1. unfold blocks. rewrite nth_map_seq by lia. auto. }
  assert (B2T : forall z, z < c_nc2 c -> nth z B2 [] = term_columns c bi (cols X + z)).
  { intros z Hz. rewrite <- EB2. unfold blocks. rewrite (nth_indep _ [] (term_columns c bi 0)) by (rewrite map_length, seq_length; auto). rewrite (map_nth (term_columns c bi)), seq_nth by auto. rewrite NC1. auto. }
  assert (XW1 : forall x, In x x1 -> length x = c_p c).
  { intros x Hx. destruct (In_nth _ _ [] Hx) as (z & Hz & <-). rewrite S1 by lia. unfold width. rewrite B1T by lia. rewrite FP by (unfold c_nc_t; lia). unfold e_f_p. destruct (Nat.ltb_spec z (c_nc1 c)); [reflexivity|lia]. }
  assert (XW2 : forall x, In x x2 -> length x = c_nt2 c).
  { intros x Hx. destruct (In_nth _ _ [] Hx) as (z & Hz & <-). rewrite S2 by lia. unfold width. rewrite B2T by lia. rewrite FP by (unfold c_nc_t; lia). unfold e_f_p. destruct (Nat.ltb_spec (cols X + z) (c_nc1 c)); [lia|].
    destruct (Nat.leb_spec (c_nc1 c) (cols X + z)); [|lia]. destruct (Nat.ltb_spec (cols X + z) (c_nc1 c + c_nc2 c)); [reflexivity|lia]. }
  assert (LC1 : length (concat x1) = c_tnt1 c) by (rewrite (length_concat_w _ _ (c_p c)) by auto; rewrite N1, LB1; reflexivity).
  assert (XT1 : forall z, z < cols X -> term_columns c (ef_x f) z = nth z x1 []).
  { intros z Hz. rewrite <- EX. unfold term_columns. destruct (Nat.ltb_spec z (c_nc1 c)); [|lia]. rewrite slice_app_l by (rewrite LC1; unfold c_tnt1, c_nt1; nia). apply slice_concat; auto. lia. }
  assert (XT2 : forall z, z < c_nc2 c -> term_columns c (ef_x f) (cols X + z) = nth z x2 []).
  { intros z Hz. rewrite <- EX. unfold term_columns. cbv zeta. destruct (Nat.ltb_spec (cols X + z) (c_nc1 c)); [lia|]. destruct (Nat.ltb_spec (cols X + z) (c_nc1 c + c_nc2 c)); [|lia].
    rewrite <- LC1, slice_app_r. replace (cols X + z - c_nc1 c) with z by lia. apply slice_concat; auto. lia. }
  assert (TC : forall i, map (take_rows 0%R idx) (term_columns c b i) = term_columns c bi i) by (intros i; unfold bi; rewrite SM; auto).
  intros r Hr. rewrite QE, map_map. unfold c_nc_t, c_nc3. rewrite O. cbn [Nat.eqb]. rewrite Nat.add_0_r, NC1, seq_app, map_app, Rsum_app. f_equal.
  - unfold explained, total. rewrite LB1. apply Rsum_ext. intros z Hz. apply in_seq in Hz. rewrite TC, XT1, <- B1T by lia. apply (component_nth (length idx) B1 W1); auto. apply S1; lia.
  - unfold explained, total. rewrite LB2. cbn [Nat.add]. rewrite (seq_as_map (cols X)), map_map. apply Rsum_ext. intros z Hz. apply in_seq in Hz. rewrite TC, XT2, <- B2T by lia.
    apply (component_nth (length idx) B2 W2); auto. apply S2; lia.
Qed.
End Run.

Lemma total_zero : forall k, total k (fun _ => 0%R) = 0%R.
Proof. intros k. unfold total. induction (seq 0 k) as [|a l IH]; auto. cbn [map]. rewrite Rsum_cons, IH. lra. Qed.

Section Penalty.
Variable solve : list (list R) -> list R -> result (list R).
Variables (n : nat) (Bs : list (list (list R))) (y : list R).
Hypothesis W : forall B b, In B Bs -> In b B -> length b = n.
Hypothesis LY : length y = n.
Hypothesis NP : 0 < n.
Hypothesis OB : orthogonal_blocks Bs n.
Notation D := (length Bs).

Lemma rhs_without : forall xs z, shape Bs xs -> z < D -> rhs n (nth z Bs []) (without n Bs xs y z) = rhs n (nth z Bs []) y.
Proof.
  intros xs z SX Hz. unfold rhs. apply map_ext_in. intros a Ha. f_equal. destruct (In_nth _ _ [] Ha) as (i & Hi & EA).
  assert (LA : length a = n) by (apply (W (nth z Bs [])); auto; apply nth_In; auto). destruct (without_at n Bs y W LY NP xs z 0 SX NP) as (LW & _).
  rewrite !dot_total by congruence. rewrite LA.
  rewrite (total_ext n _ (fun r => nth r a 0 * nth r y 0 + (-1) * (nth r a 0 * total D (fun j => if z =? j then 0 else term_at Bs xs r j)))%R).
  - rewrite total_plus, total_scal. replace (total n (fun r => nth r a 0 * total D (fun j => if z =? j then 0 else term_at Bs xs r j)))%R with 0%R; [ring|].
    rewrite (total_ext n _ (fun r => total D (fun j => nth r a 0 * (if z =? j then 0 else term_at Bs xs r j)))%R) by (intros; rewrite total_scal; auto).
    rewrite <- total_swap. rewrite (total_ext D _ (fun _ => 0)%R); [first [apply total_zero|symmetry; apply total_zero]|]. intros j Hj. destruct (Nat.eqb_spec z j) as [->|NE].
    + rewrite (total_ext n _ (fun _ => 0)%R) by (intros; ring). apply total_zero.
    + unfold term_at. rewrite (total_ext n _ (fun r => total (width Bs j) (fun l => at2 xs j l * (at3 Bs z i r * at3 Bs j l r)))%R).
      * rewrite <- total_swap. rewrite (total_ext (width Bs j) _ (fun _ => 0)%R); [first [apply total_zero|symmetry; apply total_zero]|]. intros l Hl. rewrite total_scal, OB; auto. ring.
      * intros r Hr. rewrite <- total_scal. apply total_ext. intros l Hl. replace (at3 Bs z i r) with (nth r a 0%R) by (rewrite <- EA; reflexivity). ring.
  - intros r Hr. rewrite (proj2 (without_at n Bs y W LY NP xs z r SX Hr)). ring.
Qed.

Lemma fold_same : forall k a s s', a + k = D -> shape Bs s -> shape Bs s' -> (forall j, j < a -> nth j s [] = nth j s' []) ->
  foldM (fun xs i => do x <- solve_block solve n 0 (nth i Bs []) (without n Bs xs y i) ;; Ok (update xs i x)) (seq a k) s =
  foldM (fun xs i => do x <- solve_block solve n 0 (nth i Bs []) (without n Bs xs y i) ;; Ok (update xs i x)) (seq a k) s'.
Proof.
  induction k as [|k IH]; intros a s s' A (L & H) (L' & H') Q; cbn [seq foldM].
  - f_equal. apply (nth_ext _ _ [] []); [lia|]. intros j Hj. apply Q. lia.
  - assert (E : solve_block solve n 0 (nth a Bs []) (without n Bs s y a) = solve_block solve n 0 (nth a Bs []) (without n Bs s' y a)).
    { unfold solve_block. rewrite !rhs_without by (try (split; auto); lia). reflexivity. }
    rewrite E. destruct (solve_block solve n 0 (nth a Bs []) (without n Bs s' y a)) as [x|] eqn:X; [|reflexivity]. cbn [bind].
    pose proof (solve_block_length _ _ _ _ _ _ X) as LX. apply IH; [lia|apply (shape_update n Bs y W LY NP); auto; [split; auto|lia]|apply (shape_update n Bs y W LY NP); auto; [split; auto|lia]|].
    intros j Hj. rewrite !nth_updated by lia. destruct (Nat.eqb_spec a j); auto. apply Q. lia.
Qed.
Lemma pass_same : forall s s', shape Bs s -> shape Bs s' -> e_pass solve n Bs y s = e_pass solve n Bs y s'.
Proof. intros. unfold e_pass. apply fold_same; auto. intros; lia. Qed.
Lemma pass_shape : forall s s', shape Bs s -> e_pass solve n Bs y s = Ok s' -> shape Bs s'.
Proof. intros s s' H E. eapply (pass_blocks solve n Bs y W LY NP D 0 s s'); eauto. Qed.
Lemma loop_same : forall fuel s, shape Bs s -> e_backfit solve (S fuel) n Bs y s = e_pass solve n Bs y s.
Proof.
  induction fuel as [|fuel IH]; intros s SS; cbn [e_backfit]; destruct (e_pass solve n Bs y s) as [x|] eqn:E; cbn [bind]; auto.
  - destruct (Rltb _ _); auto.
  - destruct (Rltb _ _); auto. pose proof (pass_shape s x SS E) as SX. specialize (IH x SX). cbn [e_backfit] in IH. rewrite IH, (pass_same x s) by auto. exact E.
Qed.
Lemma start_shape : forall l2 xs, mapM (fun B => solve_block solve n l2 B y) Bs = Ok xs -> shape Bs xs.
Proof.
  intros l2 xs M. split; [apply (mapM_Ok_length _ _ M)|]. intros z Hz. pose proof (mapM_nth _ _ _ _ _ [] [] z M Hz) as Q. apply solve_block_length in Q. exact Q.
Qed.

Theorem order_penalty : forall maxiter maxiter' l2 l2' r r', e_order solve n maxiter l2 Bs y = Ok r -> e_order solve n maxiter' l2' Bs y = Ok r' -> r = r'.
Proof.
  intros m m' l2 l2' r r' E E'. unfold e_order in *. destruct (mapM _ Bs) as [x0|] eqn:M in E; [|discriminate]. destruct (mapM _ Bs) as [x0'|] eqn:M' in E'; [|discriminate].
  cbn [bind] in *. apply start_shape in M, M'. rewrite loop_same in E by auto. rewrite loop_same, (pass_same x0' x0) in E' by auto. congruence.
Qed.
End Penalty.
