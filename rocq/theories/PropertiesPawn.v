(** * PAWN: C41. *)
From Coq Require Import Reals String List Arith ZArith Bool Lia Lra Permutation.
From Verif Require Import Base Arrays ListFacts ModelGroups SpecGroups ModelScale ProofsScale Stats Sums ModelMorrisAnalyze
  SpecSobol Quant ModelPawn SpecPawn ProofsPawn ProofsPawn2 ProofsPawn3 ProofsPawn4.
Import ListNotations.
Local Open Scope nat_scope.

(** C41: without groups there is one row of figures per parameter: cut points at the k/S-quantiles of its numbers,
    one Kolmogorov-Smirnov distance per non-empty slice, summarised over the slices. *)
Theorem C41_rows : forall p X Y S ls, 0 < S -> pawn_input (p_num_vars p) X Y -> ungrouped p -> labels_of p ls ->
  exists out, pawn_analyze p X Y S = Ok out /\ first_appearance ls (pw_names out) /\ length (pw_rows out) = p_num_vars p /\
    forall d row, nth_error (pw_rows out) d = Some row -> parameter_row (column_of X d) Y S row.
Proof. exact pawn_ungrouped. Qed.
Print Assumptions C41_rows.

(** C41: every sample value below the largest belongs to exactly one slice.  Missing: the largest value. *)
Theorem C41_partition_partial : forall xs S c, xs <> [] -> 0 < S -> (forall k, k <= S -> quantile_at xs (INR k / INR S) (c k)) ->
  forall x, In x xs -> (x < maxl xs)%R -> exists! s, s < S /\ in_slice c s x.
Proof. intros xs S c Hx HS Hc x Hi. apply (slices_partition xs S c Hx HS Hc x Hi). Qed.
Print Assumptions C41_partition_partial.

(** C41 is false for the largest value, which belongs to no slice. *)
Theorem C41_largest_refuted : forall xs S c, xs <> [] -> 0 < S -> (forall k, k <= S -> quantile_at xs (INR k / INR S) (c k)) ->
  In (maxl xs) xs /\ forall s, s < S -> ~ in_slice c s (maxl xs).
Proof.
  intros xs S c Hx HS Hc. destruct (maxl_spec xs Hx) as [Hi _]. split; auto.
  apply (slices_partition xs S c Hx HS Hc (maxl xs) Hi). reflexivity.
Qed.
Print Assumptions C41_largest_refuted.

(** C41: 0 <= minimum <= mean, median <= maximum < 1 and 0 <= stdev in every reported row, of parameters and of groups. *)
Theorem C41_order : forall p X Y S out, pawn_input (p_num_vars p) X Y -> pawn_analyze p X Y S = Ok out ->
  Forall ordered_row (pw_rows out).
Proof. exact pawn_ordered. Qed.
Print Assumptions C41_order.

(** C41: the figures of a group are the means of its parameters' figures; a groups entry of the wrong length raises. *)
Theorem C41_groups : forall p X Y S g, 0 < S -> pawn_input (p_num_vars p) X Y -> grouped p g ->
  (length g <> p_num_vars p -> pawn_analyze p X Y S = Err IndexError) /\
  (length g = p_num_vars p -> exists out rows, pawn_analyze p X Y S = Ok out /\
     first_appearance g (pw_names out) /\ length (pw_rows out) = length (pw_names out) /\
     (forall d, d < p_num_vars p -> parameter_row (column_of X d) Y S (rows d)) /\
     forall i x row, nth_error (pw_names out) i = Some x -> nth_error (pw_rows out) i = Some row -> exists js,
       NoDup js /\ (forall j, In j js <-> nth_error g j = Some x) /\ length row = 6 /\
       forall k v, nth_error row k = Some v -> nan_mean (map (fun j => nth k (rows j) None) js) v).
Proof. exact pawn_groups. Qed.
Print Assumptions C41_groups.

(** C41 is false in its reporting when all parameters share one label: one name, but a row per parameter. *)
Theorem C41_one_label_refuted : forall p X Y S g, 0 < S -> pawn_input (p_num_vars p) X Y -> p_groups p = Some (repeat g (p_num_vars p)) ->
  2 <= p_num_vars p -> exists out, pawn_analyze p X Y S = Ok out /\ pw_names out = [g] /\ length (pw_rows out) = p_num_vars p.
Proof. exact pawn_one_label. Qed.
Print Assumptions C41_one_label_refuted.

(** C41: strictly increasing transformations of the outputs change nothing. *)
Theorem C41_increasing_outputs : forall p X Y S (g : R -> R), pawn_input (p_num_vars p) X Y -> (forall x y, x < y -> g x < g y)%R ->
  pawn_analyze p X (map g Y) S = pawn_analyze p X Y S.
Proof. exact pawn_increasing. Qed.
Print Assumptions C41_increasing_outputs.

(** C41: shifting and positively scaling each parameter changes nothing. *)
Theorem C41_rescaled_parameters : forall p X Y S (a b : nat -> R), pawn_input (p_num_vars p) X Y -> (forall d, (0 < a d)%R) ->
  pawn_analyze p (map (fun r => map (fun d => option_map (fun x => a d * x + b d)%R (nth d r None)) (seq 0 (p_num_vars p))) X) Y S
  = pawn_analyze p X Y S.
Proof. exact pawn_rescaled. Qed.
Print Assumptions C41_rescaled_parameters.

(** C41: the order in which the runs are listed does not matter. *)
Theorem C41_row_order : forall p X Y S s, pawn_input (p_num_vars p) X Y -> Permutation s (seq 0 (length Y)) ->
  pawn_analyze p (map (fun k => nth k X []) s) (map (fun k => nth k Y 0%R) s) S = pawn_analyze p X Y S.
Proof. exact pawn_row_order. Qed.
Print Assumptions C41_row_order.

(** C41: a parameter that never varies gets nan for all figures. *)
Theorem C41_constant_parameter : forall p X Y S ls d x0, 0 < S -> pawn_input (p_num_vars p) X Y -> ungrouped p -> labels_of p ls ->
  d < p_num_vars p -> (forall x, In (Some x) (column_of X d) -> x = x0) ->
  exists out, pawn_analyze p X Y S = Ok out /\ nth_error (pw_rows out) d = Some (repeat None 6).
Proof. exact pawn_flat. Qed.
Print Assumptions C41_constant_parameter.

(** C41: no slices, ZeroDivisionError. *)
Theorem C41_no_slices : forall p X Y, pawn_analyze p X Y 0 = Err ZeroDivisionError.
Proof. exact pawn_zero. Qed.
Print Assumptions C41_no_slices.

(** Three runs, two slices {1} and {2}; the run with the largest value 3 is in neither. *)
Definition pawn_ex : problem := mkProblem 1 ["a"]%string [[0; 6]]%R None None false.
Definition pawn_ex_X : list (list fval) := [[Some 2]; [Some 1]; [Some 3]]%R.
Definition pawn_ex_Y : list R := [20; 10; 30]%R.
Ltac rdec := repeat match goal with
  | |- context [Rle_dec ?a ?b] => destruct (Rle_dec a b); try (exfalso; lra)
  | |- context [Rlt_dec ?a ?b] => destruct (Rlt_dec a b); try (exfalso; lra)
  end.
Lemma ex_sort : sortR [2; 1; 3]%R = [1; 2; 3]%R.
Proof. unfold sortR. cbn [fold_right]. repeat (cbn [insertR]; rdec). reflexivity. Qed.
Lemma ex_quantiles : let q := quantile [2; 1; 3]%R in q (INR 0 / INR 2)%R = 1%R /\ q (INR 1 / INR 2)%R = 2%R /\ q (INR 2 / INR 2)%R = 3%R.
Proof.
  cbv zeta. rewrite !quantile_interp, ex_sort.
  replace (INR 0 / INR 2 * INR (length [2; 1; 3]%R - 1))%R with (INR 0) by (simpl; field).
  replace (INR 1 / INR 2 * INR (length [2; 1; 3]%R - 1))%R with (INR 1) by (simpl; field).
  replace (INR 2 / INR 2 * INR (length [2; 1; 3]%R - 1))%R with (INR 2) by (simpl; field).
  rewrite !interp_int. auto.
Qed.
Lemma maxl_is : forall l v, In v l -> (forall y, In y l -> y <= v)%R -> maxl l = v.
Proof. intros l v H K. destruct (maxl_spec l) as [A B]; [intros ->; auto|]. apply Rle_antisym; auto. Qed.
Lemma minl_is : forall l v, In v l -> (forall y, In y l -> v <= y)%R -> minl l = v.
Proof. intros l v H K. destruct (minl_spec l) as [A B]; [intros ->; auto|]. apply Rle_antisym; auto. Qed.
Lemma ks_is : forall a b d m, a <> [] -> b <> [] -> greatest_gap a b d -> m = d -> ks_2samp a b = m.
Proof.
  intros a b d m Ha Hb [U (t & E)] ->. destruct (ks_spec a b Ha Hb) as [U' (t' & _ & E')]. apply Rle_antisym.
  - rewrite <- E'. apply U.
  - rewrite <- E. apply U'.
Qed.
Lemma ex_ks : ks_2samp [10]%R pawn_ex_Y = (2/3)%R /\ ks_2samp [20]%R pawn_ex_Y = (1/3)%R.
Proof.
  split.
  - apply ks_is with (2/3)%R; try discriminate; auto. split.
    + intros t. unfold ecdf, mean, Rsum, pawn_ex_Y. cbn [map length fold_right]. unfold Rabs. rdec; simpl; destruct (Rcase_abs _); lra.
    + exists 10%R. unfold ecdf, mean, Rsum, pawn_ex_Y. cbn [map length fold_right]. rdec. simpl. rewrite Rabs_pos_eq; lra.
  - apply ks_is with (1/3)%R; try discriminate; auto. split.
    + intros t. unfold ecdf, mean, Rsum, pawn_ex_Y. cbn [map length fold_right]. unfold Rabs. rdec; simpl; destruct (Rcase_abs _); lra.
    + exists 20%R. unfold ecdf, mean, Rsum, pawn_ex_Y. cbn [map length fold_right]. rdec. simpl. rewrite Rabs_pos_eq; lra.
Qed.
Example C41_example : pawn_analyze pawn_ex pawn_ex_X pawn_ex_Y 2 =
  Ok (mkPawn [[Some (1/3)%R; Some (1/2)%R; Some (1/2)%R; Some (2/3)%R; Some (1/3)%R; Some (1/6)%R]] ["a"%string]).
Proof.
  assert (HI : pawn_input (p_num_vars pawn_ex) pawn_ex_X pawn_ex_Y) by (split; [repeat constructor|reflexivity]).
  assert (HU : ungrouped pawn_ex) by (intros g (H & _); discriminate).
  rewrite analyze_eq, (ungrouped_check pawn_ex HU) by (auto; lia). cbn [bind]. do 2 f_equal.
  cbn [p_num_vars pawn_ex seq map]. f_equal. destruct ex_quantiles as (Q0 & Q1 & Q2). destruct ex_ks as (K1 & K2).
  assert (C0 : cell_of (column_of pawn_ex_X 0) pawn_ex_Y 2 0 = Some (2/3)%R).
  { unfold cell_of. cbv zeta.
    assert (E : outputs_where (keep_slice (column_of pawn_ex_X 0) 2 0) (column_of pawn_ex_X 0) pawn_ex_Y = [10]%R).
    { unfold outputs_where, keep_slice, nanquantile, column_of, pawn_ex_X, pawn_ex_Y. cbn [map nth numbers flat_map app Nat.add].
      rewrite Q0, Q1. cbn [combine filter fst fle flt]. repeat (rdec; cbn [andb]). reflexivity. }
    rewrite E, K1. auto. }
  assert (C1 : cell_of (column_of pawn_ex_X 0) pawn_ex_Y 2 1 = Some (1/3)%R).
  { unfold cell_of. cbv zeta.
    assert (E : outputs_where (keep_slice (column_of pawn_ex_X 0) 2 1) (column_of pawn_ex_X 0) pawn_ex_Y = [20]%R).
    { unfold outputs_where, keep_slice, nanquantile, column_of, pawn_ex_X, pawn_ex_Y. cbn [map nth numbers flat_map app Nat.add].
      rewrite Q1, Q2. cbn [combine filter fst fle flt]. repeat (rdec; cbn [andb]). reflexivity. }
    rewrite E, K2. auto. }
  unfold row_of. cbn [seq map]. rewrite C0, C1. unfold pawn_summary. cbn [numbers flat_map app].
  assert (M0 : minl [2/3; 1/3]%R = (1/3)%R) by (apply minl_is; simpl; [tauto|intros y [<-|[<-|[]]]; lra]).
  assert (M1 : maxl [2/3; 1/3]%R = (2/3)%R) by (apply maxl_is; simpl; [tauto|intros y [<-|[<-|[]]]; lra]).
  assert (ME : mean [2/3; 1/3]%R = (1/2)%R) by (unfold mean, Rsum; simpl; lra).
  assert (MD : median [2/3; 1/3]%R = (1/2)%R).
  { assert (ES : sortR [2/3; 1/3]%R = [1/3; 2/3]%R) by (unfold sortR; cbn [fold_right]; repeat (cbn [insertR]; rdec); reflexivity).
    unfold median. rewrite ES. simpl. lra. }
  assert (SD : sd [2/3; 1/3]%R = (1/6)%R).
  { unfold sd. assert (EV : var [2/3; 1/3]%R = ((1/6) * (1/6))%R) by (unfold var; rewrite ME; unfold mean, Rsum; simpl; lra).
    rewrite EV. apply sqrt_square. lra. }
  rewrite M0, M1, ME, MD, SD. unfold fdiv. assert (RE : Reqb (1/2) 0 = false).
  { destruct (Reqb (1/2) 0) eqn:E; auto. apply Reqb_true in E. lra. }
  rewrite RE. replace (1 / 6 / (1 / 2))%R with (1/3)%R by field. reflexivity.
Qed.
