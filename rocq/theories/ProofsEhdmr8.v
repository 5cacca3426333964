(** * Enhanced HDMR: the cost matrix of a term and the emulator. *)
From Coq Require Import Reals String List Arith ZArith Bool Lia Lra Psatz Sorted Permutation.
From Verif Require Import Base Arrays ListFacts ModelGroups ModelScale ProofsScale Stats Sums Det ModelFast ModelMorris ModelMorrisAnalyze ModelDgsm ModelPawn
  ModelHdmr SpecHdmr ProofsHdmr ProofsHdmr2 ProofsHdmr3 ProofsHdmr4 ProofsHdmr5 ProofsHdmr6 ModelEhdmr SpecEhdmr ProofsMorris7
  ProofsEhdmr ProofsEhdmr2 ProofsEhdmr3 ProofsEhdmr4 ProofsEhdmr5 ProofsEhdmr6 ProofsEhdmr7.
Import ListNotations.
Local Open Scope nat_scope.

Lemma firstn_app_exact : forall A (a b : list A) n, length a = n -> firstn n (a ++ b) = a.
Proof. intros A a b n <-. rewrite firstn_app, Nat.sub_diag, firstn_all. apply app_nil_r. Qed.
Lemma products_length : forall A B, length (products A B) = length A * length B.
Proof. intros A B. unfold products. induction A as [|a A IH]; auto. cbn [flat_map]. rewrite app_length, map_length, IH. simpl. auto. Qed.

Lemma cost_block_spec : forall c first, length first = c_d c -> (forall b, In b first -> length b = c_p c) ->
  (forall b col, In b first -> In col b -> length col = c_subset c) -> c_ext c = true -> 1 <= c_order c <= 3 -> (c_order c = 3 -> c_d c = 3) ->
  forall i t, nth_error (hdmr_term_list (c_d c) (c_order c)) i = Some t ->
  exists C, nth_error (cost_blocks c (extend_basis c (concat first))) i = Some C /\
    forall x, length x = coefficient_count true (c_p c) (length t) ->
      let f := combination (c_subset c) (own_columns true (fun a => nth a first []) t) x in
      (length t = 1 -> quadratic C x = 0%R) /\
      (2 <= length t -> quadratic C x = (mean f ^ 2 + Rsum (map (fun a => inner a f ^ 2) (lower_columns (fun a => nth a first []) t)))%R).
Proof.
  intros c first L1 L2 L3 EX O D3 i t Ht. set (phi := fun a => nth a first []).
  assert (LT : i < c_nc_t c) by (rewrite c_nc_t_hdmr, <- hdmr_n_length; eapply nth_error_Some_lt; eauto).
  assert (ET : term_columns c (extend_basis c (concat first)) i = own_columns true phi t).
  { rewrite term_columns_spec by auto. rewrite term_blocks_own.
    - rewrite <- EX. apply nth_error_nth. rewrite nth_error_map'. change (all_terms c) with (hdmr_term_list (c_d c) (c_order c)). rewrite Ht. reflexivity.
    - auto.
    - destruct (Nat.eq_dec (c_order c) 3); auto. }
  unfold cost_blocks. rewrite nth_error_map', nth_error_seq. destruct (Nat.ltb_spec i (c_nc_t c)); [|lia]. cbn [option_map Nat.add].
  eexists. split; [reflexivity|]. intros x Lx. cbv zeta. fold phi. rewrite ET.
  pose proof (e_f_p_count c i t O Ht) as EP. rewrite EX in EP. unfold e_f_p in EP. rewrite <- EP in Lx.
  assert (IT : is_term (c_d c) (c_order c) t).
  { apply (proj1 (proj2 (hdmr_term_list_spec (c_d c) (c_order c) ltac:(lia)))). eapply nth_error_In; eauto. }
  destruct IT as (LenT & _ & BT).
  assert (PW : forall a, a < c_d c -> length (phi a) = c_p c) by (intros a Ha; apply L2, nth_In; lia).
  assert (OW : forall v, In v (own_columns true phi t) -> length v = c_subset c) by (intros v Hv; eapply own_width; eauto).
  assert (OL : length (own_columns true phi t) = length x).
  { rewrite Lx. fold (e_f_p c i). rewrite <- (term_columns_length _ c (extend_basis c (concat first)) i) by (auto; apply basis_length; auto). rewrite ET. auto. }
  assert (POS : (length t = 1 -> i < c_nc1 c) /\ (length t = 2 -> c_nc1 c <= i < c_nc1 c + c_nc2 c) /\ (length t = 3 -> c_nc1 c + c_nc2 c <= i)).
  { clear - Ht O. unfold c_nc1, c_nc2. unfold hdmr_term_list in Ht.
    assert (LL1 : length (map (fun j : nat => [j]) (seq 0 (c_d c))) = c_d c) by (rewrite map_length, seq_length; auto).
    destruct (Nat.lt_ge_cases i (c_d c)) as [G|G].
    - rewrite nth_error_app1 in Ht by lia. apply nth_error_In in Ht. apply in_map_iff in Ht. destruct Ht as (q & <- & _). simpl. repeat split; intros; lia.
    - rewrite nth_error_app2 in Ht by lia. rewrite LL1 in Ht.
      assert (C2 : length (hdmr_c2 (c_d c) (c_order c)) = if 1 <? c_order c then comb (c_d c) 2 else 0).
      { unfold hdmr_c2. destruct (1 <? c_order c); auto. rewrite comb_length, seq_length. auto. }
      rewrite <- C2.
      destruct (Nat.lt_ge_cases (i - c_d c) (length (hdmr_c2 (c_d c) (c_order c)))) as [G2|G2].
      + rewrite nth_error_app1 in Ht by lia. apply nth_error_In, in_c2 in Ht. destruct Ht as (_ & Ht & _). repeat split; intros; lia.
      + rewrite nth_error_app2 in Ht by lia. apply nth_error_In, in_c3 in Ht. destruct Ht as (_ & Ht & _). repeat split; intros; lia. }
  destruct POS as (P1 & P2 & P3). split.
  - intros T1. specialize (P1 T1). destruct (Nat.ltb_spec i (c_nc1 c)); [|lia].
    unfold quadratic. apply sum_zero. intros a Ha. apply sum_zero. intros b Hb.
    assert (Z : nth b (nth a (repeat (repeat 0%R (c_nt1 c)) (c_nt1 c)) []) 0%R = 0%R).
    { destruct (Nat.lt_ge_cases a (c_nt1 c)) as [G|G].
      - rewrite (nth_indep _ [] (repeat 0%R (c_nt1 c))) by (rewrite repeat_length; auto). rewrite nth_repeat. apply nth_repeat.
      - rewrite (nth_overflow (repeat (repeat 0%R (c_nt1 c)) (c_nt1 c))) by (rewrite repeat_length; auto). destruct b; auto. }
    rewrite Z. ring.
  - intros T2. assert (QQ : length t = 2 \/ length t = 3) by lia. destruct QQ as [Q|Q].
    + specialize (P2 Q). destruct (Nat.ltb_spec i (c_nc1 c)); [lia|]. destruct (Nat.ltb_spec i (c_nc1 c + c_nc2 c)); [|lia].
      rewrite <- Nat.ltb_ge in H0. replace ((c_nc1 c <=? i) && true) with true in Lx by (symmetry; rewrite andb_true_r; apply Nat.leb_le; lia).
      rewrite <- Lx. rewrite sr_quadratic by (try assumption; symmetry; exact OL). f_equal. f_equal. f_equal.
      destruct t as [|a [|b [|]]]; try (simpl in Q; lia). cbn [own_columns lower_columns].
      apply firstn_app_exact. rewrite app_length, !PW; [lia| |]; apply BT; simpl; auto.
    + specialize (P3 Q). assert (c_nc1 c <= i) by lia. destruct (Nat.ltb_spec i (c_nc1 c)); [lia|]. destruct (Nat.ltb_spec i (c_nc1 c + c_nc2 c)); [lia|].
      rewrite andb_false_r in Lx. rewrite <- Lx. rewrite sr_quadratic by (try assumption; symmetry; exact OL). f_equal. f_equal. f_equal.
      destruct t as [|a [|b [|d [|]]]]; try (simpl in Q; lia). cbn [own_columns lower_columns].
      apply firstn_app_exact. rewrite !app_length, !products_length, !PW; [simpl; lia| | |]; apply BT; simpl; auto.
Qed.

Lemma sum_squares_zero : forall (m : R) (l : list R), ((m ^ 2 + Rsum (map (fun v => v ^ 2) l) = 0)%R <-> m = 0%R /\ forall v, In v l -> v = 0%R).
Proof.
  intros m l.
  assert (N : forall l : list R, (0 <= Rsum (map (fun v => v ^ 2) l))%R).
  { intros l0. apply Rsum_nonneg. intros v Hv. apply in_map_iff in Hv. destruct Hv as (u & <- & _). nra. }
  split.
  - intros H. pose proof (N l). split; [nra|]. assert (Z : Rsum (map (fun v => v ^ 2)%R l) = 0%R) by nra. clear - Z N.
    induction l as [|u l IH]; intros v Hv; [destruct Hv|]. cbn [map] in Z. change (Rsum (?u :: ?v)) with (u + Rsum v)%R in Z. pose proof (N l).
    destruct Hv as [->|Hv]; [nra|]. apply IH; auto. nra.
  - intros (-> & H). rewrite (Rsum_ext _ _ (fun _ => 0%R)) by (intros v Hv; rewrite (H v Hv); ring). rewrite Rsum_const. ring.
Qed.

(** ** The emulator *)

Section Emulator.
Variable solve : list (list R) -> list R -> result (list R).
Variable d_morph : list (list R) -> list (list (list R)) -> list R -> nat -> result (list R).
Variable crit : R -> nat -> Z -> option R.
Variable quantile : R -> fval.
Variable argsorts : nat -> list nat.

Lemma e_training : forall pb X Y mo p sub mi la al ext h, 0 < cols X -> wf_mat X ->
  fst (enhanced_analyze solve d_morph crit quantile argsorts pb X Y mo p 1 sub mi la al ext) = Ok h ->
  exists f, eo_fits h = [f] /\ ef_y f = map (fun v => v - mean Y)%R Y /\
    e_emulate h X = map Some (row_sums (length Y) (ef_Y_e f)).
Proof.
  intros pb X Y mo p sub mi la al ext h D W E. pose proof (run_inv _ _ _ _ _ _ _ _ _ _ _ _ _ _ _ _ _ D E) as (A & _).
  assert (LY : length Y = length (rows X)) by (destruct A as (_ & _ & _ & A & _); auto).
  destruct (run_fit _ _ _ _ _ _ _ _ _ _ _ _ _ _ _ _ _ D E) as (first & F1 & Q). cbv zeta in Q. set (c := core_of X mo p 1 sub ext) in *.
  destruct Q as (-> & EC & O & LB & EI & LF & LI & _ & Q). change (Z.to_nat 1) with 1 in *.
  unfold e_rows in EI. cbn [Nat.eqb] in EI.
  destruct (eo_fits h) as [|f [|]] eqn:EF; try discriminate. exists f. split; auto.
  specialize (Q 0 f (seq 0 (length (rows X))) eq_refl). rewrite EI in Q. specialize (Q eq_refl).
  pose proof Q as Q'. apply fanova_one_inv in Q; [|lia|auto]. destruct Q as (LX & EY & _ & QE & _).
  assert (TY : map (fun i => nth i Y 0%R) (seq 0 (length (rows X))) = Y) by (apply (take_rows_all R 0%R Y); auto).
  split. { rewrite EY. unfold centred. rewrite TY. auto. }
  destruct (first_columns_spec _ _ _ F1) as (L1 & L2 & L3). specialize (L3 W).
  unfold e_emulate. rewrite EC, EF. unfold basis_matrix. change (c_p c) with (Z.to_nat p). rewrite F1.
  assert (EX : map (fun i => mean (map (fun f => nth i (ef_x f) 0%R) [f])) (seq 0 (c_a_tnt c)) = ef_x f).
  { cbn [map]. rewrite <- LX. transitivity (map (fun i => nth i (ef_x f) 0%R) (seq 0 (length (ef_x f)))); [|apply (take_rows_all R 0%R (ef_x f)); auto].
    apply map_ext. intros i. unfold mean, Rsum. simpl. field. }
  rewrite EX. f_equal. rewrite LY. f_equal. rewrite comp_func_spec by lia. rewrite QE. apply map_ext_in. intros i Hi. rewrite seq_length. f_equal.
  symmetry. rewrite <- map_id. apply map_ext_in. intros col Hc. apply take_rows_all.
  apply (basis_width c first) with (n := length (rows X)); auto.
  unfold term_columns in Hc. cbv zeta in Hc.
  assert (SL : forall (l : list (list R)) a b v, In v (slice l a b) -> In v l).
  { intros l a b v H. unfold slice in H. rewrite <- (firstn_skipn a l). apply in_app_iff. right. rewrite <- (firstn_skipn (b - a) (skipn a l)). apply in_app_iff. auto. }
  destruct (_ <? _) in Hc; [eapply SL; eauto|]. destruct (_ <? _) in Hc; eapply SL; eauto.
Qed.
End Emulator.

Lemma e_emulate_rescaled : forall h X X' (a b : nat -> R), cols X' = cols X -> length (rows X') = length (rows X) ->
  (forall j, 0 < a j)%R -> (forall j, j < cols X -> column (rows X') j = map (fun x => a j * x + b j)%R (column (rows X) j)) ->
  e_emulate h X' = e_emulate h X.
Proof.
  intros h X X' a b C L A H. unfold e_emulate. rewrite L.
  assert (F : forall p, first_columns p X' = first_columns p X).
  { intros p. unfold first_columns. rewrite C. f_equal. apply map_ext_in. intros j Hj. apply in_seq in Hj. rewrite H by lia. rewrite normalise_affine by auto. auto. }
  unfold basis_matrix. rewrite F. auto.
Qed.

(** ** Accepted calls *)

Definition fits (pb : eproblem) (d : nat) : Prop := problem_fits (e_names pb) (e_bounds pb) (e_num pb) d.
(** The names the analyser uses. *)
Definition names_used (pb : eproblem) (d : nat) : list string := match e_names pb with Some l => l | None => map x_name (seq 0 d) end.

Lemma accepted_iff : forall pb X Y mo p K sub mi la al ext,
  (e_accepted pb X Y mo p K sub mi la al ext <->
   fits pb (cols X) /\ e_settings_ok (length (rows X)) (cols X) (length Y) mo p K sub mi la al ext).
Proof.
  intros pb X Y mo p K sub mi la al ext. unfold e_accepted.
  assert (G : e_settings_ok (length (rows X)) (cols X) (length Y) mo p K sub mi la al ext -> (e_problem_ok (filled X pb) (cols X) <-> fits pb (cols X))).
  { intros (_ & N & _). assert (NR : length (rows X) <> 0) by lia.
    pose proof (fill_fields X pb ltac:(rewrite fill_ok by auto; reflexivity)) as (F1 & F2 & F3). unfold e_problem_ok, fits, problem_fits. rewrite F1, F2, F3. cbn [opt_length].
    destruct (e_names pb), (e_bounds pb), (e_num pb); rewrite ?map_length, ?seq_length; split; intros H.
    all: try (destruct H as (H1 & H2 & H3); split; [|split]; intros q Q; try discriminate; try (injection Q as <-); auto; fail).
    all: destruct H as (H1 & H2 & H3); split; [|split]; auto. }
  split; intros (A & B); split; auto; apply (G B); auto.
Qed.
Lemma names_filled : forall X pb, length (rows X) <> 0 -> names_of (filled X pb) = names_used pb (cols X).
Proof.
  intros X pb NR. pose proof (fill_fields X pb ltac:(rewrite fill_ok by auto; reflexivity)) as (F1 & _). unfold names_of, names_used. rewrite F1. auto.
Qed.
