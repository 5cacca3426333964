(** * Enhanced HDMR: component functions, significance and the decomposition. *)
From Coq Require Import Reals String List Arith ZArith Bool Lia Lra Psatz Sorted Permutation.
From Verif Require Import Base Arrays ListFacts ModelGroups ModelScale ProofsScale Stats Sums Det ModelFast ModelMorris ModelMorrisAnalyze ModelDgsm ModelPawn
  SpecMorris ProofsMorris3 ProofsMorris7 ProofsDgsm2 ProofsDelta5 ModelHdmr SpecHdmr ProofsHdmr ProofsHdmr2 ProofsHdmr3 ProofsHdmr4 ProofsHdmr5 ProofsHdmr6
  ModelEhdmr SpecEhdmr ProofsEhdmr ProofsEhdmr2 ProofsEhdmr3.
Import ListNotations.
Local Open Scope nat_scope.

Lemma slice_map2 : forall A B C (f : A -> B -> C) a b i j, slice (map2 f a b) i j = map2 f (slice a i j) (slice b i j).
Proof.
  intros A B C f a b i j. unfold slice. generalize (j - i). intros n. clear j.
  revert a b. induction i; intros a b.
  - rewrite !skipn_O. revert a b. induction n; intros [|x a] [|y b]; cbn; auto. f_equal. auto.
  - destruct a as [|x a], b as [|y b]; cbn [map2 skipn].
    + rewrite !firstn_nil. auto.
    + rewrite !firstn_nil. auto.
    + rewrite !firstn_nil. destruct (firstn n (skipn i a)); auto.
    + auto.
Qed.

(** ** Sizes *)

Lemma term_columns_length : forall A c (l : list A) i, 1 <= c_order c <= 3 -> length l = c_a_tnt c -> i < c_nc_t c -> length (term_columns c l i) = e_f_p c i.
Proof.
  intros A c l i O L Hi. unfold term_columns, e_f_p. cbv zeta.
  assert (SL : forall a b, b <= length l -> length (slice l a b) = b - a) by (intros a b H; unfold slice; rewrite firstn_length, skipn_length; lia).
  unfold c_nc_t in Hi. unfold c_a_tnt, c_tnt1, c_tnt2, c_tnt3, c_nt1 in *.
  destruct (Nat.ltb_spec i (c_nc1 c)).
  - rewrite SL by nia. lia.
  - destruct (Nat.leb_spec (c_nc1 c) i); [|lia]. cbn [andb]. destruct (Nat.ltb_spec i (c_nc1 c + c_nc2 c)).
    + rewrite SL by nia. lia.
    + rewrite SL by nia. lia.
Qed.

Lemma e_f_p_count : forall c i t, 1 <= c_order c <= 3 -> nth_error (hdmr_term_list (c_d c) (c_order c)) i = Some t ->
  e_f_p c i = coefficient_count (c_ext c) (c_p c) (length t).
Proof.
  intros c i t O H. unfold e_f_p, hdmr_term_list in *.
  assert (L1 : length (map (fun j : nat => [j]) (seq 0 (c_d c))) = c_d c) by (rewrite map_length, seq_length; auto).
  assert (L2 : length (hdmr_c2 (c_d c) (c_order c)) = c_nc2 c).
  { unfold hdmr_c2, c_nc2. destruct (1 <? c_order c); auto. rewrite comb_length, seq_length. auto. }
  unfold c_nc1. destruct (Nat.ltb_spec i (c_d c)).
  - rewrite nth_error_app1 in H by lia. apply nth_error_In, in_map_iff in H. destruct H as (j & <- & _). reflexivity.
  - rewrite nth_error_app2 in H by lia. rewrite L1 in H. destruct (Nat.leb_spec (c_d c) i); [|lia]. cbn [andb].
    destruct (Nat.ltb_spec i (c_d c + c_nc2 c)).
    + rewrite nth_error_app1 in H by lia. apply nth_error_In, in_c2 in H. destruct H as (O2 & H & _). rewrite H.
      unfold c_nt2. replace (1 <? c_order c) with true by (symmetry; apply Nat.ltb_lt; auto). reflexivity.
    + rewrite nth_error_app2 in H by lia. apply nth_error_In, in_c3 in H. destruct H as (O2 & H & _). rewrite H.
      unfold c_nt3. rewrite O2. reflexivity.
Qed.

(** ** Component functions *)

Lemma seq_offset : forall a k, seq a k = map (fun i => a + i) (seq 0 k).
Proof. induction k; auto. rewrite !seq_S, IHk, map_app. reflexivity. Qed.

Lemma comp_func_spec : forall c n b x, 1 <= c_order c <= 3 ->
  comp_func c n b x = map (fun i => combine_columns n (term_columns c b i) (term_columns c x i)) (seq 0 (c_nc_t c)).
Proof.
  intros c n b x O. unfold comp_func, c_nc_t. rewrite !seq_app, !map_app, <- app_assoc. cbn [Nat.add]. f_equal; [|f_equal].
  - apply map_ext_in. intros i Hi. apply in_seq in Hi. unfold combine_columns, term_columns.
    destruct (Nat.ltb_spec i (c_nc1 c)); [|lia]. rewrite slice_map2. auto.
  - transitivity (map (fun i => row_sums n (slice (map2 (fun col v => scale v col) b x) (c_tnt1 c + i * c_nt2 c) (c_tnt1 c + (i + 1) * c_nt2 c))) (seq 0 (c_nc2 c))).
    { unfold c_nc2. destruct (1 <? c_order c); auto. }
    replace (seq (c_nc1 c) (c_nc2 c)) with (map (fun i => c_nc1 c + i) (seq 0 (c_nc2 c))).
    2:{ symmetry. apply seq_offset. }
    rewrite map_map. apply map_ext_in. intros i Hi. apply in_seq in Hi. unfold combine_columns, term_columns. cbv zeta.
    destruct (Nat.ltb_spec (c_nc1 c + i) (c_nc1 c)); [lia|]. destruct (Nat.ltb_spec (c_nc1 c + i) (c_nc1 c + c_nc2 c)); [|lia].
    rewrite slice_map2. replace (c_nc1 c + i - c_nc1 c) with i by lia. auto.
  - transitivity (map (fun i => row_sums n (slice (map2 (fun col v => scale v col) b x) (c_tnt1 c + c_tnt2 c + i * c_nt3 c) (c_tnt1 c + c_tnt2 c + (i + 1) * c_nt3 c))) (seq 0 (c_nc3 c))).
    { unfold c_nc3. destruct (c_order c =? 3); auto. }
    replace (seq (c_nc1 c + c_nc2 c) (c_nc3 c)) with (map (fun i => c_nc1 c + c_nc2 c + i) (seq 0 (c_nc3 c))).
    2:{ symmetry. apply seq_offset. }
    rewrite map_map. apply map_ext_in. intros i Hi. apply in_seq in Hi. unfold combine_columns, term_columns. cbv zeta.
    destruct (Nat.ltb_spec (c_nc1 c + c_nc2 c + i) (c_nc1 c)); [lia|]. destruct (Nat.ltb_spec (c_nc1 c + c_nc2 c + i) (c_nc1 c + c_nc2 c)); [lia|].
    rewrite slice_map2. replace (c_nc1 c + c_nc2 c + i - c_nc1 c - c_nc2 c) with i by lia. auto.
Qed.

Lemma scale_length : forall v col, length (scale v col) = length col.
Proof. intros. apply map_length. Qed.
Lemma scale_nth : forall v col i, nth i (scale v col) 0%R = (nth i col 0 * v)%R.
Proof. intros. unfold scale. rewrite <- (Rmult_0_l v) at 1. rewrite (map_nth (fun b => b * v)%R). auto. Qed.

Lemma combine_columns_spec : forall n B x, (forall b, In b B -> length b = n) ->
  length (combine_columns n B x) = n /\
  forall i, i < n -> nth i (combine_columns n B x) 0%R = Rsum (map2 (fun b v => nth i b 0 * v)%R B x).
Proof.
  intros n B x H. unfold combine_columns.
  assert (W : forall b, In b (map2 (fun c v => scale v c) B x) -> length b = n).
  { revert x. induction B as [|b B IH]; intros [|v x] b' Hb; try (destruct Hb; fail). destruct Hb as [<-|Hb]; [rewrite scale_length; apply H; left; auto|].
    eapply IH; eauto. intros; apply H; right; auto. }
  destruct (row_sums_spec n _ W) as (L & Q). split; auto. intros i Hi. rewrite Q by auto. f_equal.
  clear. revert x. induction B; intros [|v x]; cbn; auto. rewrite scale_nth. f_equal. auto.
Qed.

Lemma column_length : forall A (rs : list (list A)) D j, Forall (fun r => length r = D) rs -> j < D -> length (column rs j) = length rs.
Proof.
  intros A rs D j H Hj. unfold column. induction H as [|r rs Hr H IH]; auto. cbn [flat_map]. rewrite app_length, IH.
  destruct (nth_error_lt_Some r (i := j)) as (x & E); [lia|]. rewrite E. reflexivity.
Qed.

(** Widths of the basis. *)
Lemma first_columns_spec : forall p X first, first_columns p X = Some first ->
  length first = cols X /\ (forall b, In b first -> length b = p) /\
  (wf_mat X -> forall b col, In b first -> In col b -> length col = length (rows X)).
Proof.
  intros p X first E. unfold first_columns in E.
  assert (L : length first = cols X). { rewrite <- (seq_length (cols X) 0), <- (map_length (fun j => match normalise (column (rows X) j) with Some xs => poly_columns p xs | None => None end)).
    apply all_some_inv in E. rewrite E, map_length. auto. }
  split; auto.
  assert (G : forall b, In b first -> exists xs, (wf_mat X -> length xs = length (rows X)) /\ b = map (fun j => map (poly xs j) xs) (seq 0 p)).
  { intros b Hb. destruct (all_some_In_map _ _ _ _ _ E Hb) as (j & Hj & Q). destruct (normalise (column (rows X) j)) as [xs|] eqn:N; [|discriminate].
    unfold poly_columns in Q. destruct (forallb _ _) in Q; [|discriminate]. injection Q as <-. exists xs. split; auto.
    apply normalise_unit in N. destruct N as (N & _). rewrite N. intros W. apply in_seq in Hj. apply column_length with (D := cols X); auto; lia. }
  split.
  - intros b Hb. destruct (G b Hb) as (xs & _ & ->). rewrite map_length, seq_length. auto.
  - intros W b col Hb Hc. destruct (G b Hb) as (xs & L2 & ->). apply in_map_iff in Hc. destruct Hc as (j & <- & _). rewrite map_length. auto.
Qed.

Lemma products_widths : forall A B n, (forall a, In a A -> length a = n) -> (forall b, In b B -> length b = n) -> forall v, In v (products A B) -> length v = n.
Proof.
  intros A B n HA HB v Hv. unfold products in Hv. apply in_flat_map in Hv. destruct Hv as (a & Ha & Hv). apply in_map_iff in Hv. destruct Hv as (b & <- & Hb).
  rewrite length_map2, (HA a Ha), (HB b Hb). lia.
Qed.

Section Widths.
Variable c : core.
Variable first : list (list (list R)).
Hypothesis Lfirst : length first = c_d c.
Hypothesis Wfirst : forall b, In b first -> length b = c_p c.
Variable n : nat.
Hypothesis Nfirst : forall b col, In b first -> In col b -> length col = n.

Lemma phi_width : forall a v, In v (nth a first []) -> length v = n.
Proof. intros a v H. destruct (Nat.lt_ge_cases a (length first)); [eapply Nfirst; eauto; apply nth_In; auto|]. rewrite nth_overflow in H by lia. destruct H. Qed.
Lemma own_width : forall ext t v, In v (own_columns ext (fun a => nth a first []) t) -> length v = n.
Proof.
  intros ext t v H.
  assert (P2 : forall a b v, In v (products (nth a first []) (nth b first [])) -> length v = n) by (intros a b; apply products_widths; apply phi_width).
  destruct t as [|a [|b [|d [|]]]]; cbn [own_columns] in H; try (destruct H; fail).
  - eapply phi_width; eauto.
  - apply in_app_iff in H. destruct H as [H|H]; [|eapply P2; eauto]. destruct ext; [|destruct H]. apply in_app_iff in H. destruct H; eapply phi_width; eauto.
  - apply in_app_iff in H. destruct H as [H|H]; [|revert H; apply products_widths; [apply P2|apply phi_width]]. destruct ext; [|destruct H].
    rewrite !in_app_iff in H. destruct H as [H|[H|[H|[H|[H|H]]]]]; try (eapply phi_width; eauto; fail); eapply P2; eauto.
Qed.
Lemma third_width : forall t v, In v (third_columns c first t) -> length v = n.
Proof.
  intros t v H.
  assert (P2 : forall a b v, In v (products (nth a first []) (nth b first [])) -> length v = n) by (intros a b; apply products_widths; apply phi_width).
  assert (PP : forall m v, In v (pair_products c first m) -> length v = n).
  { intros m w. unfold pair_products. destruct (nth m (second_terms c) []) as [|i [|j [|]]]; try (intros []; fail). apply P2. }
  destruct t as [|a [|b [|d [|]]]]; cbn [third_columns] in H; try (destruct H; fail).
  apply in_app_iff in H. destruct H as [H|H]; [|revert H; apply products_widths; [apply P2|apply phi_width]]. destruct (c_ext c); [|destruct H].
  rewrite !in_app_iff in H. destruct H as [H|[H|[H|[H|[H|H]]]]]; try (eapply phi_width; eauto; fail); eapply PP; eauto.
Qed.
Lemma basis_width : forall v, In v (extend_basis c (concat first)) -> length v = n.
Proof.
  intros v H. rewrite extend_basis_spec in H by auto. apply in_concat in H. destruct H as (B & HB & Hv). unfold term_blocks in HB.
  rewrite !in_app_iff in HB. destruct HB as [HB|[HB|HB]].
  - apply in_map_iff in HB. destruct HB as (a & <- & _). eapply phi_width; eauto.
  - destruct (1 <? c_order c); [|destruct HB]. apply in_map_iff in HB. destruct HB as (t & <- & _). eapply own_width; eauto.
  - destruct (c_order c =? 3); [|destruct HB]. apply in_map_iff in HB. destruct HB as (t & <- & _). eapply third_width; eauto.
Qed.
Lemma basis_length : 1 <= c_order c <= 3 -> length (extend_basis c (concat first)) = c_a_tnt c.
Proof.
  intros O. rewrite extend_basis_spec by auto. unfold term_blocks. rewrite !concat_app, !app_length. unfold c_a_tnt. rewrite Nat.add_assoc. f_equal; [f_equal|].
  - rewrite (length_concat_w _ _ (c_p c)) by (apply blocks1_length; auto). rewrite map_length, seq_length. reflexivity.
  - unfold c_tnt2. destruct (Nat.ltb_spec 1 (c_order c)) as [O2|O2].
    + rewrite (length_concat_w _ _ (c_nt2 c)).
      * rewrite map_length, second_length by auto. auto.
      * intros b Hb. apply in_map_iff in Hb. destruct Hb as (t & <- & Ht). rewrite pair_columns_length by auto. unfold c_nt2.
        apply Nat.ltb_lt in O2. rewrite O2. auto.
    + unfold c_nc2. replace (1 <? c_order c) with false by (symmetry; apply Nat.ltb_ge; auto). cbn. lia.
  - unfold c_tnt3. destruct (Nat.eqb_spec (c_order c) 3) as [O3|O3].
    + rewrite (length_concat_w _ _ (c_nt3 c)).
      * rewrite map_length, third_length by auto. auto.
      * intros b Hb. apply in_map_iff in Hb. destruct Hb as (t & <- & Ht). rewrite third_columns_length by auto. unfold c_nt3. rewrite O3. reflexivity.
    + unfold c_nc3. apply Nat.eqb_neq in O3. rewrite O3. cbn. lia.
Qed.
End Widths.

(** ** Significance *)

Lemma nth_e_f_test : forall crit c Y Y_e i col, nth_error Y_e i = Some col ->
  nth_error (e_f_test crit c Y Y_e) i = Some (f_selected crit (squares Y) (squares (map2 Rminus Y col)) (c_subset c) (e_f_p c i)).
Proof.
  intros crit c Y Y_e i col H. unfold e_f_test. rewrite nth_error_map'.
  assert (G : forall (l : list (list R)) a i c, nth_error l i = Some c -> nth_error (combine (seq a (length l)) l) i = Some (a + i, c)).
  { clear. induction l; intros b i c H; [destruct i; discriminate|]. destruct i; cbn.
    - injection H as ->. rewrite Nat.add_0_r. auto.
    - rewrite (IHl (S b) i c H). f_equal. f_equal. lia. }
  rewrite (G _ 0 _ _ H). reflexivity.
Qed.

(** ** Decomposition *)

Lemma e_ancova_gap : forall Y Y_e j y, var Y <> 0%R -> (forall c, In c Y_e -> length c = length Y) -> nth_error Y_e j = Some y ->
  exists s sa sb, let '(St, Sa, Sb) := e_ancova Y Y_e in
    nth_error St j = Some (Some s) /\ nth_error Sa j = Some (Some sa) /\ nth_error Sb j = Some (Some sb) /\
    (s = cov1 y Y / var Y)%R /\ (sa = cov1 y y / var Y)%R /\
    (s - (sa + sb) = cov1 y (vsub Y (row_sums (length Y) Y_e)) / var Y)%R.
Proof.
  intros Y Y_e j y HV H E. assert (Ly : length y = length Y) by (apply H; eapply nth_error_In; eauto).
  destruct (row_sums_spec (length Y) Y_e H) as (L0 & _).
  exists (cov1 y Y / var Y)%R, (cov1 y y / var Y)%R, (cov1 y (vsub (row_sums (length Y) Y_e) y) / var Y)%R. unfold e_ancova.
  rewrite !nth_error_map', E. cbn [option_map]. unfold fdiv.
  assert (Z : Reqb (var Y) 0 = false) by (destruct (Reqb (var Y) 0) eqn:Q; auto; apply Reqb_true in Q; contradiction).
  rewrite Z. split; auto. split; auto. split; auto. split; auto. split; auto.
  rewrite !cov1_minus by congruence. field. auto.
Qed.
