(** * Enhanced HDMR with the extended basis: the fits of a run. *)
From Coq Require Import Reals String List Arith ZArith Bool Lia Lra Psatz Permutation Sorted.
From Verif Require Import Base Arrays ListFacts ModelGroups Stats Sums ModelScale ModelMorris ModelMorrisAnalyze ModelHdmr SpecHdmr SpecRidge ProofsRidge ProofsRidge2 ProofsMorris3 ProofsHdmr ProofsHdmr2 ProofsHdmr3 ModelEhdmr SpecEhdmr SpecEfit SpecDfit ProofsEfit ProofsEfit2 ProofsEfit3
  ProofsEhdmr ProofsEhdmr2 ProofsEhdmr3 ProofsEhdmr4 ProofsEhdmr5 ProofsEhdmr6 ProofsEhdmr7 ProofsEhdmr8 RField SpecDmorph ModelDfit ProofsDfit ProofsDfit2 ProofsDfit3.
Import ListNotations.
Local Open Scope nat_scope.

Lemma nth_vmul : forall a b i, length a = length b -> nth i (map2 Rmult a b) 0%R = (nth i a 0 * nth i b 0)%R.
Proof. induction a as [|x a IH]; intros [|y b] i H; try discriminate; [destruct i; cbn; ring|]. destruct i as [|i]; [reflexivity|]. cbn. apply IH. injection H; auto. Qed.
Lemma rows_app : forall idx A B, rows_of idx (A ++ B) = rows_of idx A ++ rows_of idx B.
Proof. intros. apply map_app. Qed.
Lemma rows_products : forall idx n A B, (forall c, In c A -> length c = n) -> (forall c, In c B -> length c = n) -> rows_of idx (products A B) = products (rows_of idx A) (rows_of idx B).
Proof.
  intros idx n A B. induction A as [|a A IH]; intros HA HB; auto. cbn [products flat_map rows_of map]. change (flat_map ?f A) with (products A B). change (flat_map ?f (map ?g A)) with (products (rows_of idx A) (rows_of idx B)).
  rewrite map_app. f_equal; [|apply IH; auto; intros c Hc; apply HA; right; auto]. unfold rows_of. rewrite !map_map. apply map_ext_in. intros b Hb.
  assert (E : length a = length b) by (rewrite HA, HB; auto; left; auto). clear - E. induction idx as [|i idx IH]; auto. cbn [map map2]. rewrite nth_vmul, IH; auto.
Qed.
Lemma rows_own : forall ext idx n phi t, length t <= 2 -> (forall a c, In c (phi a) -> length c = n) -> rows_of idx (own_columns ext phi t) = own_columns ext (fun a => rows_of idx (phi a)) t.
Proof.
  intros ext idx n phi t LT H. destruct t as [|a [|b [|]]]; try (simpl in LT; lia); auto. cbn [own_columns]. rewrite rows_app, (rows_products idx n) by (intros; eapply H; eauto). f_equal. destruct ext; auto. apply rows_app.
Qed.
Lemma square_length : forall M w, length (square_of M w) = w.
Proof. intros. unfold square_of. rewrite map_length, seq_length. auto. Qed.
Lemma square_sym : forall M w i j, i < w -> j < w -> nth j (nth i (square_of M w) []) 0%R = nth i (nth j (square_of M w) []) 0%R.
Proof. intros M w i j Hi Hj. unfold square_of. rewrite !nth_map_seq by auto. apply Rsum_ext. intros; ring. Qed.
Lemma zeros_at : forall w i j, nth j (nth i (repeat (repeat 0%R w) w) []) 0%R = 0%R.
Proof.
  intros w i j. destruct (Nat.lt_ge_cases i w) as [H|H].
  - rewrite (nth_indep _ [] (repeat 0%R w)) by (rewrite repeat_length; auto). rewrite nth_repeat. apply nth_repeat.
  - rewrite (nth_overflow (repeat (repeat 0%R w) w)) by (rewrite repeat_length; auto). destruct j; auto.
Qed.
Lemma in_pairs : forall d t, In t (combinations 2 (seq 0 d)) -> exists a b, t = [a; b] /\ a < b /\ b < d.
Proof.
  intros d t Ht. apply combinations_selection in Ht. destruct Ht as (L & B & S). destruct t as [|a [|b [|]]]; try discriminate. exists a, b. split; auto. split; [|apply B; simpl; auto].
  inversion S as [|? ? ? F]; subst. inversion F; auto.
Qed.

Lemma map2_len : forall (a b : list R), length a = length b -> length (map2 Rmult a b) = length a.
Proof. induction a as [|x a IH]; intros [|y b] H; try discriminate; auto. cbn. rewrite IH; auto. Qed.
Lemma nth_firstn' : forall A (d : A) k l j, j < k -> nth j (firstn k l) d = nth j l d.
Proof. induction k as [|k IH]; intros l j H; [lia|]. destruct l; auto. destruct j; auto. cbn. apply IH. lia. Qed.
Lemma nth_skipn : forall A (d : A) k l j, nth j (skipn k l) d = nth (k + j) l d.
Proof. induction k as [|k IH]; intros l j; auto. destruct l; [destruct j; auto|]. apply IH. Qed.

Section Run.
Variable solve : list (list R) -> list R -> result (list R).
Variable pinv : forall m n, matrix.matrix R m n -> option (matrix.matrix R n m).
Variable matrix_rank : forall m n, matrix.matrix R m n -> nat.
Variable svd : forall m, matrix.matrix R m m -> option (matrix.matrix R m m * matrix.matrix R 1 m * matrix.matrix R m m).
Hypothesis pinvP : pinv_ok (F:=R_realFieldType) pinv.
Hypothesis rankP : rank_ok (F:=R_realFieldType) matrix_rank.
Hypothesis svdP : svd_ok (F:=R_realFieldType) svd.
Variable crit : R -> nat -> Z -> option R.
Variable quantile : R -> fval.
Variable argsorts : nat -> list nat.
Notation run := (enhanced_analyze solve (d_morph_lists pinv matrix_rank svd) crit quantile argsorts).

Theorem run_cheapest : forall pb X Y mo p K sub mi l2 al h, 0 < cols X -> wf_mat X -> fst (run pb X Y mo p K sub mi l2 al true) = Ok h ->
  (forall k, Permutation (argsorts k) (seq 0 (length (rows X)))) ->
  exists first, first_columns (Z.to_nat p) X = Some first /\
  forall k f idx, nth_error (eo_fits h) k = Some f -> nth_error (eo_idx h) k = Some idx ->
    let phi a := rows_of idx (nth a first []) in
    let ts := map (fun i => [i]) (seq 0 (cols X)) ++ combinations 2 (seq 0 (cols X)) in
    let Bs := map (own_columns true phi) ts in
    length (concat Bs) <= length idx -> independent (map (own_columns false phi) ts) (length idx) ->
    exists xs, ef_x f = concat xs /\ cheapest_fit Bs (centred Y idx) (hierarchy (length idx) phi ts) xs /\
      length (ef_Y_e f) = length ts /\ forall z, z < length ts -> nth z (ef_Y_e f) [] = combination (length idx) (nth z Bs []) (nth z xs []).
Proof.
  intros pb X Y mo p K sub mi l2 al h D W E P. pose proof (e_run_rows _ _ _ _ _ _ _ _ _ _ _ _ _ _ _ _ _ D E P) as RR.
  destruct (run_fit _ _ _ _ _ _ _ _ _ _ _ _ _ _ _ _ _ D E) as (first & F1 & Q). exists first. split; auto.
  cbv zeta in Q. set (c := core_of X mo p K sub true) in *. destruct Q as (-> & _ & O & LB & _ & _ & _ & KP & Q).
  intros k f idx Hf Hi. specialize (Q k f idx Hf Hi). cbv zeta. intros LC IND.
  destruct (RR idx (nth_error_In _ _ Hi)) as (LI & GE & _). assert (NI : c_subset c = length idx) by (rewrite LI; reflexivity).
  destruct (first_columns_spec _ _ _ F1) as (L1 & L2 & L3). specialize (L3 W).
  apply fanova_one_inv in Q; [|lia|auto]. destruct Q as (LX & _ & QC & QE & _).
  set (b := extend_basis c (concat first)) in *. set (bi := map (take_rows 0%R idx) b) in *.
  set (phi := fun a => rows_of idx (nth a first [])) in *.
  set (ts := map (fun i => [i]) (seq 0 (cols X)) ++ combinations 2 (seq 0 (cols X))) in *. set (Bs := map (own_columns true phi) ts) in *.
  assert (AT : all_terms c = ts) by (change (all_terms c) with (hdmr_term_list (cols X) 2); apply terms_two).
  assert (NCT : c_nc_t c = length ts) by (rewrite <- AT, c_nc_t_hdmr, <- hdmr_n_length; reflexivity).
  assert (LT2 : forall t, In t ts -> length t <= 2).
  { intros t Ht. apply in_app_or in Ht as [Ht|Ht]; [apply in_map_iff in Ht as (i & <- & _); simpl; lia|]. apply in_pairs in Ht as (a & a' & -> & _). simpl. lia. }
  assert (PHN : forall a col, In col (nth a first []) -> length col = length (rows X)).
  { intros a col Hc. destruct (Nat.lt_ge_cases a (length first)) as [Ha|Ha]; [eapply L3; eauto; apply nth_In; auto|rewrite nth_overflow in Hc by auto; destruct Hc]. }
  set (first' := map (rows_of idx) first).
  assert (PHF : forall a, nth a first' [] = phi a) by (intros a; unfold first'; change (@nil (list R)) with (rows_of idx []) at 1; apply map_nth).
  assert (L1' : length first' = c_d c) by (unfold first'; rewrite map_length; auto).
  assert (L2' : forall b0, In b0 first' -> length b0 = c_p c) by (intros b0 Hb; apply in_map_iff in Hb as (b1 & <- & Hb); unfold rows_of; rewrite map_length; apply L2; auto).
  assert (L3' : forall b0 col, In b0 first' -> In col b0 -> length col = c_subset c).
  { intros b0 col Hb Hc. apply in_map_iff in Hb as (b1 & <- & Hb). apply in_map_iff in Hc as (c1 & <- & _). rewrite map_length; auto. }
  assert (EB : extend_basis c (concat first') = concat Bs).
  { rewrite extend_basis_spec, term_blocks_own, AT by (auto; left; lia). f_equal. apply map_ext_in. intros t Ht. pose proof (LT2 t Ht). destruct t as [|x [|x' [|]]]; try (simpl in *; lia); cbn [own_columns]; rewrite ?PHF; auto. }
  assert (EBI : bi = concat Bs).
  { unfold bi, b. rewrite extend_basis_spec, term_blocks_own, AT by (auto; left; lia). rewrite concat_map, map_map. f_equal. apply map_ext_in. intros t Ht.
    apply (rows_own true idx (length (rows X))); auto. }
  unfold coefficients in QC. change (c_ext c) with true in QC. cbv iota in QC. destruct (d_morph_lists _ _ _ _ _ _ _) as [x|] eqn:DM; [|discriminate]. cbn [bind] in QC. destruct (length x =? c_a_tnt c); [|discriminate]. injection QC as EX. subst x.
  assert (PL : forall a, a < cols X -> length (phi a) = c_p c) by (intros a Ha; rewrite <- PHF; apply L2', nth_In; rewrite L1'; auto).
  assert (PN : forall a col, In col (phi a) -> length col = length idx) by (intros a col Hc; apply in_map_iff in Hc as (c1 & <- & _); apply map_length).
  assert (PR : forall t, In t (combinations 2 (seq 0 (cols X))) -> exists a b, t = [a; b] /\ a < cols X /\ b < cols X /\ a <> b).
  { intros t Ht. apply in_pairs in Ht as (a & a' & -> & H1 & H2). exists a, a'. repeat split; auto; lia. }
  assert (LBS : length Bs = length ts) by apply map_length.
  assert (BW : forall B col, In B Bs -> In col B -> length col = length idx).
  { intros B col HB Hc. apply in_map_iff in HB as (t & <- & Ht). pose proof (LT2 t Ht). destruct t as [|x [|x' [|]]]; try (simpl in *; lia); cbn [own_columns] in Hc; [eapply PN; eauto|].
    rewrite !in_app_iff in Hc. destruct Hc as [[Hc|Hc]|Hc]; [eapply PN; eauto|eapply PN; eauto|]. unfold products in Hc. apply in_flat_map in Hc as (u & Hu & Hv). apply in_map_iff in Hv as (v & <- & Hv).
    rewrite map2_len by (rewrite (PN x u), (PN x' v); auto). eapply PN; eauto. }
  set (C := cost_blocks c bi) in *.
  assert (TC : forall z, z < length ts -> term_columns c bi z = nth z Bs []).
  { intros z Hz. rewrite EBI, <- EB, term_columns_spec by (auto; lia). rewrite term_blocks_own, AT by (auto; left; lia). unfold Bs.
    rewrite (nth_indep _ [] (own_columns (c_ext c) (fun a => nth a first' []) [])) by (rewrite map_length; auto). rewrite (nth_indep (map (own_columns true phi) ts) [] (own_columns true phi [])) by (rewrite map_length; auto). rewrite !map_nth.
    pose proof (LT2 _ (nth_In ts [] Hz)). destruct (nth z ts []) as [|x [|x' [|]]]; try (simpl in *; lia); cbn [own_columns]; rewrite ?PHF; auto. }
  assert (WD : forall z, z < length ts -> width Bs z = e_f_p c z).
  { intros z Hz. unfold width. rewrite <- TC by auto. apply term_columns_length; [lia| |lia]. unfold bi. rewrite map_length. auto. }
  assert (CN : forall z, z < length ts -> nth z C [] = if z <? c_nc1 c then repeat (repeat 0%R (c_nt1 c)) (c_nt1 c) else square_of (sr (c_subset c) (nth z Bs []) (c_p c * 2)) (c_nt2 c)).
  { intros z Hz. unfold C, cost_blocks. rewrite nth_map_seq by lia. cbv zeta. rewrite TC by auto. destruct (z <? c_nc1 c); auto. destruct (Nat.ltb_spec z (c_nc1 c + c_nc2 c)); auto. exfalso. unfold c_nc_t, c_nc3 in NCT. rewrite O in NCT. cbn [Nat.eqb] in NCT. lia. }
  assert (WZ : forall z, z < length ts -> e_f_p c z = if z <? c_nc1 c then c_nt1 c else c_nt2 c).
  { intros z Hz. unfold e_f_p. destruct (Nat.ltb_spec z (c_nc1 c)); auto. destruct (Nat.leb_spec (c_nc1 c) z); [|lia]. destruct (Nat.ltb_spec z (c_nc1 c + c_nc2 c)); auto. exfalso. unfold c_nc_t, c_nc3 in NCT. rewrite O in NCT. cbn [Nat.eqb] in NCT. lia. }
  assert (LEN : length C = length Bs) by (unfold C, cost_blocks; rewrite map_length, seq_length; lia).
  assert (QZ : forall z x, z < length ts -> length x = width Bs z -> quadratic (nth z C []) x =
     (let t := nth z ts [] in let f := combination (length idx) (own_columns true phi t) x in if length t =? 1 then 0 else mean f ^ 2 + Rsum (map (fun a => inner a f ^ 2) (lower_columns phi t)))%R).
  { intros z x Hz Lx. assert (HN : nth_error (hdmr_term_list (c_d c) (c_order c)) z = Some (nth z ts [])).
    { change (hdmr_term_list (c_d c) (c_order c)) with (all_terms c). rewrite AT. apply nth_error_nth'. auto. }
    destruct (cost_block_spec c first' L1' L2' L3' eq_refl ltac:(lia) ltac:(lia) z _ HN) as (C0 & HC & HQ). rewrite EB, <- EBI in HC. apply nth_error_nth with (d := []) in HC. fold C in HC. rewrite HC.
    assert (Lx' : length x = coefficient_count true (c_p c) (length (nth z ts []))) by (rewrite Lx, WD by auto; apply (e_f_p_count c z _ ltac:(lia) HN)).
    specialize (HQ x Lx'). cbv zeta in HQ |- *. rewrite NI in HQ.
    pose proof (LT2 _ (nth_In ts [] Hz)) as LL. assert (GT : 1 <= length (nth z ts [])).
    { pose proof (nth_In ts [] Hz) as IT. apply in_app_or in IT as [IT|IT]; [apply in_map_iff in IT as (i & <- & _); simpl; lia|]. apply in_pairs in IT as (a & a' & -> & _). simpl. lia. }
    destruct HQ as (H1 & H2). destruct (Nat.eqb_spec (length (nth z ts [])) 1) as [E1|E1]; [apply H1; auto|]. rewrite H2 by lia.
    destruct (nth z ts []) as [|x0 [|x' [|]]]; try (simpl in *; lia). cbn [own_columns lower_columns]. rewrite !PHF. auto. }
  assert (CF : cost_forms Bs C).
  { split; auto. intros z Hz. rewrite LBS in Hz. split; [|split].
    - rewrite WD, WZ, CN by auto. destruct (z <? c_nc1 c); [apply repeat_length|apply square_length].
    - intros i j Hi2 Hj. rewrite WD, WZ in Hi2, Hj by auto. rewrite CN by auto. destruct (z <? c_nc1 c); [rewrite !zeros_at; auto|apply square_sym; auto].
    - intros x Lx. rewrite QZ by auto. cbv zeta. destruct (_ =? 1); [lra|]. apply Rplus_le_le_0_compat; [apply pow2_ge_0|]. apply Rsum_nonneg. intros v Hv. apply in_map_iff in Hv as (u & <- & _). apply pow2_ge_0. }
  assert (FH : forall vs, shape Bs vs -> forms C vs = hierarchy (length idx) phi ts vs).
  { intros vs (_ & SV). unfold forms, hierarchy. rewrite LEN, LBS. apply total_ext. intros z Hz. apply QZ; auto. apply SV. lia. }
  assert (NP : 0 < length idx) by lia.
  rewrite EBI in DM. destruct (@lists_cheapest Bs (centred Y idx) C CF pinv matrix_rank svd pinvP rankP svdP (Z.to_nat K) (ef_x f)) as (xs & EXS & SH & BEST & CHEAP); auto.
  - rewrite centred_length. auto.
  - rewrite centred_length. intros vs SV EV FV. rewrite FH in FV by auto. apply (costless_zero (cols X) (c_p c) (length idx) phi (combinations 2 (seq 0 (cols X))) PL PN PR IND NP vs SV EV FV).
  - exists xs. split; auto. split; [split; [auto|split; [auto|]]|].
    + intros es SE ME NE. rewrite <- !FH by auto. apply CHEAP; auto.
    + split; [rewrite QE, map_length, seq_length; auto|]. intros z Hz. rewrite QE, nth_map_seq by lia.
      assert (SMT : map (take_rows 0%R idx) (term_columns c b z) = term_columns c bi z).
      { unfold bi, term_columns. cbv zeta. unfold slice. rewrite !skipn_map, !firstn_map. destruct (z <? c_nc1 c); auto. destruct (z <? c_nc1 c + c_nc2 c); auto. }
      rewrite SMT, TC by auto.
      assert (XT : term_columns c (ef_x f) z = nth z xs []).
      { assert (XW : forall z, z < length ts -> length (nth z xs []) = if z <? c_nc1 c then c_nt1 c else c_nt2 c) by (intros z0 Hz0; destruct SH as (_ & SH); rewrite SH, WD, WZ by lia; auto).
        assert (LXS : length xs = length ts) by (destruct SH; lia).
        assert (NN : length ts = c_nc1 c + c_nc2 c) by (unfold c_nc_t, c_nc3 in NCT; rewrite O in NCT; cbn [Nat.eqb] in NCT; lia).
        rewrite EXS, <- (firstn_skipn (c_nc1 c) xs), concat_app.
        assert (F1' : forall x, In x (firstn (c_nc1 c) xs) -> length x = c_p c).
        { intros x Hx. destruct (In_nth _ _ [] Hx) as (j & Hj & <-). rewrite firstn_length in Hj. rewrite nth_firstn' by lia. rewrite XW by lia. destruct (Nat.ltb_spec j (c_nc1 c)); [reflexivity|lia]. }
        assert (F2' : forall x, In x (skipn (c_nc1 c) xs) -> length x = c_nt2 c).
        { intros x Hx. destruct (In_nth _ _ [] Hx) as (j & Hj & <-). rewrite skipn_length in Hj. rewrite nth_skipn. rewrite XW by lia. destruct (Nat.ltb_spec (c_nc1 c + j) (c_nc1 c)); [lia|reflexivity]. }
        assert (LF : length (firstn (c_nc1 c) xs) = c_nc1 c) by (rewrite firstn_length; lia).
        assert (LC1 : length (concat (firstn (c_nc1 c) xs)) = c_tnt1 c) by (rewrite (length_concat_w _ _ (c_p c)) by auto; rewrite LF; reflexivity).
        unfold term_columns. cbv zeta. destruct (Nat.ltb_spec z (c_nc1 c)).
        - rewrite slice_app_l by (rewrite LC1; unfold c_tnt1, c_nt1; nia). rewrite (slice_concat _ _ (c_p c)) by (auto; lia). rewrite app_nth1 by lia. auto.
        - destruct (Nat.ltb_spec z (c_nc1 c + c_nc2 c)); [|lia]. rewrite <- LC1, slice_app_r. rewrite (slice_concat _ _ (c_nt2 c)) by (auto; rewrite skipn_length; lia). rewrite app_nth2 by lia. f_equal. lia. }
      rewrite XT. destruct SH as (_ & SH). pose proof (component_nth (length idx) Bs BW z (nth z xs [])) as CNP.
      specialize (CNP ltac:(apply SH; lia)). apply (nth_ext _ _ 0%R 0%R); [rewrite (proj1 CNP); unfold combination; rewrite map_length, seq_length; auto|].
      intros r Hr. rewrite (proj1 CNP) in Hr. rewrite (proj2 CNP) by auto. unfold combination. rewrite nth_map_seq by auto. rewrite (map2_total (fun v => nth r v 0%R)); [reflexivity|apply SH; lia].
Qed.
End Run.
