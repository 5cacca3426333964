(** * PAWN with levels in double precision. *)
From Coq Require Import Reals String List Arith ZArith Bool Lia Lra Psatz Permutation.
From Flocq Require Import Core.
From Verif Require Import Base Arrays ListFacts ModelGroups SpecGroups ProofsGroups ModelScale ProofsScale Stats Sums ModelFast ModelMorris ModelMorrisAnalyze ProofsFast2 ProofsMorris3 ProofsMorris7
  SpecSobol ProofsSobol Quant ModelPawn SpecPawn ProofsPawn ProofsPawn2 ProofsPawn3 ProofsPawn4 ModelDouble ProofsDouble ProofsDouble2 ProofsDouble5 ModelLevels SpecLevels ProofsLevels ProofsLevels2.
Import ListNotations.
Local Open Scope nat_scope.

(** ** Quantiles near 1 *)
Lemma quantile_top : forall xs q x, In x xs -> (x < maxl xs)%R -> (0 <= q <= 1)%R -> (INR (length xs - 1) * (1 - q) < 1)%R -> (x < quantile xs q)%R.
Proof.
  intros xs q x Hi Hx Hq HL. assert (NE : xs <> []) by (intros ->; auto).
  destruct (quantile_spec xs q NE Hq) as (a & i & t & Ha & HP & Hia & Ht & Ev & H0 & H1).
  pose proof (Permutation_length HP) as LA. pose proof (len_pos xs NE) as LP.
  assert (Hin : In x a) by (apply (Permutation_in _ (Permutation_sym HP)); auto).
  destruct (maxl_spec xs NE) as [IM _]. apply (Permutation_in _ (Permutation_sym HP)) in IM.
  assert (TOP : forall y, In y a -> (y <= nth (length a - 1) a 0)%R).
  { intros y Hy. apply (In_nth _ _ 0%R) in Hy. destruct Hy as (k & Hk & <-). apply Ha; lia. }
  pose proof (TOP _ IM) as TM.
  assert (XB : forall j, length a - 1 <= j + 1 -> j < length a -> (nth j a 0 < nth (length a - 1) a 0)%R -> (x <= nth j a 0)%R).
  { intros j Hj Hj2 Hlt. apply (In_nth _ _ 0%R) in Hin. destruct Hin as (k & Hk & <-).
    destruct (Nat.eq_dec k (length a - 1)) as [->|]; [|apply Ha; lia].
    exfalso. destruct (maxl_spec xs NE) as [_ UB]. assert (nth (length a - 1) a 0 <= maxl xs)%R; [|lra].
    apply UB. apply (Permutation_in _ HP). apply nth_In. lia. }
  assert (HI : (INR (length xs - 1) < INR i + t + 1)%R) by lra.
  assert (I2 : length a <= i + 2).
  { assert (L : (INR (length xs - 1) < INR (i + 2))%R) by (rewrite plus_INR; simpl (INR 2); lra). apply INR_lt in L. lia. }
  destruct (Req_dec t 0) as [T0|TN].
  - rewrite (H0 T0). assert (i = length a - 1) as ->; [|lra].
    assert (L : (INR (length xs - 1) < INR (i + 1))%R) by (rewrite plus_INR; simpl (INR 1); lra). apply INR_lt in L. lia.
  - destruct (H1 ltac:(lra)) as (HL1 & ->). assert (i + 1 = length a - 1) by lia. rewrite H.
    assert (LE : (nth i a 0 <= nth (length a - 1) a 0)%R) by (apply Ha; lia).
    destruct (Rle_lt_or_eq_dec _ _ LE) as [LT|EQ]; [|rewrite EQ; lra].
    pose proof (XB i ltac:(lia) ltac:(lia) LT). nra.
Qed.

(** ** Slices between given levels *)
Definition keep_at (xs : list fval) (l : nat -> R) (s : nat) : fval -> bool :=
  fun x => fle (nanquantile xs (l s)) x && flt x (nanquantile xs (l (s + 1))).
Definition cell_at (l : nat -> R) (xs : list fval) (Y : list R) (s : nat) : fval :=
  let sel := outputs_where (keep_at xs l s) xs Y in match sel with [] => None | _ => Some (ks_2samp sel Y) end.
Definition row_of_at (l : nat -> R) (xs : list fval) (Y : list R) (n : nat) : list fval := pawn_summary (map (cell_at l xs Y) (seq 0 n)).

Lemma get_at : forall (f : nat -> R) xs n k, k < n -> get (map (nanquantile xs) (map f (seq 0 n))) k = Ok (nanquantile xs (f k)).
Proof.
  intros f xs n k H. unfold get. rewrite !nth_error_map', nth_error_seq. destruct (Nat.ltb_spec k n); [|lia]. reflexivity.
Qed.

Lemma cell_at_eq : forall l xs Y n s, length xs = length Y -> s < n ->
  pawn_cell_at xs (map (nanquantile xs) (map l (seq 0 (n + 1)))) Y s = Ok (cell_at l xs Y s).
Proof.
  intros l xs Y n s HL Hs. unfold pawn_cell_at. rewrite !get_at by lia. cbn [bind].
  change (fun x => fle (nanquantile xs (l s)) x && flt x (nanquantile xs (l (s + 1)))) with (keep_at xs l s).
  rewrite select_where by auto. reflexivity.
Qed.

Lemma cell_at_spec : forall l xs Y s, length xs = length Y ->
  slice_value (fun k => quantile (somes xs) (l k)) xs Y s (cell_at l xs Y s) /\ (forall d, cell_at l xs Y s = Some d -> (0 <= d < 1)%R).
Proof.
  intros l xs Y s HL. unfold cell_at. cbv zeta. set (sel := outputs_where (keep_at xs l s) xs Y).
  assert (HY : sel <> [] -> Y <> []).
  { intros H E. apply H. unfold sel. rewrite E. unfold outputs_where. destruct xs; reflexivity. }
  split.
  - destruct (somes xs) as [|r0 rs] eqn:Er.
    + assert (HN : forall u, In u xs -> u = None).
      { intros u Hu. destruct u as [x|]; auto. exfalso.
        assert (In x (somes xs)); [|rewrite Er in H; auto]. unfold somes. apply in_map_iff. exists (Some x). split; auto. apply filter_In. auto. }
      assert (Hsel : sel = []).
      { unfold sel, outputs_where. assert (K : forall u, keep_at xs l s u = false); [|clear - K].
        - intros u. unfold keep_at, nanquantile. rewrite numbers_somes, Er. reflexivity.
        - induction (combine xs Y) as [|[u y] c IH]; simpl; auto. rewrite K. auto. }
      rewrite Hsel.
      exists (fun u => match u with Some x => (if Rle_dec (quantile [] (l s)) x then true else false) &&
                         (if Rlt_dec x (quantile [] (l (s + 1))) then true else false) | None => false end).
      split.
      * intros [x|]; split; try discriminate.
        -- intros H. apply andb_true_iff in H. destruct H as [H1 H2]. exists x. split; auto. unfold in_slice.
           destruct (Rle_dec _ _); [|discriminate]. destruct (Rlt_dec _ _); [|discriminate]. lra.
        -- intros (x' & E & H1 & H2). injection E as <-. destruct (Rle_dec _ _); [|contradiction]. destruct (Rlt_dec _ _); [|contradiction]. auto.
        -- intros (x' & E & _). discriminate.
      * cbv zeta. split; auto. intros H. exfalso. apply H. unfold outputs_where.
        assert (K : forall u y, In (u, y) (combine xs Y) -> u = None) by (intros u y Hu; apply in_combine_l in Hu; auto).
        clear - K. induction (combine xs Y) as [|[u y] c IH]; simpl; auto. rewrite (K u y) by (left; auto). apply IH. intros u' y' Hu. apply (K u' y'). right. auto.
    + exists (keep_at xs l s). split.
      * intros u. unfold keep_at, nanquantile. rewrite numbers_somes, Er. destruct u as [x|]; simpl; split.
        -- intros H. apply andb_true_iff in H. destruct H as [H1 H2]. exists x. split; auto. unfold in_slice.
           destruct (Rle_dec _ _); [|discriminate]. destruct (Rlt_dec _ _); [|discriminate]. split; auto.
        -- intros (x' & E & H1 & H2). injection E as <-. destruct (Rle_dec _ _); [|contradiction]. destruct (Rlt_dec _ _); [|contradiction]. auto.
        -- discriminate.
        -- intros (x' & E & _). discriminate.
      * cbv zeta. fold sel. split.
        -- intros ->. auto.
        -- intros H. destruct sel as [|y0 ys] eqn:Es; [congruence|]. eexists. split; [reflexivity|].
           destruct (ks_spec (y0 :: ys) Y ltac:(discriminate) (HY ltac:(discriminate))) as [U (t & _ & E)]. split; auto. exists t. auto.
  - intros d Hd. destruct sel as [|y0 ys] eqn:Es; [discriminate|]. injection Hd as <-.
    pose proof (HY ltac:(discriminate)) as HY'. split; [apply ks_range; auto; discriminate|].
    pose proof (where_split (keep_at xs l s) xs Y HL) as HP. fold sel in HP. rewrite Es in HP.
    pose proof (ks_part (y0 :: ys) _ Y ltac:(discriminate) HP) as HK.
    pose proof (INR_length_pos R Y HY') as LY. pose proof (Permutation_length HP) as EL. rewrite app_length in EL.
    eapply Rle_lt_trans; [exact HK|]. apply Rmult_lt_reg_r with (INR (length Y)); auto. unfold Rdiv.
    rewrite Rmult_assoc, Rinv_l by lra. rewrite Rmult_1_r, Rmult_1_l. apply lt_INR. simpl in EL. lia.
Qed.

Lemma row_at_spec : forall l xs Y n, length xs = length Y -> (forall k, k <= n -> (0 <= l k <= 1)%R) ->
  row_at l xs Y n (row_of_at l xs Y n) /\ ordered_row (row_of_at l xs Y n).
Proof.
  intros l xs Y n HL Hl.
  assert (S : summary_of (map (cell_at l xs Y) (seq 0 n)) (row_of_at l xs Y n) /\ ordered_row (row_of_at l xs Y n)).
  { apply summary_spec. intros d Hd. apply in_map_iff in Hd. destruct Hd as (s & E & Hs). apply (proj2 (cell_at_spec l xs Y s HL)). auto. }
  split; [|apply S]. exists (fun k => quantile (somes xs) (l k)), (map (cell_at l xs Y) (seq 0 n)).
  split; [intros N k Hk; apply quantile_spec; auto|]. split; [rewrite map_length, seq_length; auto|]. split; [|apply S].
  intros s v H. rewrite nth_error_map', nth_error_seq in H. destruct (s <? n); [|discriminate]. simpl in H. injection H as <-. apply cell_at_spec. auto.
Qed.

(** ** The analysis *)
Definition finish (p : problem) (rows : list (list fval)) : result pawn_out :=
  do r <- match check_groups p with Some g => group_means g rows | None => Ok rows end ;; Ok (mkPawn r (fst (extract_group_names p))).

Section Pawn.
Variable n : nat.
Hypothesis N1 : 1 <= n.
Hypothesis NU : (Z.of_nat n <= 2 ^ 49)%Z.

Lemma levels_refused : ~ pawn_fits n -> existsb (fun q => Rlt_bool q 0 || Rlt_bool 1 q) (pawn_levels n) = true.
Proof using N1 NU.
  intros H. rewrite pawn_levels_are by auto. destruct (Rle_dec _ _); [contradiction|]. apply existsb_exists. exists (edge n (n + 1)). split.
  - apply in_map, in_seq. lia.
  - apply orb_true_iff. right. apply Rlt_bool_true. apply edge_over; auto.
Qed.
Lemma levels_accepted : pawn_fits n -> pawn_levels n = map (edge n) (seq 0 (n + 1)) /\ existsb (fun q => Rlt_bool q 0 || Rlt_bool 1 q) (pawn_levels n) = false.
Proof using N1 NU.
  intros H. rewrite pawn_levels_are by auto. destruct (Rle_dec _ _); [|contradiction]. split; auto. apply not_true_is_false. intros E.
  apply existsb_exists in E. destruct E as (q & Hq & E). apply in_map_iff in Hq. destruct Hq as (k & <- & Hk). apply in_seq in Hk.
  pose proof (edge_range n N1 (NU' n NU) k ltac:(lia)). apply orb_true_iff in E. destruct E as [E|E].
  - revert E. case Rlt_bool_spec; [lra|discriminate].
  - revert E. case Rlt_bool_spec; [lra|discriminate].
Qed.

Lemma pawn_refused : forall p X Y, ~ pawn_fits n -> Forall (fun r => p_num_vars p <= length r) X -> 0 < p_num_vars p -> pawn_analyze_fl p X Y n = Err ValueError.
Proof using N1 NU.
  intros p X Y H HX HD. unfold pawn_analyze_fl. destruct (Nat.eqb_spec n 0); [lia|]. destruct (p_num_vars p) as [|D] eqn:ED; [lia|].
  cbn [seq mapM]. rewrite (get_column X (S D) 0 HX) by lia. cbn [bind]. unfold nanquantiles. rewrite levels_refused by auto. reflexivity.
Qed.

Lemma pawn_accepted : forall p X Y, pawn_fits n -> pawn_input (p_num_vars p) X Y ->
  pawn_analyze_fl p X Y n = finish p (map (fun d => row_of_at (edge n) (column_of X d) Y n) (seq 0 (p_num_vars p))).
Proof using N1 NU.
  intros p X Y H [HX HL]. unfold pawn_analyze_fl. destruct (Nat.eqb_spec n 0); [lia|].
  rewrite (mapM_ext _ (fun d => Ok (row_of_at (edge n) (column_of X d) Y n))).
  - rewrite mapM_Ok_map. reflexivity.
  - intros d Hd. apply in_seq in Hd. rewrite (get_column X (p_num_vars p) d HX) by lia. cbn [bind].
    destruct (levels_accepted H) as (EL & EX). unfold nanquantiles. rewrite EX, EL. cbn [bind].
    rewrite (mapM_ext _ (fun s => Ok (cell_at (edge n) (column_of X d) Y s))).
    + rewrite mapM_Ok_map. reflexivity.
    + intros s Hs. apply in_seq in Hs. apply cell_at_eq; [rewrite column_of_length; auto|lia].
Qed.

Lemma pawn_fl_ungrouped : forall p X Y ls, pawn_fits n -> pawn_input (p_num_vars p) X Y -> ungrouped p -> labels_of p ls ->
  exists out, pawn_analyze_fl p X Y n = Ok out /\ first_appearance ls (pw_names out) /\ length (pw_rows out) = p_num_vars p /\
    forall d row, nth_error (pw_rows out) d = Some row -> row_at (edge n) (column_of X d) Y n row /\ ordered_row row.
Proof using N1 NU.
  intros p X Y ls HF HI Hu Hl. rewrite pawn_accepted by auto. unfold finish. rewrite (ungrouped_check p Hu). cbn [bind].
  eexists. split; [reflexivity|]. cbn [pw_names pw_rows]. split; [apply names_of_labels; auto|].
  split; [rewrite map_length, seq_length; auto|]. intros d row H. rewrite nth_error_map', nth_error_seq in H.
  destruct (d <? p_num_vars p); [|discriminate]. simpl in H. injection H as <-. apply row_at_spec; [rewrite column_of_length; apply HI|].
  intros k Hk. apply edge_range; auto. apply NU'; auto.
Qed.

Lemma pawn_fl_groups : forall p X Y g, pawn_fits n -> pawn_input (p_num_vars p) X Y -> grouped p g -> length g = p_num_vars p ->
  exists out rows, pawn_analyze_fl p X Y n = Ok out /\
     first_appearance g (pw_names out) /\ length (pw_rows out) = length (pw_names out) /\
     (forall d, d < p_num_vars p -> row_at (edge n) (column_of X d) Y n (rows d)) /\
     forall i x row, nth_error (pw_names out) i = Some x -> nth_error (pw_rows out) i = Some row -> exists js,
       NoDup js /\ (forall j, In j js <-> nth_error g j = Some x) /\ length row = 6 /\
       forall k v, nth_error row k = Some v -> nan_mean (map (fun j => nth k (rows j) None) js) v.
Proof using N1 NU.
  intros p X Y g HF HI Hg HL. rewrite pawn_accepted by auto. unfold finish. pose proof (grouped_check p g Hg) as EC. rewrite EC.
  set (rows := map (fun d => row_of_at (edge n) (column_of X d) Y n) (seq 0 (p_num_vars p))).
  assert (LR : length rows = p_num_vars p) by (unfold rows; rewrite map_length, seq_length; auto).
  rewrite group_means_ok by lia. cbn [bind]. eexists. exists (fun d => row_of_at (edge n) (column_of X d) Y n). split; [reflexivity|]. cbn [pw_names pw_rows].
  assert (EN : fst (extract_group_names p) = pd_unique g).
  { destruct Hg as (Eg & _ & x & y & Hx & _). unfold extract_group_names, truthy_groups. rewrite Eg. destruct g; [destruct Hx|]. reflexivity. }
  rewrite EN. split; [apply first_appearance_pd_unique|]. split; [apply map_length|].
  split. { intros d Hd. apply row_at_spec; [rewrite column_of_length; apply HI|]. intros k Hk. apply edge_range; auto. apply NU'; auto. }
  intros i x row Hi Hr. rewrite nth_error_map', Hi in Hr. cbn [option_map] in Hr.
  match type of Hr with Some ?r = _ => assert (Hr' : row = r) by congruence end. clear Hr. subst row. exists (members g x).
  split; [apply NoDup_filter, seq_NoDup|]. split; [intros j; apply members_spec|]. split; [reflexivity|].
  intros k v Hv. assert (K6 : k < 6) by (apply nth_error_Some_lt in Hv; auto).
  rewrite nth_error_map', nth_error_seq in Hv. destruct (Nat.ltb_spec k 6); [|lia]. cbn [option_map Nat.add] in Hv. injection Hv as <-.
  replace (map (fun j => nth k (nth j rows []) None) (members g x)) with (map (fun j => nth k (row_of_at (edge n) (column_of X j) Y n) None) (members g x)); [apply fmean_spec|].
  apply map_ext_in. intros j Hj. apply members_spec in Hj. apply nth_error_Some_lt in Hj. unfold rows.
  rewrite (nth_indep _ [] (row_of_at (edge n) (column_of X 0) Y n)) by (rewrite map_length, seq_length; lia).
  rewrite (map_nth (fun d => row_of_at (edge n) (column_of X d) Y n)). rewrite seq_nth by lia. reflexivity.
Qed.

(** The slices hold every value below the largest exactly once. *)
Lemma slices_at : forall xs c, xs <> [] -> (Z.of_nat (length xs) <= 2 ^ 53)%Z -> (forall k, k <= n -> quantile_at xs (edge n k) (c k)) ->
  forall x, In x xs -> (x < maxl xs)%R -> exists! s, s < n /\ in_slice c s x.
Proof using N1 NU.
  intros xs c Hx HL Hc x Hi Hlt. pose proof (fun k H => edge_range n N1 (NU' n NU) k H) as ER.
  assert (Q : forall k, k <= n -> c k = quantile xs (edge n k)) by (intros k Hk; apply quantile_at_unique; auto).
  assert (MO : forall k k', k <= k' -> k' <= n -> (c k <= c k')%R).
  { intros k k' H H'. rewrite !Q by lia. pose proof (ER k ltac:(lia)). pose proof (ER k' H'). apply quantile_mono; auto; try lra. apply edge_mono; auto. apply NU'; auto. }
  assert (C0 : (c 0%nat <= x)%R). { rewrite Q by lia. rewrite edge_0, quantile_0 by auto. apply minl_spec; auto. }
  assert (CN : (x < c n)%R).
  { rewrite Q by lia. apply quantile_top; auto. pose proof (edge_last n N1 NU) as EL.
    assert (LI : (INR (length xs - 1) <= 9007199254740991)%R) by (rewrite INR_IZR_INZ; apply IZR_le; lia).
    pose proof (pos_INR (length xs - 1)). replace (/ 2 ^ 53)%R with (/ 9007199254740992)%R in EL by (f_equal; lra). nra. }
  destruct (slice_exists n c x C0 n (le_n n) CN) as (s & Hs & HS).
  exists s. split; auto. intros s' [Hs' Hsl']. unfold in_slice in *.
  destruct (Nat.lt_trichotomy s s') as [L|[L|L]]; auto; exfalso.
  - pose proof (MO (s + 1) s' ltac:(lia) ltac:(lia)). lra.
  - pose proof (MO (s' + 1) s ltac:(lia) ltac:(lia)). lra.
Qed.
End Pawn.

(** With a power of two of slices nothing is rounded. *)
Lemma pawn_power : forall k p X Y, k <= 49 -> pawn_input (p_num_vars p) X Y -> pawn_analyze_fl p X Y (2 ^ k) = pawn_analyze p X Y (2 ^ k).
Proof.
  intros k p X Y HK HI. assert (P : 1 <= 2 ^ k) by (apply Nat.neq_0_lt_0, Nat.pow_nonzero; lia).
  assert (PU : (Z.of_nat (2 ^ k) <= 2 ^ 49)%Z) by (rewrite Nat2Z.inj_pow; apply Z.pow_le_mono_r; lia).
  rewrite pawn_accepted; auto; [|apply pow_fits; auto]. rewrite analyze_eq by auto. unfold finish.
  assert (E : map (fun d => row_of_at (edge (2 ^ k)) (column_of X d) Y (2 ^ k)) (seq 0 (p_num_vars p)) = map (fun d => row_of (column_of X d) Y (2 ^ k)) (seq 0 (p_num_vars p))).
  { apply map_ext. intros d. unfold row_of_at, row_of. f_equal. apply map_ext_in. intros s Hs. apply in_seq in Hs. unfold cell_at, cell_of.
    assert (EK : keep_at (column_of X d) (edge (2 ^ k)) s = keep_slice (column_of X d) (2 ^ k) s); [|rewrite EK; reflexivity].
    unfold keep_at, keep_slice. rewrite !pow_edge by lia. reflexivity. }
  rewrite E. reflexivity.
Qed.
