(** * PAWN: the analyser. *)
From Coq Require Import Reals String List Arith ZArith Bool Lia Lra Permutation.
From Verif Require Import Base Arrays ListFacts ModelGroups ProofsGroups ModelScale ProofsScale Stats Sums ModelFast ModelMorris ModelMorrisAnalyze ProofsFast2 ProofsMorris3 ProofsMorris7
  Quant ModelPawn SpecPawn ProofsPawn.
Import ListNotations.
Local Open Scope nat_scope.

Definition cell_of (xs : list fval) (Y : list R) (n s : nat) : fval :=
  let sel := outputs_where (keep_slice xs n s) xs Y in match sel with [] => None | _ => Some (ks_2samp sel Y) end.
Definition row_of (xs : list fval) (Y : list R) (n : nat) : list fval := pawn_summary (map (cell_of xs Y n) (seq 0 n)).

Lemma cell_eq : forall xs Y n s, length xs = length Y -> pawn_cell xs Y n s = Ok (cell_of xs Y n s).
Proof.
  intros xs Y n s H. unfold pawn_cell, slice_mask. cbv zeta.
  change (fun x => fle (nanquantile xs (INR s / INR n)) x && flt x (nanquantile xs (INR (s + 1) / INR n))) with (keep_slice xs n s).
  rewrite select_where by auto. reflexivity.
Qed.

Lemma get_column : forall X D d, Forall (fun r => D <= length r) X -> d < D -> mapM (fun r : list fval => get r d) X = Ok (column_of X d).
Proof.
  intros X D d H Hd. unfold column_of. rewrite <- mapM_Ok_map. apply mapM_ext. intros r Hr. pose proof (proj1 (Forall_forall _ _) H r Hr) as K; cbv beta in K.
  unfold get. rewrite (nth_error_nth' r (None : fval)) by exact (Nat.lt_le_trans _ _ _ Hd K). auto.
Qed.
Lemma column_of_length : forall X d, length (column_of X d) = length X.
Proof. intros. apply map_length. Qed.

Lemma rows_eq : forall D X Y n, pawn_input D X Y ->
  mapM (fun d => do Xi <- mapM (fun r => get r d) X ;; do cells <- mapM (pawn_cell Xi Y n) (seq 0 n) ;; Ok (pawn_summary cells)) (seq 0 D)
  = Ok (map (fun d => row_of (column_of X d) Y n) (seq 0 D)).
Proof.
  intros D X Y n [HX HL]. rewrite <- mapM_Ok_map. apply mapM_ext. intros d Hd. apply in_seq in Hd.
  rewrite (get_column X D d HX) by lia. cbn [bind].
  rewrite (mapM_ext (pawn_cell (column_of X d) Y n) (fun s => Ok (cell_of (column_of X d) Y n s))).
  - rewrite mapM_Ok_map. reflexivity.
  - intros s _. apply cell_eq. rewrite column_of_length. auto.
Qed.

Lemma analyze_eq : forall p X Y n, 0 < n -> pawn_input (p_num_vars p) X Y ->
  pawn_analyze p X Y n =
    do rows <- match check_groups p with
               | Some g => group_means g (map (fun d => row_of (column_of X d) Y n) (seq 0 (p_num_vars p)))
               | None => Ok (map (fun d => row_of (column_of X d) Y n) (seq 0 (p_num_vars p))) end ;;
    Ok (mkPawn rows (fst (extract_group_names p))).
Proof.
  intros p X Y n Hn HI. unfold pawn_analyze. destruct (Nat.eqb_spec n 0); [lia|]. rewrite rows_eq by auto. reflexivity.
Qed.

Lemma row_spec : forall xs Y n, length xs = length Y -> 0 < n -> exists cells,
  length cells = n /\
  (forall s v, nth_error cells s = Some v -> slice_value (fun k => quantile (somes xs) (INR k / INR n)) xs Y s v) /\
  summary_of cells (row_of xs Y n) /\ ordered_row (row_of xs Y n).
Proof.
  intros xs Y n HL Hn. exists (map (cell_of xs Y n) (seq 0 n)).
  split; [rewrite map_length, seq_length; auto|].
  assert (K : forall s, s < n -> slice_value (fun k => quantile (somes xs) (INR k / INR n)) xs Y s (cell_of xs Y n s) /\
     (forall d, cell_of xs Y n s = Some d -> (0 <= d < 1)%R)).
  { intros s Hs. destruct (cell_spec xs Y n s HL Hs) as (v & E & H1 & H2). rewrite cell_eq in E by auto. injection E as <-. auto. }
  split.
  - intros s v H. rewrite nth_error_map' in H. destruct (nth_error (seq 0 n) s) as [t|] eqn:E; [|discriminate]. simpl in H. injection H as <-.
    rewrite nth_error_seq in E. destruct (s <? n) eqn:El; [|discriminate]. injection E as <-. apply Nat.ltb_lt in El. apply K. auto.
  - apply summary_spec. intros d Hd. apply in_map_iff in Hd. destruct Hd as (s & E & Hs). apply in_seq in Hs. apply (K s); auto; lia.
Qed.

(** ** No groups *)
Lemma pawn_plain : forall p X Y n, 0 < n -> pawn_input (p_num_vars p) X Y -> check_groups p = None ->
  exists out, pawn_analyze p X Y n = Ok out /\ length (pw_rows out) = p_num_vars p /\
    pw_names out = fst (extract_group_names p) /\
    forall d, d < p_num_vars p -> exists c cells row,
      (somes (column_of X d) <> [] -> forall k, k <= n -> quantile_at (somes (column_of X d)) (INR k / INR n) (c k)) /\
      length cells = n /\ (forall s v, nth_error cells s = Some v -> slice_value c (column_of X d) Y s v) /\
      nth_error (pw_rows out) d = Some row /\ summary_of cells row /\ ordered_row row.
Proof.
  intros p X Y n Hn HI Hg. rewrite analyze_eq, Hg by auto. cbn [bind]. eexists. split; [reflexivity|].
  split; [cbn [pw_rows]; rewrite map_length, seq_length; auto|]. split; auto.
  intros d Hd. destruct (row_spec (column_of X d) Y n) as (cells & L & HC & HS & HO); auto.
  { rewrite column_of_length. apply HI. }
  exists (fun k => quantile (somes (column_of X d)) (INR k / INR n)), cells, (row_of (column_of X d) Y n).
  split; [|split; [auto|split; [auto|split; [|auto]]]].
  - intros Hne k Hk. apply quantile_spec; auto. apply frac; auto.
  - cbn [pw_rows]. rewrite nth_error_map', nth_error_seq. destruct (Nat.ltb_spec d (p_num_vars p)); [auto|lia].
Qed.

(** ** Groups *)
Lemma select_rows : forall (f : string -> bool) g (rows : list (list fval)), length g = length rows ->
  select (map f g) rows = Ok (map (fun j => nth j rows []) (filter (fun j => f (nth j g EmptyString)) (seq 0 (length g)))).
Proof.
  intros f g rows H. unfold select. rewrite map_length, H, Nat.eqb_refl. f_equal.
  revert rows H. induction g as [|x g IH]; intros [|r rows] H; simpl in *; try discriminate; auto. injection H as H.
  specialize (IH rows H). rewrite <- H in *. rewrite <- seq_shift.
  assert (E : forall l, filter (fun j => f match j with 0 => x | S m => nth m g EmptyString end) (map S l) = map S (filter (fun j => f (nth j g EmptyString)) l)).
  { induction l as [|j l IHl]; simpl; auto. destruct (f (nth j g EmptyString)); simpl; rewrite IHl; auto. }
  rewrite E. destruct (f x); simpl; [f_equal|]; rewrite map_map; rewrite IH; auto.
Qed.

(** Positions of a label. *)
Definition members (g : list string) (x : string) : list nat := filter (fun j => String.eqb (nth j g EmptyString) x) (seq 0 (length g)).

Lemma members_spec : forall g x j, In j (members g x) <-> nth_error g j = Some x.
Proof.
  intros g x j. unfold members. rewrite filter_In, in_seq. rewrite String.eqb_eq. split.
  - intros [Hj <-]. apply nth_error_nth'. lia.
  - intros H. assert (j < length g) by (eapply nth_error_Some_lt; eauto). split; [lia|]. erewrite nth_error_nth by eauto. auto.
Qed.

Lemma group_means_ok : forall g rows, length g = length rows ->
  group_means g rows = Ok (map (fun x => map (fun k => fmean (map (fun j => nth k (nth j rows []) None) (members g x))) (seq 0 6)) (pd_unique g)).
Proof.
  intros g rows H. unfold group_means. rewrite <- mapM_Ok_map. apply mapM_ext. intros x _.
  rewrite (select_rows (fun y => String.eqb y x)) by auto. cbn [bind]. f_equal. apply map_ext. intros k. rewrite map_map. reflexivity.
Qed.

Lemma group_means_length : forall g rows, length g <> length rows -> g <> [] -> group_means g rows = Err IndexError.
Proof.
  intros g rows H Hg. unfold group_means. destruct (pd_unique g) as [|x u] eqn:E.
  - exfalso. destruct g as [|y g]; [congruence|]. assert (K : In y (pd_unique (y :: g))) by (apply pd_unique_In; left; auto). rewrite E in K. auto.
  - cbn [mapM]. unfold select at 1. rewrite map_length. destruct (Nat.eqb_spec (length g) (length rows)); [contradiction|]. reflexivity.
Qed.

Lemma mean_le : forall A (f g : A -> R) l, l <> [] -> (forall x, In x l -> (f x <= g x)%R) -> (mean (map f l) <= mean (map g l))%R.
Proof.
  intros A f g l Hl H. unfold mean. rewrite !map_length. pose proof (INR_length_pos A l Hl).
  apply Rmult_le_compat_r; [apply Rlt_le, Rinv_0_lt_compat; auto|]. apply Rsum_le. auto.
Qed.

Lemma mean_lt1 : forall A (f : A -> R) l, l <> [] -> (forall x, In x l -> (f x < 1)%R) -> (mean (map f l) < 1)%R.
Proof.
  intros A f l Hl H. assert (Hm : map f l <> []) by (intros E; apply map_eq_nil in E; auto).
  pose proof (mean_bounds (map f l) Hm) as [_ B]. destruct (maxl_spec (map f l) Hm) as [I _].
  apply in_map_iff in I. destruct I as (x & E & Hx). specialize (H x Hx). lra.
Qed.

Lemma some_row : forall (rows : list (list fval)) js, (forall j, In j js -> ordered_row (nth j rows [])) -> js <> [] ->
  ordered_row (map (fun k => fmean (map (fun j => nth k (nth j rows []) None) js)) (seq 0 6)).
Proof.
  intros rows js H Hne. cbn [seq map].
  assert (D : (exists j, In j js /\ exists cv, nth j rows [] = [None; None; None; None; cv; None]) \/
              forall j, In j js -> exists mi me md ma cv s, nth j rows [] = [Some mi; Some me; Some md; Some ma; cv; Some s] /\
                 (0 <= mi /\ mi <= me /\ me <= ma /\ mi <= md /\ md <= ma /\ ma < 1 /\ 0 <= s)%R).
  { clear Hne. induction js as [|j js IH]; [right; intros j []|].
    destruct (H j (or_introl eq_refl)) as [HN|HS]; [left; exists j; split; [left; auto|auto]|].
    destruct IH as [(j' & Hj & K)|K]; [intros j' Hj'; apply H; right; auto|left; exists j'; split; [right; auto|auto]|].
    right. intros j' [<-|Hj']; auto. }
  destruct D as [(j & Hj & cv & E)|D].
  - left. exists (fmean (map (fun j0 => nth 4 (nth j0 rows []) None) js)).
    assert (N : forall k, nth k (nth j rows []) None = None -> fmean (map (fun j0 => nth k (nth j0 rows []) None) js) = None).
    { intros k Hk. unfold fmean.
      assert (EA : all_some (map (fun j0 => nth k (nth j0 rows []) None) js) = None); [|rewrite EA; auto].
      clear - Hj Hk. induction js as [|i js IH]; [destruct Hj|]. cbn [map all_some]. destruct Hj as [->|Hj].
      - rewrite Hk. auto.
      - rewrite IH by auto. destruct (nth k (nth i rows []) None); auto. }
    rewrite (N 0), (N 1), (N 2), (N 3), (N 5) by (rewrite E; reflexivity). reflexivity.
  - right. set (at_ := fun k j => match nth k (nth j rows []) None with Some x => x | None => 0%R end).
    assert (V : forall k, k <> 4 -> k < 6 -> fmean (map (fun j => nth k (nth j rows []) None) js) = Some (mean (map (at_ k) js))).
    { intros k Hk4 Hk6. unfold fmean. rewrite (all_some_of _ js _ (at_ k)); auto.
      intros j Hj. destruct (D j Hj) as (mi & me & md & ma & cv & s & E & _). unfold at_. rewrite E.
      destruct k as [|[|[|[|[|[|]]]]]]; simpl; auto; lia. }
    exists (mean (map (at_ 0) js)), (mean (map (at_ 1) js)), (mean (map (at_ 2) js)), (mean (map (at_ 3) js)),
      (fmean (map (fun j => nth 4 (nth j rows []) None) js)), (mean (map (at_ 5) js)).
    split; [rewrite (V 0), (V 1), (V 2), (V 3), (V 5) by lia; reflexivity|].
    assert (O : forall j, In j js -> (0 <= at_ 0%nat j /\ at_ 0%nat j <= at_ 1%nat j /\ at_ 1%nat j <= at_ 3%nat j /\ at_ 0%nat j <= at_ 2%nat j /\ at_ 2%nat j <= at_ 3%nat j /\ at_ 3%nat j < 1 /\ 0 <= at_ 5%nat j)%R).
    { intros j Hj. destruct (D j Hj) as (mi & me & md & ma & cv & s & E & HO). unfold at_. rewrite E. simpl. auto. }
    split; [apply mean_nonneg; intros x Hx; apply in_map_iff in Hx; destruct Hx as (j & <- & Hj); apply O; auto|].
    do 4 (split; [apply mean_le; auto; intros j Hj; apply O; auto|]).
    split; [apply mean_lt1; auto; intros j Hj; apply O; auto|].
    apply mean_nonneg. intros x Hx. apply in_map_iff in Hx. destruct Hx as (j & <- & Hj). apply O. auto.
Qed.

Lemma members_nonempty : forall g x, In x g -> members g x <> [].
Proof.
  intros g x H E. apply in_nth_error in H. destruct H as [j Hj]. apply (members_spec g x j) in Hj. rewrite E in Hj. auto.
Qed.

(** Every reported row has its figures in order, with and without groups. *)
Lemma pawn_ordered : forall p X Y n out, pawn_input (p_num_vars p) X Y -> pawn_analyze p X Y n = Ok out ->
  Forall ordered_row (pw_rows out).
Proof.
  intros p X Y n out HI E. destruct (Nat.eq_dec n 0) as [->|Hn]; [unfold pawn_analyze in E; simpl in E; discriminate|].
  rewrite analyze_eq in E by (auto; lia).
  assert (HR : forall d, ordered_row (row_of (column_of X d) Y n)).
  { intros d. destruct (row_spec (column_of X d) Y n) as (cells & _ & _ & _ & HO); auto; try lia. rewrite column_of_length. apply HI. }
  set (rows := map (fun d => row_of (column_of X d) Y n) (seq 0 (p_num_vars p))) in *.
  assert (LR : length rows = p_num_vars p) by (unfold rows; rewrite map_length, seq_length; auto).
  assert (HN : forall j, j < p_num_vars p -> ordered_row (nth j rows [])).
  { intros j Hj. unfold rows. rewrite (nth_indep _ [] (row_of (column_of X 0) Y n)) by (rewrite map_length, seq_length; auto).
    rewrite (map_nth (fun d => row_of (column_of X d) Y n)). auto. }
  destruct (check_groups p) as [g|] eqn:Eg.
  - assert (Hg : g <> []).
    { unfold check_groups, truthy_groups in Eg. destruct (p_groups p) as [[|]|]; try discriminate.
      destruct (list_eqb _ _); try discriminate. destruct (set_size _ =? 1); try discriminate. injection Eg as <-. discriminate. }
    destruct (Nat.eq_dec (length g) (length rows)) as [EL|NL].
    + rewrite group_means_ok in E by auto. cbn [bind] in E. injection E as <-. cbn [pw_rows].
      rewrite Forall_forall. intros r Hr. apply in_map_iff in Hr. destruct Hr as (x & <- & Hx). apply some_row.
      * intros j Hj. apply HN. apply members_spec in Hj. rewrite <- LR, <- EL. eapply nth_error_Some_lt; eauto.
      * apply members_nonempty. apply pd_unique_In. auto.
    + rewrite group_means_length in E by auto. discriminate.
  - cbn [bind] in E. injection E as <-. cbn [pw_rows]. rewrite Forall_forall. intros r Hr. unfold rows in Hr.
    apply in_map_iff in Hr. destruct Hr as (d & <- & _). auto.
Qed.

Lemma pawn_grouped : forall p X Y n g, 0 < n -> pawn_input (p_num_vars p) X Y -> check_groups p = Some g ->
  (length g <> p_num_vars p -> pawn_analyze p X Y n = Err IndexError) /\
  (length g = p_num_vars p -> exists out, pawn_analyze p X Y n = Ok out /\
     pw_names out = pd_unique g /\ length (pw_rows out) = length (pw_names out) /\
     forall i x, nth_error (pw_names out) i = Some x -> exists js row,
       (forall j, In j js <-> nth_error g j = Some x) /\ NoDup js /\ nth_error (pw_rows out) i = Some row /\
       forall k, k < 6 -> nth_error row k = Some (fmean (map (fun j => nth k (row_of (column_of X j) Y n) None) js))).
Proof.
  intros p X Y n g Hn HI Hg. rewrite analyze_eq, Hg by auto.
  assert (Hne : truthy_groups p = Some g /\ g <> []).
  { unfold check_groups in Hg. destruct (truthy_groups p) as [h|] eqn:Et; [|discriminate].
    destruct (list_eqb _ _); try discriminate. destruct (set_size _ =? 1); try discriminate. injection Hg as ->. split; auto.
    unfold truthy_groups in Et. destruct (p_groups p) as [[|]|]; try discriminate. injection Et as <-. discriminate. }
  destruct Hne as [Et Hne]. set (rows := map (fun d => row_of (column_of X d) Y n) (seq 0 (p_num_vars p))).
  assert (LR : length rows = p_num_vars p) by (unfold rows; rewrite map_length, seq_length; auto). split.
  - intros H. rewrite group_means_length by (auto; lia). reflexivity.
  - intros H. rewrite group_means_ok by lia. cbn [bind]. eexists. split; [reflexivity|]. cbn [pw_names pw_rows].
    assert (EN : fst (extract_group_names p) = pd_unique g) by (unfold extract_group_names; rewrite Et; reflexivity).
    rewrite EN. split; auto. split; [apply map_length|].
    intros i x Hi. exists (members g x), (map (fun k => fmean (map (fun j => nth k (nth j rows []) None) (members g x))) (seq 0 6)).
    split; [intros j; apply members_spec|]. split; [apply NoDup_filter, seq_NoDup|].
    split; [rewrite nth_error_map', Hi; reflexivity|].
    intros k Hk. rewrite nth_error_map', nth_error_seq. destruct (Nat.ltb_spec k 6); [|lia]. simpl. do 2 f_equal.
    apply map_ext_in. intros j Hj. apply members_spec in Hj. apply nth_error_Some_lt in Hj. unfold rows.
    rewrite (nth_indep _ [] (row_of (column_of X 0) Y n)) by (rewrite map_length, seq_length; lia).
    rewrite (map_nth (fun d => row_of (column_of X d) Y n)). rewrite seq_nth by lia. reflexivity.
Qed.
