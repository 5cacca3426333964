(** * PAWN in double precision: the analysis, with and without groups. *)
From Coq Require Import Reals String List Arith ZArith Bool Lia Lra Psatz Permutation.
From Flocq Require Import Core.
From Verif Require Import Base Arrays ListFacts ModelGroups ProofsGroups ModelScale ProofsScale Stats Sums ModelFast ModelMorris ModelMorrisAnalyze Quant ModelPawn SpecPawn
  ModelDouble ModelDouble4 ModelDouble5 ModelSingle ModelLevels ModelPawn2 SpecPawn2.
From Verif Require Import ProofsMorris7 ProofsPawn ProofsPawn2 ProofsDouble ProofsDouble8 ProofsDouble10 ProofsSingle ProofsSingle2 ProofsPawn5.
Import ListNotations.
Local Open Scope R_scope.

(** ** Both analyses summarise the same slices *)
Definition all_cells (p : problem) (X : list (list fval)) (Y : list R) (S : nat) : result (list (list fval)) :=
  mapM (fun d =>
    do Xi <- mapM (fun r => get r d) X ;;
    do Xq <- nanquantiles Xi (pawn_levels S) ;;
    mapM (pawn_cell_at Xi Xq Y) (seq 0 S)) (seq 0 (p_num_vars p)).

Definition finish_exact (p : problem) (rows : list (list fval)) : result pawn_out :=
  do r <- match check_groups p with Some g => group_means g rows | None => Ok rows end ;; Ok (mkPawn r (fst (extract_group_names p))).
Definition finish_fl (arr2 : nat -> tree) (p : problem) (rows : list (list fval)) : result pawn_out :=
  do r <- match check_groups p with Some g => group_means_fl arr2 g rows | None => Ok rows end ;; Ok (mkPawn r (fst (extract_group_names p))).

Lemma mapM_then : forall A B C (f : A -> result B) (g : B -> C) l, mapM (fun x => do y <- f x ;; Ok (g y)) l = do ys <- mapM f l ;; Ok (map g ys).
Proof.
  intros A B C f g l. induction l as [|x l IH]; [reflexivity|]. cbn [mapM]. destruct (f x); cbn [bind]; [|reflexivity]. rewrite IH.
  destruct (mapM f l); reflexivity.
Qed.

Definition summary_dbl (arr : nat -> tree) (cells : list fval) : list fval := pawn_summary_fl arr (map (option_map fl) cells).

Lemma exact_eq : forall p X Y S, (0 < S)%nat -> pawn_analyze_fl p X Y S = do cs <- all_cells p X Y S ;; finish_exact p (map pawn_summary cs).
Proof.
  intros p X Y S HS. unfold pawn_analyze_fl. destruct (Nat.eqb_spec S 0); [lia|]. unfold all_cells.
  rewrite (mapM_ext _ (fun d => do cells <- (do Xi <- mapM (fun r => get r d) X ;; do Xq <- nanquantiles Xi (pawn_levels S) ;; mapM (pawn_cell_at Xi Xq Y) (seq 0 S)) ;; Ok (pawn_summary cells))).
  - rewrite mapM_then. destruct (mapM _ (seq 0 (p_num_vars p))); reflexivity.
  - intros d _. destruct (mapM (fun r => get r d) X); [|reflexivity]. cbn [bind]. destruct (nanquantiles _ _); [|reflexivity]. cbn [bind]. reflexivity.
Qed.
Lemma dbl_eq : forall arr arr2 p X Y S, (0 < S)%nat -> pawn_dbl arr arr2 p X Y S = do cs <- all_cells p X Y S ;; finish_fl arr2 p (map (summary_dbl arr) cs).
Proof.
  intros arr arr2 p X Y S HS. unfold pawn_dbl. destruct (Nat.eqb_spec S 0); [lia|]. unfold all_cells.
  rewrite (mapM_ext _ (fun d => do cells <- (do Xi <- mapM (fun r => get r d) X ;; do Xq <- nanquantiles Xi (pawn_levels S) ;; mapM (pawn_cell_at Xi Xq Y) (seq 0 S)) ;; Ok (summary_dbl arr cells))).
  - rewrite mapM_then. destruct (mapM _ (seq 0 (p_num_vars p))); reflexivity.
  - intros d _. destruct (mapM (fun r => get r d) X); [|reflexivity]. cbn [bind]. destruct (nanquantiles _ _); [|reflexivity]. cbn [bind]. rewrite cells_dbl.
    destruct (mapM _ (seq 0 S)); reflexivity.
Qed.

Lemma all_cells_ok : forall p X Y S cs, (Z.of_nat (length Y) <= 2 ^ 53)%Z -> all_cells p X Y S = Ok cs ->
  length cs = p_num_vars p /\ forall cells, In cells cs -> good_cells cells /\ length cells = S.
Proof.
  intros p X Y S cs L E. unfold all_cells in E. split; [rewrite (mapM_Ok_length _ _ E), seq_length; auto|].
  intros cells H. apply in_nth_error in H. destruct H as (i & Hi).
  pose proof (mapM_Ok_length _ _ E) as EL. assert (Li : (i < length (seq 0 (p_num_vars p)))%nat) by (rewrite <- EL; eapply nth_error_Some_lt; eauto).
  destruct (nth_error (seq 0 (p_num_vars p)) i) as [d|] eqn:Es; [|apply nth_error_None in Es; lia].
  destruct (mapM_Ok_nth _ _ _ E Es) as (v & Ev & Hv). rewrite Hi in Hv. injection Hv as <-.
  destruct (mapM (fun r => get r d) X) as [Xi|]; [|discriminate]. cbn [bind] in Ev. destruct (nanquantiles _ _) as [Xq|]; [|discriminate]. cbn [bind] in Ev.
  split; [eapply cells_good; eauto|]. rewrite (mapM_Ok_length _ _ Ev), seq_length. auto.
Qed.

(** ** Groups *)
Lemma group_means_fl_ok : forall arr2 g rows, length g = length rows ->
  group_means_fl arr2 g rows = Ok (map (fun x => map (fun k => fmean_fl arr2 (map (fun j => nth k (nth j rows []) None) (members g x))) (seq 0 6)) (pd_unique g)).
Proof.
  intros arr2 g rows H. unfold group_means_fl. rewrite <- mapM_Ok_map. apply mapM_ext. intros x _.
  rewrite (select_rows (fun y => String.eqb y x)) by auto. cbn [bind]. f_equal. apply map_ext. intros k. rewrite map_map. reflexivity.
Qed.
Lemma group_means_fl_length : forall arr2 g rows, length g <> length rows -> g <> [] -> group_means_fl arr2 g rows = Err IndexError.
Proof.
  intros arr2 g rows H Hg. unfold group_means_fl. destruct (pd_unique g) as [|x u] eqn:E.
  - exfalso. destruct g as [|y g]; [congruence|]. assert (K : In y (pd_unique (y :: g))) by (apply pd_unique_In; left; auto). rewrite E in K. auto.
  - cbn [mapM]. unfold select at 1. rewrite map_length. destruct (Nat.eqb_spec (length g) (length rows)); [contradiction|]. reflexivity.
Qed.
Lemma check_groups_ne : forall p g, check_groups p = Some g -> g <> [].
Proof.
  intros p g Eg. unfold check_groups, truthy_groups in Eg. destruct (p_groups p) as [[|]|]; try discriminate.
  destruct (list_eqb _ _); try discriminate. destruct (set_size _ =? 1)%nat; try discriminate. injection Eg as <-. discriminate.
Qed.
Lemma members_short : forall g x, (length (members g x) <= length g)%nat.
Proof.
  intros g x. unfold members. rewrite <- (seq_length (length g) 0) at 2. generalize (seq 0 (length g)) as l. induction l as [|j l IH]; simpl; [lia|].
  destruct (String.eqb _ _); simpl; lia.
Qed.

(** ** Means of doubles *)
Lemma all_some_mem : forall (l : list fval) xs, all_some l = Some xs -> forall x, In x xs -> In (Some x) l.
Proof.
  induction l as [|[y|] l IH]; intros xs E x H; cbn [all_some] in E; try discriminate; [injection E as <-; destruct H|].
  destruct (all_some l) as [ys|]; [|discriminate]. injection E as <-. destruct H as [<-|H]; [left; auto|right; eapply IH; eauto].
Qed.

Lemma tsum_mono : forall t l l', (forall i, nth i l 0 <= nth i l' 0) -> tsum t l <= tsum t l'.
Proof. induction t as [i|a IHa b IHb]; intros l l' H; cbn [tsum]; auto. apply fl_mono. specialize (IHa l l' H). specialize (IHb l l' H). lra. Qed.

Section Means.
Variable arr : nat -> tree.

Lemma mean_fl_le : forall A (f g : A -> R) l, (forall x, In x l -> f x <= g x) -> mean_fl arr (map f l) <= mean_fl arr (map g l).
Proof.
  intros A f g l H. unfold mean_fl, sum_fl. rewrite !map_length. apply fl_mono. unfold Rdiv.
  destruct (Nat.eq_dec (length l) 0) as [Z|NZ]; [rewrite Z; simpl; rewrite Rinv_0; lra|]. apply Rmult_le_compat_r; [apply Rlt_le, Rinv_0_lt_compat, lt_0_INR; lia|].
  apply tsum_mono. clear NZ. induction l as [|x l IH]; intros i; [destruct i; simpl; lra|]. destruct i; cbn [map nth]; [apply H; left; auto|]. apply IH. intros; apply H; right; auto.
Qed.

Lemma mean_fl_one : forall A (l : list A), arrangement arr -> l <> [] -> (Z.of_nat (length l) <= 2 ^ 53)%Z -> mean_fl arr (map (fun _ => 1) l) = 1.
Proof.
  intros A l HA H L. unfold mean_fl. assert (NE : map (fun _ => 1) l <> []) by (intros E; apply map_eq_nil in E; auto).
  rewrite (sums_exact 1 0 _ _ ltac:(lia) (sum_fl_sums arr _ HA NE)).
  - rewrite map_length. simpl bpow. replace (INR (length l) * (IZR 1 * 1) / INR (length l)) with 1; [apply fl_1|]. field. apply not_0_INR. destruct l; [congruence|discriminate].
  - intros x Hx. apply in_map_iff in Hx. destruct Hx as (y & <- & _). simpl. lra.
  - rewrite map_length. lia.
Qed.

Lemma none_mean_fl : forall A (f : A -> fval) l j, In j l -> f j = None -> fmean_fl arr (map f l) = None.
Proof.
  intros A f l j Hj Hk. unfold fmean_fl. assert (EA : all_some (map f l) = None); [|rewrite EA; auto].
  induction l as [|i l IH]; [destruct Hj|]. cbn [map all_some]. destruct Hj as [->|Hj]; [rewrite Hk; auto|]. rewrite IH by auto. destruct (f i); auto.
Qed.
Lemma some_mean_fl : forall A (f : A -> fval) (h : A -> R) l, (forall j, In j l -> f j = Some (h j)) -> fmean_fl arr (map f l) = Some (mean_fl arr (map h l)).
Proof. intros A f h l H. unfold fmean_fl. rewrite (all_some_of _ l f h); auto. Qed.

Lemma group_ordered : forall (rows : list (list fval)) js, arrangement arr -> (Z.of_nat (length js) <= 2 ^ 53)%Z ->
  (forall j, In j js -> ordered_row_fl (nth j rows [])) -> js <> [] ->
  ordered_row_fl (map (fun k => fmean_fl arr (map (fun j => nth k (nth j rows []) None) js)) (seq 0 6)).
Proof.
  intros rows js HA LJ H Hne. cbn [seq map].
  assert (D : (exists j, In j js /\ exists cv, nth j rows [] = [None; None; None; None; cv; None]) \/
              forall j, In j js -> exists mi me md ma cv s, nth j rows [] = [Some mi; Some me; Some md; Some ma; cv; Some s] /\
                 0 <= mi /\ mi <= md /\ md <= ma /\ ma <= 1 /\ 0 <= me /\ 0 <= s /\ forall c, cv = Some c -> 0 <= c).
  { clear Hne LJ. induction js as [|j js IH]; [right; intros j []|].
    destruct (H j (or_introl eq_refl)) as [HN|HS]; [left; exists j; split; [left; auto|auto]|].
    destruct IH as [(j' & Hj & K)|K]; [intros j' Hj'; apply H; right; auto|left; exists j'; split; [right; auto|auto]|].
    right. intros j' [<-|Hj']; auto. }
  destruct D as [(j & Hj & cv & E)|D].
  - left. exists (fmean_fl arr (map (fun j0 => nth 4 (nth j0 rows []) None) js)).
    assert (N : forall k, nth k (nth j rows []) None = None -> fmean_fl arr (map (fun j0 => nth k (nth j0 rows []) None) js) = None).
    { intros k Hk. apply (none_mean_fl _ _ _ j); auto. }
    rewrite (N 0%nat), (N 1%nat), (N 2%nat), (N 3%nat), (N 5%nat) by (rewrite E; reflexivity). reflexivity.
  - right. set (at_ := fun k j => match nth k (nth j rows []) None with Some x => x | None => 0%R end).
    assert (V : forall k, (k <> 4)%nat -> (k < 6)%nat -> fmean_fl arr (map (fun j => nth k (nth j rows []) None) js) = Some (mean_fl arr (map (at_ k) js))).
    { intros k Hk4 Hk6. apply some_mean_fl. intros j Hj. destruct (D j Hj) as (mi & me & md & ma & cv & s & E & _). unfold at_. rewrite E.
      destruct k as [|[|[|[|[|[|]]]]]]; simpl; auto; lia. }
    exists (mean_fl arr (map (at_ 0%nat) js)), (mean_fl arr (map (at_ 1%nat) js)), (mean_fl arr (map (at_ 2%nat) js)), (mean_fl arr (map (at_ 3%nat) js)),
      (fmean_fl arr (map (fun j => nth 4 (nth j rows []) None) js)), (mean_fl arr (map (at_ 5%nat) js)).
    split; [rewrite (V 0%nat), (V 1%nat), (V 2%nat), (V 3%nat), (V 5%nat) by lia; reflexivity|].
    assert (O : forall j, In j js -> 0 <= at_ 0%nat j /\ at_ 0%nat j <= at_ 2%nat j /\ at_ 2%nat j <= at_ 3%nat j /\ at_ 3%nat j <= 1 /\ 0 <= at_ 1%nat j /\ 0 <= at_ 5%nat j /\ forall c, nth 4 (nth j rows []) None = Some c -> 0 <= c).
    { intros j Hj. destruct (D j Hj) as (mi & me & md & ma & cv & s & E & HO). unfold at_. rewrite E. simpl. auto. }
    assert (P : forall k, (forall j, In j js -> 0 <= at_ k j) -> 0 <= mean_fl arr (map (at_ k) js)).
    { intros k Hk. apply mean_pos. intros x Hx. apply in_map_iff in Hx. destruct Hx as (j & <- & Hj). auto. }
    split; [apply P; intros j Hj; apply O; auto|].
    do 2 (split; [apply mean_fl_le; intros j Hj; apply O; auto|]).
    split; [rewrite <- (mean_fl_one _ js HA Hne LJ); apply mean_fl_le; intros j Hj; apply O; auto|].
    do 2 (split; [apply P; intros j Hj; apply O; auto|]).
    intros c Hc. unfold fmean_fl in Hc. destruct (all_some _) as [xs|] eqn:EA; [|discriminate]. cbn [option_map] in Hc. injection Hc as <-. apply mean_pos.
    intros x Hx. apply (all_some_mem _ _ EA) in Hx. apply in_map_iff in Hx. destruct Hx as (j & E & Hj). apply (O j Hj). auto.
Qed.
End Means.

(** ** Order *)
Lemma dbl_ordered : forall arr arr2 p X Y S out, arrangement arr2 -> (Z.of_nat (length Y) <= 2 ^ 53)%Z -> (Z.of_nat (p_num_vars p) <= 2 ^ 53)%Z ->
  pawn_dbl arr arr2 p X Y S = Ok out -> Forall ordered_row_fl (pw_rows out).
Proof.
  intros arr arr2 p X Y S out HA LY LD E. destruct (Nat.eq_dec S 0) as [->|NS]; [discriminate|]. rewrite dbl_eq in E by lia.
  destruct (all_cells p X Y S) as [cs|] eqn:EC; [|discriminate]. cbn [bind] in E. destruct (all_cells_ok _ _ _ _ _ LY EC) as (L & G).
  set (rows := map (summary_dbl arr) cs) in *. assert (LR : length rows = p_num_vars p) by (unfold rows; rewrite map_length; auto).
  assert (O : forall r, In r rows -> ordered_row_fl r).
  { intros r Hr. unfold rows in Hr. apply in_map_iff in Hr. destruct Hr as (cells & <- & Hc). apply summary_ordered. apply G. auto. }
  unfold finish_fl in E. destruct (check_groups p) as [g|] eqn:Eg.
  - pose proof (check_groups_ne p g Eg) as Hg. destruct (Nat.eq_dec (length g) (length rows)) as [EL|NL].
    + rewrite group_means_fl_ok in E by auto. cbn [bind] in E. injection E as <-. cbn [pw_rows].
      rewrite Forall_forall. intros r Hr. apply in_map_iff in Hr. destruct Hr as (x & <- & Hx). apply group_ordered; auto.
      * pose proof (members_short g x). lia.
      * intros j Hj. apply O, nth_In. apply members_spec in Hj. rewrite <- EL. eapply nth_error_Some_lt; eauto.
      * apply members_nonempty. apply pd_unique_In. auto.
    + rewrite group_means_fl_length in E by auto. discriminate.
  - cbn [bind] in E. injection E as <-. cbn [pw_rows]. apply Forall_forall. auto.
Qed.

(** ** Errors *)
Lemma dbl_errors : forall arr arr2 p X Y S e, pawn_analyze_fl p X Y S = Err e <-> pawn_dbl arr arr2 p X Y S = Err e.
Proof.
  intros arr arr2 p X Y S e. destruct (Nat.eq_dec S 0) as [->|NS]; [reflexivity|]. rewrite dbl_eq, exact_eq by lia.
  destruct (all_cells p X Y S) as [cs|]; cbn [bind]; [|split; auto]. unfold finish_exact, finish_fl. destruct (check_groups p) as [g|] eqn:Eg; [|split; discriminate].
  pose proof (check_groups_ne p g Eg) as Hg. destruct (Nat.eq_dec (length g) (length cs)) as [EL|NL].
  - rewrite group_means_ok, group_means_fl_ok by (rewrite map_length; auto). split; discriminate.
  - rewrite group_means_length, group_means_fl_length by (auto; rewrite map_length; auto). split; auto.
Qed.

(** ** Accuracy *)
Lemma dbl_close : forall arr arr2 p X Y S out, arrangement arr -> (Z.of_nat (length Y) <= 2 ^ 53)%Z -> (Z.of_nat S <= 2 ^ 53)%Z -> check_groups p = None ->
  pawn_analyze_fl p X Y S = Ok out -> exists out', pawn_dbl arr arr2 p X Y S = Ok out' /\ pw_names out' = pw_names out /\ Forall2 (close_row S) (pw_rows out) (pw_rows out').
Proof.
  intros arr arr2 p X Y S out HA LY LS Eg E. destruct (Nat.eq_dec S 0) as [->|NS]; [discriminate|]. rewrite dbl_eq by lia. rewrite exact_eq in E by lia.
  destruct (all_cells p X Y S) as [cs|] eqn:EC; [|discriminate]. cbn [bind] in *. destruct (all_cells_ok _ _ _ _ _ LY EC) as (L & G).
  unfold finish_exact, finish_fl in *. rewrite Eg in *. cbn [bind] in *. injection E as <-. eexists. split; [reflexivity|]. split; [reflexivity|]. cbn [pw_rows].
  clear -G HA LS. induction cs as [|c cs IH]; cbn [map]; constructor.
  - destruct (G c (or_introl eq_refl)) as (GC & <-). apply summary_close; auto.
  - apply IH. intros cells H. apply G. right. auto.
Qed.

(** A figure and its computed value. *)
Definition fig (q h : R) (x y : R) : Prop := 0 <= x /\ clear_of h y /\ within q x y.
Definition figs (q h : R) (row row' : list fval) : Prop := length row = 6%nat /\ length row' = 6%nat /\ forall k, (k < 4)%nat ->
  (nth k row None = None /\ nth k row' None = None) \/ exists x y, nth k row None = Some x /\ nth k row' None = Some y /\ fig q h x y.

Lemma fig_weaken : forall q q' h h' x y, 0 <= q' <= q -> 0 <= h' <= h -> fig q h x y -> fig q' h' x y.
Proof.
  intros q q' h h' x y Q H (A & B & C). split; auto. split; [eapply clear_weaken; [|exact B]; tauto|]. apply within_weaken with q; auto. apply (clear_pos h); auto. lra.
Qed.

Lemma median_clear : forall v, v <> [] -> (forall x, In x v -> clear_of h106 x) -> clear_of h200 (median_fl (map fl v)) /\ 0 <= median v.
Proof.
  intros v H C. assert (P : 0 <= median v). { destruct (median_bounds v H) as (M & _). pose proof (clear_pos h106 _ (Rlt_le _ _ h106_pos) (C _ (proj1 (minl_spec v H)))). lra. }
  split; auto. unfold median_fl. cbv zeta. rewrite sortR_map_mono by (intros; apply fl_mono; auto). rewrite map_length, sortR_length.
  assert (L : (0 < length v)%nat) by (destruct v; [congruence|simpl; lia]).
  assert (B : forall k, (k < length v)%nat -> clear_of h106 (nth k (map fl (sortR v)) 0)).
  { intros k Hk. rewrite <- fl_0 at 1. rewrite map_nth. apply within_fl, C, sortR_in, nth_In. rewrite sortR_length; auto. }
  assert (M : (length v / 2 < length v)%nat) by (apply Nat.div_lt; lia).
  pose proof h106_pos as HP. pose proof h200_le as HL.
  destruct (Nat.even (length v)); [|eapply clear_weaken; [exact HL|apply B; auto]].
  assert (S : clear_of h106 (fl (nth (length v / 2 - 1) (map fl (sortR v)) 0 + nth (length v / 2) (map fl (sortR v)) 0))).
  { apply within_fl, clear_plus; [lra|apply B; lia|apply B; lia]. }
  apply (accurate_step fl rd h200 fl_200). destruct S as [Z|Z]; [left; rewrite Z; lra|right].
  assert (h200 <= h106 / 2). { unfold h200, h106. change (bpow radix2 (-106) / 2) with (bpow radix2 (-106) * bpow radix2 (-1)). rewrite <- bpow_plus. apply bpow_le. lia. } lra.
Qed.

Lemma summary_figs : forall arr cells, arrangement arr -> good_cells cells -> cells <> [] -> (Z.of_nat (length cells) <= 2 ^ 53)%Z ->
  figs (rd ^ (length cells + 1)) h200 (pawn_summary cells) (summary_dbl arr cells).
Proof.
  intros arr cells HA G NC L. unfold summary_dbl. destruct (list_eq_dec Req_EM_T (numbers cells) []) as [E|NE].
  - unfold pawn_summary, pawn_summary_fl. rewrite numbers_map, E. split; [auto|]. split; [auto|]. intros k Hk. left.
    destruct k as [|[|[|[|]]]]; try lia; split; reflexivity.
  - rewrite summary_eq, summary_fl_eq by auto. split; [auto|]. split; [auto|]. intros k Hk. right.
    assert (LC : (1 <= length cells)%nat) by (destruct cells; [congruence|simpl; lia]).
    assert (V : forall x, In x (numbers cells) -> 0 <= x <= 1 /\ clear_of h106 x) by (intros x Hx; apply G, numbers_in; auto).
    pose proof rd_01 as R1. pose proof h200_pos as H2. pose proof h200_le as HL.
    assert (W : forall e x y, (e <= length cells + 1)%nat -> fig (rd ^ e) h200 x y -> fig (rd ^ (length cells + 1)) h200 x y).
    { intros e x y He. apply fig_weaken; [|lra]. split; [apply pow_01; auto|apply pow_le1; auto]. }
    assert (F1 : forall x, In x (numbers cells) -> fig (rd ^ 1) h200 x (fl x)).
    { intros x Hx. destruct (V x Hx) as (V1 & V2). destruct (within_fl x V2) as (W1 & W2). split; [tauto|]. split; [eapply clear_weaken; eauto|]. rewrite pow_1. auto. }
    destruct k as [|[|[|[|]]]]; try lia; cbn [nth]; do 2 eexists; (split; [reflexivity|]); (split; [reflexivity|]).
    + apply (W 1%nat); [lia|]. apply F1, minl_spec, NE.
    + destruct (nanmean_within arr HA cells G NE L) as (M1 & M2). split; [apply mean_nonneg; intros x Hx; apply V; auto|]. auto.
    + apply (W 2%nat); [lia|]. assert (C : forall x, In x (numbers cells) -> clear_of h106 x) by (intros; apply V; auto).
      destruct (median_clear _ NE C). split; auto. split; auto. apply median_within; auto.
    + apply (W 1%nat); [lia|]. apply F1, maxl_spec, NE.
Qed.

Definition h300 : R := bpow radix2 (-300).
Lemma fl_300 : accurate fl rd h300.
Proof. apply fl_accurate; [apply double_bpow; lia|apply bpow_le; lia]. Qed.

Lemma mean_fig : forall arr A (f g : A -> R) l q, arrangement arr -> 0 <= q -> l <> [] -> (Z.of_nat (length l) <= 2 ^ 53)%Z ->
  (forall j, In j l -> fig q h200 (f j) (g j)) -> within (q * rd ^ length l) (mean (map f l)) (mean_fl arr (map g l)).
Proof.
  intros arr A f g l q HA Q NE L F. unfold mean_fl, sum_fl. rewrite <- tsum_by_fl. rewrite map_length.
  pose proof rd_01 as R1. pose proof h200_pos as HP. pose proof (INR_length_pos A l NE) as PN.
  destruct (sum_accurate fl rd h200 R1 (Rlt_le _ _ HP) fl_200 q arr (map f l) (map g l)) as (S1 & S2 & S3); auto.
  { clear -F. induction l as [|j l IH]; cbn [map]; constructor; [apply F; left; auto|apply IH; intros; apply F; right; auto]. }
  unfold sum_by in S2, S3. rewrite (map_length f), (map_length g) in S3. rewrite (map_length g) in S2. set (s := tsum_by fl _ _) in *.
  unfold mean. rewrite map_length.
  assert (LL : (0 < length l)%nat) by (destruct l; [congruence|simpl; lia]).
  assert (C : clear_of h300 (s / INR (length l))).
  { destruct S2 as [Z|Z]; [left; rewrite Z; lra|right]. pose proof (INR_53 _ L) as U.
    apply Rle_trans with (h200 / big53).
    - unfold h200, big53, Rdiv, h300. rewrite <- bpow_opp, <- bpow_plus. apply bpow_le. lia.
    - unfold Rdiv. apply Rmult_le_compat; auto; try lra; [apply Rlt_le, Rinv_0_lt_compat, bpow_gt_0|apply Rinv_le_contravar; auto]. }
  replace (q * rd ^ length l) with (q * rd ^ (length l - 1) * rd).
  2:{ replace (length l) with (S (length l - 1)) at 2 by lia. cbn [pow]. ring. }
  apply (accurate_chain fl rd h300 R1 fl_300); auto; [apply Rmult_le_pos; auto; apply pow_01; auto|].
  destruct S3 as (S3 & S4). unfold Rdiv. pose proof (Rinv_0_lt_compat _ PN) as PI. split; rewrite <- Rmult_assoc; apply Rmult_le_compat_r; lra.
Qed.

Lemma group_figs : forall arr q (rows rows' : list (list fval)) js e, arrangement arr -> (Z.of_nat (length js) <= 2 ^ 53)%Z -> 0 <= q -> js <> [] ->
  (length js <= e)%nat -> (forall j, In j js -> figs q h200 (nth j rows []) (nth j rows' [])) -> forall k, (k < 4)%nat ->
  let v := fmean (map (fun j => nth k (nth j rows []) None) js) in let v' := fmean_fl arr (map (fun j => nth k (nth j rows' []) None) js) in
  (v = None /\ v' = None) \/ exists x y, v = Some x /\ v' = Some y /\ within (q * rd ^ e) x y.
Proof.
  intros arr q rows rows' js e HA LJ Q NE LE F k Hk v v'. unfold v, v'; clear v v'.
  assert (D : (exists j, In j js /\ nth k (nth j rows []) None = None /\ nth k (nth j rows' []) None = None) \/
              forall j, In j js -> exists x y, nth k (nth j rows []) None = Some x /\ nth k (nth j rows' []) None = Some y /\ fig q h200 x y).
  { clear NE LJ LE. induction js as [|j js IH]; [right; intros j []|].
    destruct (F j (or_introl eq_refl)) as (_ & _ & FK). destruct (FK k Hk) as [HN|HS]; [left; exists j; split; [left; auto|auto]|].
    destruct IH as [(j' & Hj & K)|K]; [intros j' Hj'; apply F; right; auto|left; exists j'; split; [right; auto|auto]|].
    right. intros j' [<-|Hj']; auto. }
  destruct D as [(j & Hj & N1 & N2)|D].
  - left. split; [|apply (none_mean_fl arr _ _ _ j); auto].
    unfold fmean. assert (EA : all_some (map (fun j0 => nth k (nth j0 rows []) None) js) = None); [|rewrite EA; auto].
    clear -Hj N1. induction js as [|i js IH]; [destruct Hj|]. cbn [map all_some]. destruct Hj as [->|Hj]; [rewrite N1; auto|]. rewrite IH by auto. destruct (nth k (nth i rows []) None); auto.
  - right. set (at_ := fun j => match nth k (nth j rows []) None with Some x => x | None => 0 end). set (at' := fun j => match nth k (nth j rows' []) None with Some x => x | None => 0 end).
    exists (mean (map at_ js)), (mean_fl arr (map at' js)).
    split. { unfold fmean. rewrite (all_some_of _ js _ at_); auto. intros j Hj. destruct (D j Hj) as (x & y & E & _). unfold at_. rewrite E. auto. }
    split. { apply some_mean_fl. intros j Hj. destruct (D j Hj) as (x & y & _ & E & _). unfold at'. rewrite E. auto. }
    assert (FF : forall j, In j js -> fig q h200 (at_ j) (at' j)). { intros j Hj. destruct (D j Hj) as (x & y & E & E' & K). unfold at_, at'. rewrite E, E'. auto. }
    assert (W : within (q * rd ^ length js) (mean (map at_ js)) (mean_fl arr (map at' js))) by (apply mean_fig; auto).
    pose proof rd_01 as R1. apply within_weaken with (q * rd ^ length js); auto.
    + split; [apply Rmult_le_pos; auto; apply pow_01; auto|]. apply Rmult_le_compat_l; auto. apply pow_le1; auto.
    + apply mean_nonneg. intros x Hx. apply in_map_iff in Hx. destruct Hx as (j & <- & Hj). apply FF; auto.
    + apply mean_pos. intros x Hx. apply in_map_iff in Hx. destruct Hx as (j & <- & Hj). apply (clear_pos h200); [apply Rlt_le, h200_pos|apply FF; auto].
Qed.

Lemma dbl_near : forall arr arr2 p X Y S out, arrangement arr -> arrangement arr2 -> (Z.of_nat (length Y) <= 2 ^ 53)%Z -> (Z.of_nat S <= 2 ^ 53)%Z -> (Z.of_nat (p_num_vars p) <= 2 ^ 53)%Z ->
  pawn_analyze_fl p X Y S = Ok out ->
  exists out', pawn_dbl arr arr2 p X Y S = Ok out' /\ pw_names out' = pw_names out /\ Forall2 (near_row (S + p_num_vars p + 1)) (pw_rows out) (pw_rows out').
Proof.
  intros arr arr2 p X Y S out HA HA2 LY LS LD E. destruct (Nat.eq_dec S 0) as [->|NS]; [discriminate|]. rewrite dbl_eq by lia. rewrite exact_eq in E by lia.
  destruct (all_cells p X Y S) as [cs|] eqn:EC; [|discriminate]. cbn [bind] in *. destruct (all_cells_ok _ _ _ _ _ LY EC) as (L & G).
  assert (F : forall c, In c cs -> figs (rd ^ (S + 1)) h200 (pawn_summary c) (summary_dbl arr c)).
  { intros c Hc. destruct (G c Hc) as (GC & EL). rewrite <- EL. apply summary_figs; auto; [intros ->; simpl in EL; lia|lia]. }
  unfold finish_exact, finish_fl in *. destruct (check_groups p) as [g|] eqn:Eg.
  - pose proof (check_groups_ne p g Eg) as Hg. destruct (Nat.eq_dec (length g) (length cs)) as [EL|NL]; [|rewrite group_means_length in E by (auto; rewrite map_length; auto); discriminate].
    rewrite group_means_ok in E by (rewrite map_length; auto). rewrite group_means_fl_ok by (rewrite map_length; auto). cbn [bind] in *. injection E as <-.
    eexists. split; [reflexivity|]. split; [reflexivity|]. cbn [pw_rows].
    assert (U : forall x, In x (pd_unique g) -> In x g) by (intros; apply pd_unique_In; auto). revert U. generalize (pd_unique g) as u. induction u as [|x u IH]; intros U; cbn [map]; constructor.
    + split; [reflexivity|]. split; [reflexivity|]. intros k Hk. pose proof (members_short g x) as MS.
      destruct (group_figs arr2 (rd ^ (S + 1)) (map pawn_summary cs) (map (summary_dbl arr) cs) (members g x) (p_num_vars p)) with (k := k) as [(N1 & N2)|(a & b & E1 & E2 & W)]; auto.
      * lia.
      * apply pow_01, rd_01.
      * apply members_nonempty, U. left. auto.
      * lia.
      * intros j Hj. apply members_spec in Hj. apply nth_error_Some_lt in Hj.
        rewrite (nth_indep (map pawn_summary cs) [] (pawn_summary [])), (nth_indep (map (summary_dbl arr) cs) [] (summary_dbl arr [])) by (rewrite map_length; lia).
        rewrite !map_nth. apply F, nth_In. lia.
      * left. destruct k as [|[|[|[|]]]]; try lia; split; auto.
      * right. exists a, b. assert (EP : rd ^ (S + 1) * rd ^ p_num_vars p = rd ^ (S + p_num_vars p + 1)) by (rewrite <- pow_add; f_equal; lia). rewrite EP in W.
        destruct k as [|[|[|[|]]]]; try lia; (split; [exact E1|split; [exact E2|exact W]]).
    + apply IH. intros y Hy. apply U. right. auto.
  - cbn [bind] in *. injection E as <-. eexists. split; [reflexivity|]. split; [reflexivity|]. cbn [pw_rows]. clear -F.
    induction cs as [|c cs IH]; cbn [map]; constructor; [|apply IH; intros; apply F; right; auto].
    destruct (F c (or_introl eq_refl)) as (L1 & L2 & K). split; auto. split; auto. intros k Hk. destruct (K k Hk) as [N|(x & y & E1 & E2 & FG)]; [left; auto|right].
    pose proof rd_01 as R1. exists x, y. split; [auto|]. split; [auto|]. destruct (fig_weaken (rd ^ (S + 1)) (rd ^ (S + p_num_vars p + 1)) h200 h200 x y ltac:(split; [apply pow_01; auto|apply pow_le1; auto; lia]) ltac:(pose proof h200_pos; lra) FG) as (_ & _ & W).
    exact W.
Qed.
