(** * PAWN in double precision: the figures of one parameter. *)
From Coq Require Import Reals String List Arith ZArith Bool Lia Lra Psatz Permutation.
From Flocq Require Import Core.
From Verif Require Import Base Arrays ListFacts ModelGroups ModelScale ProofsScale Stats Sums ModelFast ModelMorris ModelMorrisAnalyze Quant ModelPawn SpecPawn
  ModelDouble ModelDouble4 ModelDouble5 ModelSingle ModelLevels ModelPawn2 SpecPawn2.
From Verif Require Import ProofsPawn ProofsPawn2 ProofsDouble ProofsDouble8 ProofsDouble10 ProofsSingle ProofsSingle2.
Import ListNotations.
Local Open Scope R_scope.

Definition h106 : R := bpow radix2 (-106).
Definition h200 : R := bpow radix2 (-200).
Lemma h106_pos : 0 < h106. Proof. apply bpow_gt_0. Qed.
Lemma h200_pos : 0 < h200. Proof. apply bpow_gt_0. Qed.
Lemma h200_le : h200 <= h106. Proof. apply bpow_le. lia. Qed.
Lemma fl_106 : accurate fl rd h106.
Proof. apply fl_accurate; [apply double_bpow; lia|apply bpow_le; lia]. Qed.
Lemma fl_200 : accurate fl rd h200.
Proof. apply fl_accurate; [apply double_bpow; lia|apply bpow_le; lia]. Qed.

(** ** The distances *)
Definition big53 : R := bpow radix2 53.
Lemma INR_53 : forall n, (Z.of_nat n <= 2 ^ 53)%Z -> INR n <= big53.
Proof. intros n H. rewrite INR_IZR_INZ. change big53 with (IZR (2 ^ 53)). apply IZR_le. exact H. Qed.

Lemma ks_clear : forall a b, a <> [] -> b <> [] -> (Z.of_nat (length a) <= 2 ^ 53)%Z -> (Z.of_nat (length b) <= 2 ^ 53)%Z ->
  0 <= ks_2samp a b <= 1 /\ clear_of h106 (ks_2samp a b).
Proof.
  intros a b Ha Hb La Lb. destruct (ks_spec a b Ha Hb) as [_ (t & _ & E)]. rewrite <- E.
  rewrite <- !count_le_ecdf. pose proof (INR_length_pos R a Ha) as Pa. pose proof (INR_length_pos R b Hb) as Pb.
  assert (Ca : INR (count_le a t) <= INR (length a)). { apply le_INR. unfold count_le. clear. induction a; simpl; [lia|]. destruct (Rle_dec a t); simpl; lia. }
  assert (Cb : INR (count_le b t) <= INR (length b)). { apply le_INR. unfold count_le. clear. induction b; simpl; [lia|]. destruct (Rle_dec a t); simpl; lia. }
  pose proof (pos_INR (count_le a t)) as Na. pose proof (pos_INR (count_le b t)) as Nb.
  assert (Ua : 0 <= INR (count_le a t) / INR (length a) <= 1).
  { split; [apply Rmult_le_pos; auto; apply Rlt_le, Rinv_0_lt_compat; auto|]. apply Rmult_le_reg_r with (INR (length a)); auto. unfold Rdiv. rewrite Rmult_assoc, Rinv_l by lra. lra. }
  assert (Ub : 0 <= INR (count_le b t) / INR (length b) <= 1).
  { split; [apply Rmult_le_pos; auto; apply Rlt_le, Rinv_0_lt_compat; auto|]. apply Rmult_le_reg_r with (INR (length b)); auto. unfold Rdiv. rewrite Rmult_assoc, Rinv_l by lra. lra. }
  split; [split; [apply Rabs_pos|apply Rabs_le; lra]|].
  set (z := (Z.of_nat (count_le a t) * Z.of_nat (length b) - Z.of_nat (count_le b t) * Z.of_nat (length a))%Z).
  assert (EZ : INR (count_le a t) / INR (length a) - INR (count_le b t) / INR (length b) = IZR z / (INR (length a) * INR (length b))).
  { unfold z. rewrite minus_IZR, !mult_IZR, <- !INR_IZR_INZ. field. lra. }
  rewrite EZ. destruct (Z.eq_dec z 0) as [->|NZ].
  - left. unfold Rdiv. rewrite Rmult_0_l, Rabs_R0. auto.
  - right. pose proof (Rmult_lt_0_compat _ _ Pa Pb) as Pab. unfold Rdiv. rewrite Rabs_mult, (Rabs_pos_eq (/ _)) by (apply Rlt_le, Rinv_0_lt_compat; auto).
    rewrite <- abs_IZR. assert (1 <= IZR (Z.abs z)) by (apply IZR_le; lia).
    assert (M : INR (length a) * INR (length b) <= bpow radix2 106).
    { change 106%Z with (53 + 53)%Z. rewrite bpow_plus. apply Rmult_le_compat; try lra; apply INR_53; auto. }
    unfold h106. change (-106)%Z with (- (106))%Z. rewrite bpow_opp. apply Rle_trans with (1 * / (INR (length a) * INR (length b))).
    + rewrite Rmult_1_l. apply Rinv_le_contravar; auto.
    + apply Rmult_le_compat_r; auto. apply Rlt_le, Rinv_0_lt_compat; auto.
Qed.

(** ** Numbers of a row *)
Definition good_cells (cells : list fval) : Prop := forall d, In (Some d) cells -> 0 <= d <= 1 /\ clear_of h106 d.

Lemma cells_good : forall Xi Xq Y l cells, (Z.of_nat (length Y) <= 2 ^ 53)%Z -> mapM (pawn_cell_at Xi Xq Y) l = Ok cells -> good_cells cells.
Proof.
  intros Xi Xq Y l cells L E d H. apply in_nth_error in H. destruct H as (i & Hi).
  pose proof (mapM_Ok_length _ _ E) as EL. assert (Li : (i < length l)%nat) by (rewrite <- EL; eapply nth_error_Some_lt; eauto).
  destruct (nth_error l i) as [s|] eqn:Es; [|apply nth_error_None in Es; lia].
  destruct (mapM_Ok_nth _ _ _ E Es) as (v & Ev & Hv). rewrite Hi in Hv. injection Hv as <-.
  unfold pawn_cell_at in Ev. destruct (get Xq s) as [lo|]; [|discriminate]. destruct (get Xq (s + 1)) as [hi|]; [|discriminate]. cbn [bind] in Ev.
  unfold select in Ev. destruct (_ =? _)%nat; [|discriminate]. cbn [bind] in Ev. set (m := map _ Xi) in Ev. clearbody m.
  assert (Lsel : (length (map snd (filter fst (combine m Y))) <= length Y)%nat).
  { rewrite map_length. clear. revert Y. induction m as [|b m IH]; intros [|y Y]; simpl; try lia. specialize (IH Y). destruct b; simpl; lia. }
  destruct (map snd (filter fst (combine m Y))) as [|y sel] eqn:Esel; [discriminate|]. injection Ev as <-. apply ks_clear; try discriminate; auto; try lia.
  intros ->. destruct m; simpl in Esel; discriminate.
Qed.

Lemma cells_dbl : forall Xi Xq Y l, mapM (pawn_cell_dbl Xi Xq Y) l = do cells <- mapM (pawn_cell_at Xi Xq Y) l ;; Ok (map (option_map fl) cells).
Proof.
  intros Xi Xq Y l. unfold pawn_cell_dbl. induction l as [|s l IH]; [reflexivity|]. cbn [mapM]. destruct (pawn_cell_at Xi Xq Y s) as [v|]; cbn [bind]; [|reflexivity].
  rewrite IH. destruct (mapM (pawn_cell_at Xi Xq Y) l); reflexivity.
Qed.

Lemma numbers_map : forall f cells, numbers (map (option_map f) cells) = map f (numbers cells).
Proof. unfold numbers. induction cells as [|[x|] l IH]; cbn [map flat_map option_map app]; rewrite ?IH; reflexivity. Qed.
Lemma numbers_in : forall cells d, In d (numbers cells) <-> In (Some d) cells.
Proof.
  unfold numbers. intros cells d. rewrite in_flat_map. split.
  - intros ([x|] & H & K); [destruct K as [<-|[]]; auto|destruct K].
  - intros H. exists (Some d). split; auto. left. auto.
Qed.
Lemma numbers_length : forall cells, (length (numbers cells) <= length cells)%nat.
Proof. unfold numbers. induction cells as [|[x|] l IH]; cbn [flat_map app length]; lia. Qed.
Lemma zero_sum : forall cells, Rsum (nan_to_zero cells) = Rsum (numbers cells).
Proof. unfold nan_to_zero, numbers, Rsum. induction cells as [|[x|] l IH]; cbn [map flat_map app fold_right]; rewrite ?IH; lra. Qed.
Lemma tsum_by_fl : forall t l, tsum_by fl t l = tsum t l.
Proof. induction t; intros l; cbn [tsum_by tsum]; auto. rewrite IHt1, IHt2. auto. Qed.

Lemma minl_mono : forall l, l <> [] -> minl (map fl l) = fl (minl l).
Proof.
  intros l H. destruct (minl_spec l H) as [I L]. assert (H' : map fl l <> []) by (intros E; apply map_eq_nil in E; auto).
  destruct (minl_spec _ H') as [I' L']. apply Rle_antisym; [apply L', in_map, I|]. apply in_map_iff in I'. destruct I' as (x & <- & Hx). apply fl_mono, L, Hx.
Qed.
Lemma maxl_mono : forall l, l <> [] -> maxl (map fl l) = fl (maxl l).
Proof.
  intros l H. destruct (maxl_spec l H) as [I L]. assert (H' : map fl l <> []) by (intros E; apply map_eq_nil in E; auto).
  destruct (maxl_spec _ H') as [I' L']. apply Rle_antisym; [|apply L', in_map, I]. apply in_map_iff in I'. destruct I' as (x & <- & Hx). apply fl_mono, L, Hx.
Qed.

Lemma fl_1 : fl 1 = 1.
Proof. apply fl_double. change 1 with (bpow radix2 0). apply double_bpow. lia. Qed.

(** The median is within the values. *)
Lemma fl_twice : forall x, double x -> double (2 * x).
Proof.
  intros x D. unfold double in *. rewrite Rmult_comm. change 2 with (bpow radix2 1). apply FLT_format_generic in D; auto with typeclass_instances.
  destruct D as [[m e] E M X]. apply generic_format_FLT. exists (Float radix2 m (e + 1)); cbn [Fnum Fexp] in *; auto; [|lia].
  rewrite E. unfold F2R. cbn [Fnum Fexp]. rewrite bpow_plus. ring.
Qed.

Lemma median_fl_bounds : forall v, v <> [] -> (forall x, In x v -> double x /\ 0 <= x) -> minl v <= median_fl v <= maxl v.
Proof.
  intros v H D. unfold median_fl. cbv zeta. rewrite sortR_length. assert (L : (0 < length v)%nat) by (destruct v; [congruence|simpl; lia]).
  assert (B : forall k, (k < length v)%nat -> minl v <= nth k (sortR v) 0 <= maxl v /\ double (nth k (sortR v) 0)).
  { intros k Hk. assert (I : In (nth k (sortR v) 0) v) by (apply sortR_in, nth_In; rewrite sortR_length; auto).
    split; [split; [apply (proj2 (minl_spec v H))|apply (proj2 (maxl_spec v H))]; auto|apply D; auto]. }
  assert (M : (length v / 2 < length v)%nat) by (apply Nat.div_lt; lia).
  destruct (Nat.even (length v)); [|apply B; auto].
  destruct (B (length v / 2 - 1)%nat ltac:(lia)) as (B1 & D1). destruct (B (length v / 2)%nat ltac:(lia)) as (B2 & D2).
  pose proof (D _ (proj1 (minl_spec v H))) as (Dm & Pm). pose proof (D _ (proj1 (maxl_spec v H))) as (DM & PM).
  split; [apply fl_ge|apply fl_le]; auto.
  - assert (2 * minl v <= fl (nth (length v / 2 - 1) (sortR v) 0 + nth (length v / 2) (sortR v) 0)); [apply fl_ge; [apply fl_twice; auto|lra]|lra].
  - assert (fl (nth (length v / 2 - 1) (sortR v) 0 + nth (length v / 2) (sortR v) 0) <= 2 * maxl v); [apply fl_le; [apply fl_twice; auto|lra]|lra].
Qed.

Lemma within_fl : forall x, clear_of h106 x -> within rd x (fl x) /\ clear_of h106 (fl x).
Proof. intros x C. destruct (accurate_step fl rd h106 fl_106 x C). auto. Qed.

Lemma fl_zero_iff : forall x, clear_of h106 x -> fl x = 0 -> x = 0.
Proof.
  intros x [E|B] F; auto. pose proof (proj1 (proj2 fl_106 x B)). pose proof h106_pos. lra.
Qed.

(** The median has two roundings. *)
Lemma half_within : forall r x y, within r x y -> within r (x / 2) (y / 2).
Proof. intros r x y [A B]. split; lra. Qed.

Lemma half_double : forall x, double x -> h106 <= x -> double (x / 2).
Proof.
  intros x D B. replace (x / 2) with (x * bpow radix2 (-1)) by (change (bpow radix2 (-1)) with (/ 2); lra).
  assert (NX : x <> 0) by (pose proof h106_pos; lra).
  apply generic_format_FLT. apply generic_format_FLX_FLT in D. apply FLX_format_generic in D; auto with typeclass_instances.
  destruct D as [[m e] E M]. cbn [Fnum Fexp] in *. 
  destruct (Z_le_gt_dec (-1073) e) as [G|G].
  - exists (Float radix2 m (e - 1)); cbn [Fnum Fexp]; auto; [|lia]. rewrite E. unfold F2R. cbn [Fnum Fexp].
    rewrite Rmult_assoc, <- bpow_plus. f_equal.
  - exfalso. assert (U : x < bpow radix2 (53 + e)).
    { rewrite E. unfold F2R. cbn [Fnum Fexp]. rewrite bpow_plus. apply Rmult_lt_compat_r; [apply bpow_gt_0|].
      apply Rle_lt_trans with (IZR (Z.abs m)); [apply IZR_le; lia|]. change (bpow radix2 53) with (IZR (2 ^ 53)). apply IZR_lt. exact M. }
    assert (bpow radix2 (53 + e) <= h106) by (apply bpow_le; lia). lra.
Qed.

Lemma median_within : forall v, v <> [] -> (forall x, In x v -> clear_of h106 x) -> within (rd ^ 2) (median v) (median_fl (map fl v)).
Proof.
  intros v H C. unfold median, median_fl. cbv zeta. rewrite sortR_map_mono by (intros; apply fl_mono; auto). rewrite map_length, sortR_length.
  assert (L : (0 < length v)%nat) by (destruct v; [congruence|simpl; lia]).
  assert (B : forall k, (k < length v)%nat -> clear_of h106 (nth k (sortR v) 0) /\ nth k (map fl (sortR v)) 0 = fl (nth k (sortR v) 0)).
  { intros k Hk. split; [apply C, sortR_in, nth_In; rewrite sortR_length; auto|]. rewrite <- fl_0 at 1. apply map_nth. }
  assert (M : (length v / 2 < length v)%nat) by (apply Nat.div_lt; lia).
  destruct (B (length v / 2)%nat ltac:(lia)) as (C2 & E2). rewrite E2. pose proof h106_pos as HP. pose proof rd_01 as R1.
  destruct (within_fl _ C2) as (W2 & F2). cbn [pow]. rewrite Rmult_1_r.
  destruct (Nat.even (length v)).
  - destruct (B (length v / 2 - 1)%nat ltac:(lia)) as (C1 & E1). rewrite E1. destruct (within_fl _ C1) as (W1 & F1).
    set (a := nth (length v / 2 - 1) (sortR v) 0) in *. set (b := nth (length v / 2) (sortR v) 0) in *.
    assert (S : clear_of h106 (fl a + fl b)) by (apply clear_plus; auto; lra).
    destruct (within_fl _ S) as (WS & FS). assert (D : fl (fl (fl a + fl b) / 2) = fl (fl a + fl b) / 2).
    { apply fl_double. destruct FS as [Z|Z]; [rewrite Z; replace (0 / 2) with 0 by lra; apply double_0|apply half_double; auto; apply double_fl]. }
    rewrite D. apply half_within. eapply within_trans; [tauto|tauto| |exact WS]. apply within_plus; auto.
  - apply within_weaken with rd; auto; [split; nra|apply (clear_pos h106); auto; lra|apply (clear_pos h106); auto; lra].
Qed.

Section Mean.
Variable arr : nat -> tree.
Hypothesis A : arrangement arr.

Lemma nanmean_within : forall cells, good_cells cells -> numbers cells <> [] -> (Z.of_nat (length cells) <= 2 ^ 53)%Z ->
  within (rd ^ (length cells + 1)) (mean (numbers cells)) (nanmean_fl arr (map (option_map fl) cells)) /\
  clear_of h200 (nanmean_fl arr (map (option_map fl) cells)).
Proof using A.
  intros cells G NE L. unfold nanmean_fl, sum_fl. rewrite numbers_map, map_length, <- tsum_by_fl.
  pose proof rd_01 as R1. pose proof h106_pos as HP. pose proof (INR_length_pos R (numbers cells) NE) as PN.
  destruct (sum_accurate fl rd h106 R1 (Rlt_le _ _ HP) fl_106 rd arr (nan_to_zero cells) (nan_to_zero (map (option_map fl) cells))) as (S1 & S2 & S3); auto; [tauto| |].
  { unfold nan_to_zero. rewrite map_map. clear -G HP. induction cells as [|[x|] l IH]; cbn [map option_map]; constructor; auto.
    - destruct (G x (or_introl eq_refl)) as ((X & _) & C). destruct (within_fl x C). auto.
    - apply IH. intros d Hd. apply G. right. auto.
    - split; [lra|]. split; [left; auto|split; lra].
    - apply IH. intros d Hd. apply G. right. auto. }
  unfold sum_by in S2, S3. set (s := tsum_by fl _ _) in *. unfold mean. rewrite <- zero_sum.
  assert (LC : (0 < length cells)%nat). { pose proof (numbers_length cells). destruct (numbers cells); [congruence|simpl in *; lia]. }
  assert (EL : length (nan_to_zero cells) = length cells) by apply map_length. rewrite EL in S3.
  assert (C : clear_of h200 (s / INR (length (numbers cells)))).
  { destruct S2 as [Z|Z]; [left; rewrite Z; lra|right]. assert (U : INR (length (numbers cells)) <= big53) by (apply INR_53; pose proof (numbers_length cells); lia).
    apply Rle_trans with (h106 / big53).
    - unfold h106, big53, Rdiv, h200. rewrite <- bpow_opp, <- bpow_plus. apply bpow_le. lia.
    - unfold Rdiv. apply Rmult_le_compat; auto; try lra; [apply Rlt_le, Rinv_0_lt_compat, bpow_gt_0|apply Rinv_le_contravar; auto]. }
  pose proof h200_pos as HP2. split; [|apply (accurate_step fl rd h200 fl_200); auto].
  replace (rd ^ (length cells + 1)) with (rd * rd ^ (length cells - 1) * rd).
  2:{ replace (length cells + 1)%nat with (S (S (length cells - 1))) by lia. cbn [pow]. ring. }
  apply (accurate_chain fl rd h200 R1 fl_200); auto; [apply mult_01; auto; apply pow_01; auto|].
  destruct S3 as (S3 & S4). unfold Rdiv. pose proof (Rinv_0_lt_compat _ PN) as PI. split; rewrite <- Rmult_assoc; apply Rmult_le_compat_r; lra.
Qed.

Lemma nanstd_pos : forall cells, 0 <= nanstd_fl arr cells.
Proof. intros. apply fl_pos, sqrt_pos. Qed.
Lemma nanmean_pos : forall cells, (forall d, In (Some d) cells -> 0 <= d) -> 0 <= nanmean_fl arr cells.
Proof.
  intros cells H. apply div_pos. apply tsum_pos. intros x Hx. unfold nan_to_zero in Hx. apply in_map_iff in Hx. destruct Hx as ([y|] & <- & Hy); auto. lra.
Qed.

Lemma summary_fl_eq : forall cells, numbers cells <> [] -> pawn_summary_fl arr (map (option_map fl) cells) =
  [Some (fl (minl (numbers cells))); Some (nanmean_fl arr (map (option_map fl) cells)); Some (median_fl (map fl (numbers cells))); Some (fl (maxl (numbers cells)));
   fdiv_fl (nanstd_fl arr (map (option_map fl) cells)) (nanmean_fl arr (map (option_map fl) cells)); Some (nanstd_fl arr (map (option_map fl) cells))].
Proof.
  intros cells H. unfold pawn_summary_fl. rewrite numbers_map. rewrite <- (minl_mono _ H), <- (maxl_mono _ H).
  destruct (map fl (numbers cells)) eqn:E; [apply map_eq_nil in E; contradiction|reflexivity].
Qed.
Lemma summary_eq : forall cells, numbers cells <> [] -> pawn_summary cells =
  [Some (minl (numbers cells)); Some (mean (numbers cells)); Some (median (numbers cells)); Some (maxl (numbers cells));
   fdiv (sd (numbers cells)) (mean (numbers cells)); Some (sd (numbers cells))].
Proof. intros cells H. unfold pawn_summary. destruct (numbers cells) eqn:E; [congruence|reflexivity]. Qed.

Lemma summary_close : forall cells, good_cells cells -> (Z.of_nat (length cells) <= 2 ^ 53)%Z ->
  close_row (length cells) (pawn_summary cells) (pawn_summary_fl arr (map (option_map fl) cells)).
Proof using A.
  intros cells G L. destruct (list_eq_dec Req_EM_T (numbers cells) []) as [E|NE].
  - left. unfold pawn_summary, pawn_summary_fl. rewrite numbers_map, E. auto.
  - right. rewrite summary_eq, summary_fl_eq by auto. do 10 eexists. split; [reflexivity|]. split; [reflexivity|].
    destruct (nanmean_within cells G NE L) as (W & C). split; [exact W|].
    split. { apply median_within; auto. intros x Hx. apply G, numbers_in, Hx. }
    unfold fdiv_fl. destruct (maxl_spec _ NE) as [I U].
    assert (V : forall x, In x (numbers cells) -> 0 <= x <= 1 /\ clear_of h106 x) by (intros x Hx; apply G, numbers_in; auto).
    set (m := nanmean_fl arr (map (option_map fl) cells)) in *. split.
    + destruct (Reqb m 0) eqn:Em; [|discriminate]. intros _. apply Reqb_true in Em. destruct W as (W & _).
      assert (P : 0 < rd ^ (length cells + 1)) by (apply pow_lt; unfold rd; assert (bpow radix2 (-53) < bpow radix2 0) by (apply bpow_lt; lia); change (bpow radix2 0) with 1 in *; lra).
      assert (M0 : mean (numbers cells) <= 0) by nra. pose proof (INR_length_pos R (numbers cells) NE) as PN.
      assert (S0 : Rsum (numbers cells) <= 0).
      { unfold mean in M0. apply Rmult_le_reg_r with (/ INR (length (numbers cells))); [apply Rinv_0_lt_compat; auto|]. unfold Rdiv in M0. lra. }
      assert (SM : forall l, (forall x, In x l -> 0 <= x) -> 0 <= Rsum l /\ forall x, In x l -> x <= Rsum l).
      { clear. unfold Rsum. induction l as [|y l IH]; intros H; cbn [fold_right]; [split; [lra|intros x []]|]. destruct IH as (I1 & I2); [intros; apply H; right; auto|].
        pose proof (H y (or_introl eq_refl)). split; [lra|]. intros x [<-|Hx]; [lra|]. specialize (I2 x Hx). lra. }
      destruct (SM (numbers cells)) as (_ & SM2); [intros x Hx; apply V; auto|]. specialize (SM2 _ I). destruct (V _ I). lra.
    + intros Z. assert (M0 : m = 0).
      { assert (MM : mean (numbers cells) = 0). { pose proof (mean_bounds (numbers cells) NE) as [B1 B2]. destruct (V _ (proj1 (minl_spec _ NE))). lra. }
        destruct W as (W1 & W2). assert (P : 0 < rd ^ (length cells + 1)) by (apply pow_lt; unfold rd; assert (bpow radix2 (-53) < bpow radix2 0) by (apply bpow_lt; lia); change (bpow radix2 0) with 1 in *; lra).
        rewrite MM in *. pose proof (clear_pos h200 m (Rlt_le _ _ h200_pos) C). nra. }
      rewrite M0. unfold Reqb. destruct (Req_EM_T 0 0); auto. congruence.
Qed.

Lemma summary_ordered : forall cells, good_cells cells -> ordered_row_fl (pawn_summary_fl arr (map (option_map fl) cells)).
Proof.
  intros cells G. destruct (list_eq_dec Req_EM_T (numbers cells) []) as [E|NE].
  - left. unfold pawn_summary_fl. rewrite numbers_map, E. eexists. reflexivity.
  - right. rewrite summary_fl_eq by auto. do 6 eexists. split; [reflexivity|].
    assert (V : forall x, In x (numbers cells) -> 0 <= x <= 1 /\ clear_of h106 x) by (intros x Hx; apply G, numbers_in; auto).
    assert (D : forall x, In x (map fl (numbers cells)) -> double x /\ 0 <= x).
    { intros x Hx. apply in_map_iff in Hx. destruct Hx as (y & <- & Hy). split; [apply double_fl|apply fl_pos, V, Hy]. }
    assert (NE' : map fl (numbers cells) <> []) by (intros E; apply map_eq_nil in E; auto).
    pose proof (median_fl_bounds _ NE' D) as (M1 & M2). rewrite minl_mono in M1 by auto. rewrite maxl_mono in M2 by auto.
    pose proof (V _ (proj1 (minl_spec _ NE))) as (V1 & _). pose proof (V _ (proj1 (maxl_spec _ NE))) as (V2 & _).
    assert (P : 0 <= nanmean_fl arr (map (option_map fl) cells)).
    { apply nanmean_pos. intros d Hd. apply in_map_iff in Hd. destruct Hd as ([y|] & E & Hy); [|discriminate]. injection E as <-. apply fl_pos. apply G in Hy. tauto. }
    split; [apply fl_pos; tauto|]. split; [auto|]. split; [auto|].
    split; [rewrite <- fl_1; apply fl_mono; tauto|]. split; [auto|]. split; [apply nanstd_pos|].
    intros c Hc. eapply fdiv_pos; [| |exact Hc]; [apply nanstd_pos|auto].
Qed.
End Mean.
