(** * Proofs: ignored groups, constant outputs, parallel = serial, second-order table. *)
From Coq Require Import Reals String List Arith ZArith Bool Lia Lra.
From Verif Require Import Base Arrays ModelGroups SpecGroups ProofsGroups ModelScale ProofsScale
  Stats ModelSobol SpecSobol ProofsSobol ProofsSobol2 ProofsSobol3 ProofsSobol4.
Import ListNotations.
Local Open Scope nat_scope.

(** ** Ignored groups *)
Lemma block_size_pos : forall G s, 0 < block_size G s.
Proof. intros. unfold block_size. destruct s; lia. Qed.

Lemma map3_In : forall X Y Z W (f : X -> Y -> Z -> W) a b c w, In w (map3 f a b c) ->
  exists x y z, w = f x y z.
Proof.
  induction a; destruct b, c; simpl; intros w H; try tauto.
  destruct H as [<-|H]; eauto.
Qed.
Lemma map3_same_In : forall X Z W (f : X -> X -> Z -> W) a c w, In w (map3 f a a c) ->
  exists x z, w = f x x z.
Proof.
  induction a; destruct c; simpl; intros w H; try tauto.
  destruct H as [<-|H]; eauto.
Qed.

Lemma all_some_In : forall l xs, all_some l = Some xs -> forall x, In x xs -> In (Some x) l.
Proof.
  induction l as [|[y|] l IH]; simpl; intros xs H x Hx.
  - injection H as <-. destruct Hx.
  - destruct (all_some l); [|discriminate]. injection H as <-. destruct Hx as [->|Hx]; eauto.
  - discriminate.
Qed.

Lemma sd1_zeros : forall xs v, (forall x, In x xs -> x = 0%R) -> sd1 xs = Some v -> v = 0%R.
Proof.
  intros xs v H. unfold sd1. destruct (length xs <? 2)%nat; [discriminate|]. intros E.
  rewrite (mean_zero xs) in E by auto.
  assert (Z : Rsum (map (fun x => (x - 0) ^ 2)%R xs) = 0%R).
  { clear -H. induction xs; [reflexivity|]. unfold Rsum in *. cbn [map fold_right]. rewrite (H a) by (simpl; auto).
    rewrite IHxs by (intros; apply H; simpl; auto). ring. }
  rewrite Z in E. unfold Rdiv in E. rewrite Rmult_0_l, sqrt_0 in E. congruence.
Qed.

Lemma confidence_zeros : forall Z e v, (forall x, In (Some x) (est_column 1 e) -> x = 0%R) ->
  confidence Z e = Some v -> v = 0%R.
Proof.
  intros Z e v H. unfold confidence, est_std. destruct e as [x|l]; simpl; [discriminate|].
  destruct (all_some l) as [xs|] eqn:E; [|discriminate]. destruct (sd1 xs) as [w|] eqn:E2; [|discriminate].
  intros Hv. injection Hv as <-. rewrite (sd1_zeros xs w); [ring| |auto].
  intros x Hx. apply H. simpl. eapply all_some_In; eauto.
Qed.

Lemma est_zero_first : forall n A B r x,
  In (Some x) (est_column n (first_order2 (gather A r) (gather A r) (gather B r))) -> x = 0%R.
Proof.
  intros n A B r x. unfold first_order2. destruct (Reqb _ 0); simpl.
  - intros H. apply repeat_spec in H. congruence.
  - intros H. apply map3_same_In in H. destruct H as (y & z & E).
    destruct (first_col_self y z) as [F|F]; congruence.
Qed.
Lemma est_zero_total : forall n A B r x,
  In (Some x) (est_column n (total_order2 (gather A r) (gather A r) (gather B r))) -> x = 0%R.
Proof.
  intros n A B r x. unfold total_order2. destruct (Reqb _ 0); simpl.
  - intros H. apply repeat_spec in H. congruence.
  - intros H. apply map3_same_In in H. destruct H as (y & z & E).
    destruct (total_col_self y z) as [F|F]; congruence.
Qed.

Lemma est_column_1 : forall n e x, In (Some x) (est_column 1 e) -> 0 < n -> In (Some x) (est_column n e).
Proof.
  intros n [v|l] x H Hn; simpl in *; auto. destruct H as [->|[]]. destruct n; [lia|]. simpl; auto.
Qed.

Lemma consistent_groups : forall p G, consistent p -> group_count p G ->
  snd (extract_group_names p) = G.
Proof.
  intros p G (HL & HN & Hn & H1) HG.
  destruct (sampler_groups_ok p) as (G' & names & E & HG' & _).
  assert (G = G') by (eapply group_count_fun; eauto). subst G'.
  eapply groups_agree; eauto.
Qed.

Lemma ignored_group_zero : forall zero base idxs p second rows G (f : list R -> R) k
    mu sigma Zq resample cpus conf keep workers s,
  consistent p -> proper_base base idxs p -> group_count p G -> k < G ->
  cross_sample zero base idxs p second = Ok rows -> ignores f p k -> sigma <> 0%R ->
  analyze_with mu sigma Zq resample cpus p (map f rows) second conf keep workers = Ok s ->
  nth_error (S1 s) k = Some (Some 0%R) /\ nth_error (ST s) k = Some (Some 0%R) /\
  (forall v, nth_error (S1_conf s) k = Some (Some v) -> v = 0%R) /\
  (forall v, nth_error (ST_conf s) k = Some (Some v) -> v = 0%R) /\
  (forall m col v, S1_conf_all s = Some m -> nth_error m k = Some col -> In (Some v) col -> v = 0%R) /\
  (forall m col v, ST_conf_all s = Some m -> nth_error m k = Some col -> In (Some v) col -> v = 0%R).
Proof.
  intros zero base idxs p second rows G f k mu sigma Zq resample cpus conf keep workers s
    HC HB HG Hk HE Hign Hsig HA.
  assert (HD : snd (extract_group_names p) = G) by (apply consistent_groups; auto).
  destruct HC as (HL & _).
  destruct (cross_sample_layout zero base idxs p second HL HB) as (rows' & G' & E & HG' & HLen & _ & _).
  assert (G' = G) by (eapply group_count_fun; eauto). subst G'.
  rewrite E in HE. injection HE as ->.
  destruct (analyze_inv _ _ _ _ _ _ _ _ _ _ _ _ Hsig HA) as
    (N & A & B & AB & BA & HY & HN & HR & Es & LA & LB & LAB & FAB & HBA & Hsh & Hcov & Hpk & Hsk).
  rewrite HD in *.
  assert (HN' : N = length idxs).
  { rewrite map_length, HLen in HY. pose proof (block_size_pos G second). nia. }
  symmetry in HN'. destruct HN'.
  destruct (roundtrip _ _ zero base idxs p second rows G (fun x => ((f x - mu) / sigma)%R) HL HB HG E)
    as (ya & yb & yab & yba & Es' & _ & _ & Lyab & Fyab & _ & _ & Hpt).
  rewrite map_map in Es. rewrite Es' in Es. injection Es as <- <- <- <-.
  (* column k equals A *)
  assert (Hcol : nth k yab [] = ya).
  { destruct (nth_error_lt_Some yab (i := k)) as [c Hc]; [lia|].
    rewrite (nth_error_nth _ _ [] Hc).
    assert (Lc : length c = length idxs).
    { rewrite Forall_forall in Fyab. apply Fyab. eapply nth_error_In; eauto. }
    apply nth_error_ext'. intros i. destruct (Nat.lt_ge_cases i (length idxs)) as [Hi|Hi].
    - destruct (nth_error_lt_Some idxs (i := i)) as [n Hn]; [lia|].
      destruct (HB n) as (b & Hb & Lb); [eapply nth_error_In; eauto|].
      destruct (split_row b (p_num_vars p) Lb) as (u & v & -> & Lu & Lv & _).
      destruct (Hpt i n u v Hn Hb Lu Lv) as (P1 & P2 & P3 & _).
      destruct (P3 k Hk) as (r & [Lr Hr] & He).
      unfold entry in He. rewrite Hc in He. rewrite He, P1. do 3 f_equal.
      apply Hign; try lia. intros j Hj. apply Hr; auto.
    - rewrite !(proj2 (nth_error_None _ i)) by lia. reflexivity. }
  assert (Hne : ya <> []).
  { intros ->. simpl in LA. assert (0 < G) by lia. lia. }
  assert (HRpos : 0 < length (resample (length idxs))) by (apply HR; lia).
  assert (Z1 : forall n x, In (Some x) (est_column n (est1 ya yb yab (resample (length idxs)) k)) -> x = 0%R).
  { intros n x. unfold est1. rewrite Hcol. apply est_zero_first. }
  assert (ZT : forall n x, In (Some x) (est_column n (estT ya yb yab (resample (length idxs)) k)) -> x = 0%R).
  { intros n x. unfold estT. rewrite Hcol. apply est_zero_total. }
  set (val := match workers with
             | None => ser_value (Zq conf) ya yb yab yba (resample (length idxs))
             | Some _ => par_value (Zq conf) ya yb yab yba (resample (length idxs))
             end) in *.
  assert (Hrd : forall d, In d [kS1; kS1c; kST; kSTc] -> read s (d, k, None) = Some (val (d, k, None))).
  { intros d Hd. apply Hcov. apply in_first_tasks; auto. }
  split; [|split; [|split; [|split; [|split]]]].
  - change (nth_error (S1 s) k) with (read s (kS1, k, None)). rewrite Hrd by (simpl; auto). f_equal.
    unfold val. destruct workers; simpl; rewrite Hcol; apply first_order_self; auto.
  - change (nth_error (ST s) k) with (read s (kST, k, None)). rewrite Hrd by (simpl; auto). f_equal.
    unfold val. destruct workers; simpl; rewrite Hcol; apply total_order_self; auto.
  - intros v. change (nth_error (S1_conf s) k) with (read s (kS1c, k, None)).
    rewrite Hrd by (simpl; auto). intros H. injection H as H. unfold val in H.
    destruct workers; simpl in H.
    + eapply confidence_zeros; [|exact H]. apply Z1.
    + destruct (Reqb (var_diff ya yb (resample (length idxs))) 0).
      * congruence.
      * eapply confidence_zeros; [|exact H]. apply Z1.
  - intros v. change (nth_error (ST_conf s) k) with (read s (kSTc, k, None)).
    rewrite Hrd by (simpl; auto). intros H. injection H as H. unfold val in H.
    destruct workers; simpl in H.
    + eapply confidence_zeros; [|exact H]. apply ZT.
    + destruct (Reqb (var_diff ya yb (resample (length idxs))) 0).
      * congruence.
      * eapply confidence_zeros; [|exact H]. apply ZT.
  - intros m col v Hm Hc Hv. destruct workers.
    + destruct Hpk as [P1 _]; [congruence|]. rewrite P1 in Hm. simpl in Hm.
      destruct keep; [|discriminate]. injection Hm as <-.
      rewrite nth_error_repeat in Hc. destruct (k <? G); [|discriminate]. injection Hc as <-.
      apply repeat_spec in Hv. congruence.
    + destruct (Hsk eq_refl) as [K1 K2]. destruct keep.
      * destruct (K2 eq_refl) as (m1 & mT & E1 & _ & _ & _ & Hj). destruct (Hj k Hk) as [J1 _].
        rewrite E1 in Hm. injection Hm as ->. rewrite J1 in Hc. injection Hc as <-. eapply Z1; eauto.
      * destruct (K1 eq_refl) as [K _]. congruence.
  - intros m col v Hm Hc Hv. destruct workers.
    + destruct Hpk as [_ P1]; [congruence|]. rewrite P1 in Hm. simpl in Hm.
      destruct keep; [|discriminate]. injection Hm as <-.
      rewrite nth_error_repeat in Hc. destruct (k <? G); [|discriminate]. injection Hc as <-.
      apply repeat_spec in Hv. congruence.
    + destruct (Hsk eq_refl) as [K1 K2]. destruct keep.
      * destruct (K2 eq_refl) as (m1 & mT & _ & E1 & _ & _ & Hj). destruct (Hj k Hk) as [_ J1].
        rewrite E1 in Hm. injection Hm as ->. rewrite J1 in Hc. injection Hc as <-. eapply ZT; eauto.
      * destruct (K1 eq_refl) as [_ K]. congruence.
Qed.

(** ** nan results *)
Lemma analyze_nan : forall mu Zq resample cpus p Y second conf keep workers s,
  analyze_with mu 0 Zq resample cpus p Y second conf keep workers = Ok s ->
  s = all_nan (snd (extract_group_names p)) (length (resample (length Y /
        block_size (snd (extract_group_names p)) second))) keep second
        (match workers with Some _ => true | None => false end).
Proof.
  intros mu Zq resample cpus p Y second conf keep workers s H. unfold analyze_with in H.
  change (if second then 2 * snd (extract_group_names p) + 2 else snd (extract_group_names p) + 2)
    with (block_size (snd (extract_group_names p)) second) in H.
  destruct (negb _); [discriminate|]. destruct (negb _); [discriminate|].
  destruct (_ && _); [discriminate|].
  replace (Reqb 0 0) with true in H by (symmetry; apply Reqb_true; auto). congruence.
Qed.

Lemma ST_nonneg : forall mu sigma Zq resample cpus p Y second conf keep workers s,
  analyze_with mu sigma Zq resample cpus p Y second conf keep workers = Ok s ->
  (forall k v, nth_error (ST s) k = Some (Some v) -> (0 <= v)%R) /\
  (forall m k col v, ST_conf_all s = Some m -> nth_error m k = Some col -> In (Some v) col -> (0 <= v)%R).
Proof.
  intros mu sigma Zq resample cpus p Y second conf keep workers s HA.
  destruct (Req_dec sigma 0) as [->|Hsig].
  - apply analyze_nan in HA. subst s. split.
    + intros k v H. simpl in H. rewrite nth_error_repeat in H. destruct (_ <? _); congruence.
    + simpl. intros m k col v Hm Hc Hv. destruct keep; [|discriminate]. injection Hm as <-.
      rewrite nth_error_repeat in Hc. destruct (_ <? _); [|discriminate]. injection Hc as <-.
      apply repeat_spec in Hv. destruct workers; [|discriminate]. injection Hv as ->. lra.
  - destruct (analyze_inv _ _ _ _ _ _ _ _ _ _ _ _ Hsig HA) as
      (N & A & B & AB & BA & HY & HN & HR & Es & LA & LB & LAB & FAB & HBA & Hsh & Hcov & Hpk & Hsk).
    set (D := snd (extract_group_names p)) in *. split.
    + intros k v H. assert (Hk : k < D).
      { destruct Hsh as (_ & _ & L & _). rewrite <- L. eapply nth_error_Some_lt; eauto. }
      change (nth_error (ST s) k) with (read s (kST, k, None)) in H.
      rewrite (proj1 (Hcov (kST, k, None))) in H by (apply in_first_tasks; simpl; auto).
      injection H as H. destruct workers; simpl in H; eapply total_order_nonneg; eauto.
    + intros m k col v Hm Hc Hv. destruct workers.
      * destruct Hpk as [_ P1]; [congruence|]. rewrite P1 in Hm. simpl in Hm.
        destruct keep; [|discriminate]. injection Hm as <-.
        rewrite nth_error_repeat in Hc. destruct (_ <? _); [|discriminate]. injection Hc as <-.
        apply repeat_spec in Hv. injection Hv as ->. lra.
      * destruct (Hsk eq_refl) as [K1 K2]. destruct keep; [|destruct (K1 eq_refl) as [_ K]; congruence].
        destruct (K2 eq_refl) as (m1 & mT & _ & E1 & _ & LT & Hj).
        rewrite E1 in Hm. injection Hm as ->.
        assert (Hk : k < D) by (rewrite <- LT; eapply nth_error_Some_lt; eauto).
        destruct (Hj k Hk) as [_ J1]. rewrite J1 in Hc. injection Hc as <-.
        unfold estT, total_order2 in Hv. destruct (Reqb _ 0); simpl in Hv.
        -- apply repeat_spec in Hv. injection Hv as ->. lra.
        -- apply map3_In in Hv. destruct Hv as (x & y & z & Hv). symmetry in Hv.
           eapply total_col_nonneg; eauto.
Qed.

(** ** Constant outputs *)
Lemma ptp_const : forall l c, (forall x, In x l -> x = c) -> ptp l = 0%R.
Proof.
  intros l c H. destruct l as [|x l]; [unfold ptp; simpl; lra|].
  apply ptp_zero_iff; [congruence|]. intros a b Ha Hb. rewrite (H a Ha), (H b Hb). auto.
Qed.

Lemma Reqb_refl0 : Reqb 0 0 = true.
Proof. apply Reqb_true. auto. Qed.

Lemma const_estimates : forall A B c, (forall x, In x A -> x = c) -> (forall x, In x B -> x = c) ->
  (forall AB, first_order A AB B = Some 0%R) /\ (forall AB, total_order A AB B = Some 0%R) /\
  (forall ABj ABk BAj, second_order A ABj ABk BAj B = Some 0%R).
Proof.
  intros A B c HA HB.
  assert (E : ptp (A ++ B) = 0%R).
  { apply (ptp_const _ c). intros x Hx. apply in_app_or in Hx. destruct Hx; auto. }
  unfold first_order, total_order, second_order. rewrite E, Reqb_refl0. auto.
Qed.

Lemma gather_const : forall A r c n, length A = n -> Forall (Forall (fun i => i < n)) r ->
  (forall x, In x A -> x = c) -> forall x, In x (concat (gather A r)) -> x = c.
Proof.
  intros A r c n HL HF HA x Hx. unfold gather in Hx. apply in_concat in Hx.
  destruct Hx as (l & Hl & Hx). apply in_map_iff in Hl. destruct Hl as (idx & <- & Hidx).
  apply in_map_iff in Hx. destruct Hx as (i & <- & Hi). apply HA. apply nth_In.
  rewrite Forall_forall in HF. specialize (HF idx Hidx). rewrite Forall_forall in HF.
  specialize (HF i Hi). lia.
Qed.

Lemma separate_In : forall A (Y : list A) D N second a b ab ba,
  separate_output_values Y D N second = Ok (a, b, ab, ba) ->
  (forall x, In x a -> In x Y) /\ (forall x, In x b -> In x Y).
Proof.
  intros A Y D N second a b ab ba H. unfold separate_output_values in H.
  assert (G : forall start step x, In x (slice_step Y start step) -> In x Y).
  { intros start step x Hx. unfold slice_step in Hx.
    assert (Q : forall fuel l, In x (every fuel step l) -> In x l).
    { induction fuel; simpl; intros l Hl; [tauto|]. destruct l as [|y l]; [tauto|].
      destruct Hl as [->|Hl]; [simpl; auto|]. apply IHfuel in Hl.
      rewrite <- (firstn_skipn step (y :: l)). apply in_or_app. auto. }
    apply Q in Hx. rewrite <- (firstn_skipn start Y). apply in_or_app. auto. }
  destruct (mapM _ (seq 0 D)); [|discriminate]. cbn [bind] in H.
  match type of H with context[bind ?x _] => destruct x; [|discriminate] end.
  cbn [bind] in H. injection H as <- <- <- <-. split; intros; eapply G; eauto.
Qed.

Lemma constant_output : forall mu sigma Zq resample cpus p Y c second conf keep workers s,
  sigma <> 0%R -> (forall y, In y Y -> y = c) ->
  (forall n, Forall (Forall (fun i => i < n)) (resample n)) ->
  analyze_with mu sigma Zq resample cpus p Y second conf keep workers = Ok s ->
  let D := snd (extract_group_names p) in
  (forall k, k < D -> nth_error (S1 s) k = Some (Some 0%R) /\ nth_error (ST s) k = Some (Some 0%R)) /\
  (second = true -> forall j k, j < k -> k < D ->
     exists m, S2 s = Some m /\ entry m j k = Some (Some 0%R)) /\
  (workers = None ->
   forall k, k < D -> nth_error (S1_conf s) k = Some (Some 0%R) /\ nth_error (ST_conf s) k = Some (Some 0%R)) /\
  (workers <> None ->
   forall k, k < D -> nth_error (S1_conf s) k = Some None /\ nth_error (ST_conf s) k = Some None) /\
  (second = true -> forall j k, j < k -> k < D ->
     exists m, S2_conf s = Some m /\ entry m j k = Some None).
Proof.
  intros mu sigma Zq resample cpus p Y c second conf keep workers s Hsig HY HI HA D.
  destruct (analyze_inv _ _ _ _ _ _ _ _ _ _ _ _ Hsig HA) as
    (N & A & B & AB & BA & HYl & HN & HR & Es & LA & LB & LAB & FAB & HBA & Hsh & Hcov & Hpk & Hsk).
  fold D in HYl, HN, HR, Es, LAB, HBA, Hsh, Hcov, Hpk, Hsk.
  destruct (separate_In _ _ _ _ _ _ _ _ _ Es) as [InA InB].
  set (c' := ((c - mu) / sigma)%R).
  assert (HAc : forall x, In x A -> x = c').
  { intros x Hx. apply InA in Hx. apply in_map_iff in Hx. destruct Hx as (y & <- & Hy).
    rewrite (HY y Hy). reflexivity. }
  assert (HBc : forall x, In x B -> x = c').
  { intros x Hx. apply InB in Hx. apply in_map_iff in Hx. destruct Hx as (y & <- & Hy).
    rewrite (HY y Hy). reflexivity. }
  destruct (const_estimates A B c' HAc HBc) as (E1 & E2 & E3).
  set (r := resample N) in *.
  assert (Eg : ptp (concat (gather A r) ++ concat (gather B r)) = 0%R).
  { apply (ptp_const _ c'). intros x Hx. apply in_app_or in Hx. destruct Hx as [Hx|Hx].
    - eapply (gather_const A r c' N); eauto; apply HI.
    - eapply (gather_const B r c' N); eauto; apply HI. }
  assert (C1 : forall x, confidence (Zq conf) (first_order2 (gather A r) x (gather B r)) = None)
    by (intros; unfold first_order2; rewrite Eg, Reqb_refl0; reflexivity).
  assert (C2 : forall x, confidence (Zq conf) (total_order2 (gather A r) x (gather B r)) = None)
    by (intros; unfold total_order2; rewrite Eg, Reqb_refl0; reflexivity).
  assert (C3 : forall x y z, confidence (Zq conf) (second_order2 (gather A r) x y z (gather B r)) = None)
    by (intros; unfold second_order2; rewrite Eg, Reqb_refl0; reflexivity).
  assert (Hf : forall k d, k < D -> In d [kS1; kS1c; kST; kSTc] -> In (d, k, None) (all_tasks D second))
    by (intros; apply in_first_tasks; auto).
  split; [|split; [|split; [|split]]].
  - intros k Hk. split.
    + change (nth_error (S1 s) k) with (read s (kS1, k, None)).
      rewrite (proj1 (Hcov _)) by (apply Hf; simpl; auto). f_equal. destruct workers; apply E1.
    + change (nth_error (ST s) k) with (read s (kST, k, None)).
      rewrite (proj1 (Hcov _)) by (apply Hf; simpl; auto). f_equal. destruct workers; apply E2.
  - intros -> j k Hj Hk.
    assert (Q : read s (kS2, j, Some k) = Some (Some 0%R)).
    { rewrite (proj1 (Hcov _)) by (apply in_second_tasks; simpl; auto). f_equal.
      destruct workers; apply E3. }
    simpl in Q. destruct (S2 s) as [m|]; [|discriminate]. eauto.
  - intros -> k Hk.
    assert (Ev : Reqb (var_diff A B r) 0 = true) by (unfold var_diff; rewrite Eg; apply Reqb_refl0).
    split.
    + change (nth_error (S1_conf s) k) with (read s (kS1c, k, None)).
      rewrite (proj1 (Hcov _)) by (apply Hf; simpl; auto). f_equal.
      unfold ser_value. rewrite Ev. reflexivity.
    + change (nth_error (ST_conf s) k) with (read s (kSTc, k, None)).
      rewrite (proj1 (Hcov _)) by (apply Hf; simpl; auto). f_equal.
      unfold ser_value. rewrite Ev. reflexivity.
  - intros Hw k Hk. destruct workers; [|congruence]. split.
    + change (nth_error (S1_conf s) k) with (read s (kS1c, k, None)).
      rewrite (proj1 (Hcov _)) by (apply Hf; simpl; auto). f_equal. apply C1.
    + change (nth_error (ST_conf s) k) with (read s (kSTc, k, None)).
      rewrite (proj1 (Hcov _)) by (apply Hf; simpl; auto). f_equal. apply C2.
  - intros -> j k Hj Hk.
    assert (Q : read s (kS2c, j, Some k) = Some None).
    { rewrite (proj1 (Hcov _)) by (apply in_second_tasks; simpl; auto). f_equal.
      destruct workers; apply C3. }
    simpl in Q. destruct (S2_conf s) as [m|]; [|discriminate]. eauto.
Qed.

(** ** Second-order table *)
Lemma second_order_numeric : forall A ABj ABk BAj B, A <> [] ->
  exists v, second_order A ABj ABk BAj B = Some v.
Proof.
  intros A ABj ABk BAj B H. unfold second_order. destruct (Reqb (ptp (A ++ B)) 0) eqn:E; eauto.
  destruct (first_order_numeric A ABj B H) as [v1 ->]. destruct (first_order_numeric A ABk B H) as [v2 ->].
  unfold fdiv. rewrite var_of_ptp by (auto using app_neq_nil). simpl. eauto.
Qed.

Lemma second_table : forall mu sigma Zq resample cpus p Y conf keep workers s,
  sigma <> 0%R ->
  analyze_with mu sigma Zq resample cpus p Y true conf keep workers = Ok s ->
  exists m mc, S2 s = Some m /\ S2_conf s = Some mc /\
    length m = snd (extract_group_names p) /\ length mc = snd (extract_group_names p) /\
    forall j k, j < snd (extract_group_names p) -> k < snd (extract_group_names p) ->
      (j < k -> exists v, entry m j k = Some (Some v)) /\
      (~ j < k -> entry m j k = Some None /\ entry mc j k = Some None) /\
      (exists v, entry mc j k = Some v).
Proof.
  intros mu sigma Zq resample cpus p Y conf keep workers s Hsig HA.
  destruct (analyze_inv _ _ _ _ _ _ _ _ _ _ _ _ Hsig HA) as
    (N & A & B & AB & BA & HYl & HN & HR & Es & LA & LB & LAB & FAB & HBA & Hsh & Hcov & Hpk & Hsk).
  set (D := snd (extract_group_names p)) in *.
  assert (Hsh' := Hsh).
  destruct Hsh as (_ & _ & _ & _ & Q1 & Q2).
  destruct (S2 s) as [m|] eqn:E1; [|discriminate]. destruct (S2_conf s) as [mc|] eqn:E2; [|discriminate].
  destruct Q1 as (_ & Lm & Fm), Q2 as (_ & Lmc & Fmc).
  exists m, mc. split; auto. split; auto. split; auto. split; auto.
  intros j k Hj Hk.
  assert (Hr2 : forall d, read s (d, j, Some k) = match d with kS2 => entry m j k | kS2c => entry mc j k | _ => None end).
  { intros []; simpl; auto; rewrite ?E1, ?E2; auto. }
  split; [|split].
  - intros Hjk. rewrite <- (Hr2 kS2). rewrite (proj1 (Hcov _)) by (apply in_second_tasks; simpl; auto).
    assert (Hne : A <> []). { intros ->. simpl in LA. lia. }
    destruct workers; simpl; destruct (second_order_numeric A (nth j AB []) (nth k AB [])
       (match BA with Some m => nth j m [] | None => [] end) B Hne) as [v ->]; eauto.
  - intros Hjk.
    assert (Hnan : forall d, In d [kS2; kS2c] -> read s (d, j, Some k) = Some None).
    { intros d Hd. rewrite (proj2 (Hcov _)) by (apply not_second_task; auto).
      simpl in Hd. destruct Hd as [<-|[<-|[]]]; simpl; unfold entry; rewrite nth_error_repeat;
        (destruct (Nat.ltb_spec j D); [|lia]); rewrite nth_error_repeat;
        (destruct (Nat.ltb_spec k D); [|lia]); reflexivity. }
    split; [rewrite <- (Hr2 kS2)|rewrite <- (Hr2 kS2c)]; apply Hnan; simpl; auto.
  - unfold entry. destruct (nth_error_lt_Some mc (i := j)) as [row Hrow]; [lia|]. rewrite Hrow.
    apply nth_error_lt_Some. rewrite Forall_forall in Fmc.
    rewrite (Fmc row); [lia|]. eapply nth_error_In; eauto.
Qed.

(** ** Data frame of second-order indices *)
Lemma index_of_nth : forall l i x, NoDup l -> nth_error l i = Some x -> index_of x l = Ok i.
Proof.
  induction l as [|y l IH]; intros i x HN Hi; [destruct i; discriminate|].
  inversion HN; subst. destruct i; simpl in *.
  - injection Hi as ->. rewrite String.eqb_refl. reflexivity.
  - destruct (String.eqb_spec x y) as [->|].
    + exfalso. apply H1. eapply nth_error_In; eauto.
    + rewrite (IH i x) by auto. reflexivity.
Qed.

Lemma pairs2_In : forall X (l : list X) a b, In (a, b) (pairs2 l) <->
  exists j k, j < k /\ nth_error l j = Some a /\ nth_error l k = Some b.
Proof.
  induction l as [|x l IH]; simpl; intros a b.
  - split; [tauto|]. intros (j & k & _ & H & _). destruct j; discriminate.
  - rewrite in_app_iff, in_map_iff, IH. split.
    + intros [(y & E & Hy)|(j & k & Hjk & Hj & Hk)].
      * injection E as -> ->. apply in_nth_error in Hy. destruct Hy as [i Hi].
        exists 0, (S i). split; [lia|]. simpl. auto.
      * exists (S j), (S k). split; [lia|]. simpl. auto.
    + intros (j & k & Hjk & Hj & Hk). destruct k; [lia|]. simpl in Hk. destruct j; simpl in Hj.
      * left. injection Hj as ->. exists b. split; auto. eapply nth_error_In; eauto.
      * right. exists j, k. split; [lia|]. auto.
Qed.

Lemma pairs2_NoDup : forall X (l : list X), NoDup l -> NoDup (pairs2 l).
Proof.
  induction l as [|x l IH]; simpl; intros HN; [constructor|]. inversion HN as [|? ? Hx Hl]; subst.
  assert (Happ : forall (l1 l2 : list (X * X)), NoDup l1 -> NoDup l2 ->
    (forall p, In p l1 -> ~ In p l2) -> NoDup (l1 ++ l2)).
  { induction l1 as [|q l1 IH1]; simpl; intros l2 H1 H2 H3; auto. inversion H1; subst.
    constructor.
    - rewrite in_app_iff. intros [H|H]; [auto|]. apply (H3 q); auto.
    - apply IH1; auto. }
  apply Happ; auto.
  - apply FinFun.Injective_map_NoDup; auto. intros a b H. congruence.
  - intros [a b] H1 H2. apply in_map_iff in H1. destruct H1 as (y & E & _). injection E as -> ->.
    apply pairs2_In in H2. destruct H2 as (j & k & _ & Hj & _). apply Hx. eapply nth_error_In; eauto.
Qed.

Lemma second_index_ok : forall names, 2 <= length names -> second_index names = Ok (pairs2 names).
Proof.
  intros names H. unfold second_index. destruct (Nat.ltb_spec 2 (length names)); auto.
  destruct names as [|x [|y [|z r]]]; simpl in *; try lia. reflexivity.
Qed.

Lemma second_frame_ok : forall p s D m mc,
  snd (extract_group_names p) = D -> 2 <= D ->
  S2 s = Some m -> S2_conf s = Some mc -> square D true (Some m) -> square D true (Some mc) ->
  exists idx v vc, second_frame p s = Ok (Some (idx, v, vc)) /\
    NoDup idx /\ length v = length idx /\ length vc = length idx /\
    (forall a b, In (a, b) idx <-> exists j k, j < k /\
       nth_error (fst (extract_group_names p)) j = Some a /\
       nth_error (fst (extract_group_names p)) k = Some b) /\
    (forall q a b j k, nth_error idx q = Some (a, b) ->
       nth_error (fst (extract_group_names p)) j = Some a ->
       nth_error (fst (extract_group_names p)) k = Some b ->
       nth_error v q = entry m j k /\ nth_error vc q = entry mc j k).
Proof.
  intros p s D m mc HD H2 E1 E2 (_ & Lm & Fm) (_ & Lmc & Fmc).
  rewrite extract_group_names_eq in *. simpl fst in *. simpl snd in *.
  set (names := pd_unique (group_source p)) in *.
  assert (HN : NoDup names) by apply pd_unique_NoDup.
  unfold second_frame. rewrite E1, E2, extract_group_names_eq. simpl fst. fold names.
  rewrite second_index_ok by lia. cbn [bind].
  assert (HL : forall M, length M = D -> Forall (fun r => length r = D) M ->
    forall a b j k, nth_error names j = Some a -> nth_error names k = Some b ->
    exists x, lookup_pair names M (a, b) = Ok x /\ entry M j k = Some x).
  { intros M LM FM a b j k Ha Hb. unfold lookup_pair. simpl fst. simpl snd.
    rewrite (index_of_nth names j a), (index_of_nth names k b) by auto. cbn [bind].
    assert (j < D) by (rewrite <- HD; eapply nth_error_Some_lt; eauto).
    assert (k < D) by (rewrite <- HD; eapply nth_error_Some_lt; eauto).
    unfold get, entry. destruct (nth_error_lt_Some M (i := j)) as [row Hrow]; [lia|]. rewrite Hrow.
    cbn [bind]. assert (length row = D).
    { rewrite Forall_forall in FM. apply FM. eapply nth_error_In; eauto. }
    destruct (nth_error_lt_Some row (i := k)) as [x Hx]; [lia|]. rewrite Hx. eauto. }
  assert (HM : forall M, length M = D -> Forall (fun r => length r = D) M ->
     exists v, mapM (lookup_pair names M) (pairs2 names) = Ok v).
  { intros M LM FM. apply mapM_Ok_iff. intros [a b] Hab. apply pairs2_In in Hab.
    destruct Hab as (j & k & _ & Ha & Hb). destruct (HL M LM FM a b j k Ha Hb) as (x & Hx & _). eauto. }
  destruct (HM m Lm Fm) as [v Ev]. destruct (HM mc Lmc Fmc) as [vc Evc].
  rewrite Ev, Evc. cbn [bind]. exists (pairs2 names), v, vc. split; auto.
  split; [apply pairs2_NoDup; auto|]. split; [apply (mapM_Ok_length _ _ Ev)|].
  split; [apply (mapM_Ok_length _ _ Evc)|]. split; [intros; apply pairs2_In|].
  intros q a b j k Hq Ha Hb.
  destruct (mapM_Ok_nth _ _ q Ev Hq) as (x & Hx1 & Hx2).
  destruct (mapM_Ok_nth _ _ q Evc Hq) as (y & Hy1 & Hy2).
  destruct (HL m Lm Fm a b j k Ha Hb) as (x' & Hx' & ->).
  destruct (HL mc Lmc Fmc a b j k Ha Hb) as (y' & Hy' & ->).
  split; congruence.
Qed.

(** ** Parallel = serial *)
Lemma analyze_errs : forall mu sigma Zq resample cpus p Y second conf keep np,
  np <> Some 0 -> (np = None -> 0 < cpus) -> 0 < snd (extract_group_names p) ->
  (forall e, analyze_with mu sigma Zq resample cpus p Y second conf keep None = Err e <->
             analyze_with mu sigma Zq resample cpus p Y second conf keep (Some np) = Err e).
Proof.
  intros mu sigma Zq resample cpus p Y second conf keep np H1 H2 HD e. unfold analyze_with.
  set (D := snd (extract_group_names p)) in *.
  change (if second then 2 * D + 2 else D + 2) with (block_size D second).
  destruct (length Y mod block_size D second =? 0) eqn:E1; simpl negb; cbv iota; [|tauto].
  destruct (negb _); [tauto|]. destruct (_ && _); [tauto|].
  destruct (Reqb sigma 0); [split; discriminate|].
  pose proof (block_size_pos D second) as Hbs.
  assert (HL : length Y = length Y / block_size D second * block_size D second).
  { apply Nat.eqb_eq in E1. pose proof (Nat.div_mod (length Y) (block_size D second)). lia. }
  destruct (separate_ok R (map (fun y => (y - mu) / sigma)%R Y) D (length Y / block_size D second) second) as
    (A & B & AB & BA & Esep & LA & LB & LAB & FAB & HBA & HnBA & _ & _ & _).
  { rewrite map_length. exact HL. }
  rewrite Esep. cbn [bind].
  assert (HBA' : second = true -> exists ba, BA = Some ba /\ length ba = D).
  { intros Hs. destruct (HBA Hs) as (ba & ? & ? & _). eauto. }
  destruct (serial_covers (Zq conf) A B AB BA (resample (length Y / block_size D second)) D second LAB HBA'
     (length (resample (length Y / block_size D second))) keep) as (s1 & -> & _).
  destruct (parallel_covers (Zq conf) A B AB BA (resample (length Y / block_size D second)) D second LAB HBA'
     (length (resample (length Y / block_size D second))) keep np cpus) as (s2 & -> & _); auto.
  split; discriminate.
Qed.

Definition same_tables (s s' : Si) : Prop :=
  S1 s = S1 s' /\ S1_conf s = S1_conf s' /\ ST s = ST s' /\ ST_conf s = ST_conf s' /\
  S2 s = S2 s' /\ S2_conf s = S2_conf s'.

Lemma analyze_nan_any : forall mu Zq resample cpus p Y second conf keep workers,
  (exists e, forall w, analyze_with mu 0 Zq resample cpus p Y second conf keep w = Err e) \/
  exists s, analyze_with mu 0 Zq resample cpus p Y second conf keep workers = Ok s.
Proof.
  intros. unfold analyze_with. destruct (negb _); [left; eauto|]. destruct (negb _); [left; eauto|].
  destruct (_ && _); [left; eauto|]. rewrite Reqb_refl0. right. eauto.
Qed.

Lemma parallel_same : forall mu sigma Zq resample cpus p Y second conf keep np s s',
  (forall N A B AB BA, length Y = N * block_size (snd (extract_group_names p)) second ->
     separate_output_values (map (fun y => (y - mu) / sigma)%R Y) (snd (extract_group_names p)) N second
       = Ok (A, B, AB, BA) -> sigma <> 0%R -> var_diff A B (resample N) <> 0%R) ->
  analyze_with mu sigma Zq resample cpus p Y second conf keep None = Ok s ->
  analyze_with mu sigma Zq resample cpus p Y second conf keep (Some np) = Ok s' ->
  same_tables s s'.
Proof.
  intros mu sigma Zq resample cpus p Y second conf keep np s s' HV HA HA'.
  destruct (Req_dec sigma 0) as [->|Hsig].
  - apply analyze_nan in HA. apply analyze_nan in HA'. subst. repeat split.
  - destruct (analyze_inv _ _ _ _ _ _ _ _ _ _ _ _ Hsig HA) as
      (N & A & B & AB & BA & HYl & HN & HR & Es & LA & LB & LAB & FAB & HBA & Hsh & Hcov & _ & _).
    destruct (analyze_inv _ _ _ _ _ _ _ _ _ _ _ _ Hsig HA') as
      (N' & A' & B' & AB' & BA' & HYl' & HN' & HR' & Es' & _ & _ & _ & _ & _ & Hsh' & Hcov' & _ & _).
    set (D := snd (extract_group_names p)) in *.
    assert (N' = N) by (pose proof (block_size_pos D second); nia). subst N'.
    rewrite Es in Es'. injection Es' as <- <- <- <-.
    specialize (HV N A B AB BA HYl Es Hsig).
    apply (Si_ext D second); auto. intros t.
    destruct (in_dec task_eq_dec t (all_tasks D second)) as [Hi|Hn].
    + rewrite (proj1 (Hcov t) Hi), (proj1 (Hcov' t) Hi). f_equal.
      unfold ser_value. replace (Reqb (var_diff A B (resample N)) 0) with false
        by (symmetry; apply Reqb_false; auto).
      destruct t as [[[] j] k]; reflexivity.
    + rewrite (proj2 (Hcov t) Hn), (proj2 (Hcov' t) Hn). reflexivity.
Qed.
