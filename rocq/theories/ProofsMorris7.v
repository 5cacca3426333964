(** * Morris analyser: the reported measures. *)
From Coq Require Import Reals String List Arith ZArith Bool Lia Lra Permutation Sorted.
From Verif Require Import Base Arrays ListFacts ModelGroups ModelScale ProofsScale Stats Sums SpecGroups SpecSobol SpecFF
  ProofsGroups ProofsSobol ProofsFF ProofsFF2 ProofsFF3 ProofsFF ModelFast ProofsFast2 ModelMorris ModelMorrisAnalyze SpecMorris ProofsMorris1 ProofsMorris2
  ProofsMorris3 ProofsMorris5 ProofsMorris6.
Import ListNotations.
Local Open Scope nat_scope.

(** ** Lists of possibly undefined numbers *)
Lemma all_some_of : forall A (l : list A) f (g : A -> R), (forall x, In x l -> f x = Some (g x)) ->
  all_some (map f l) = Some (map g l).
Proof.
  intros A l f g H. rewrite (map_ext_in f (fun x => Some (g x))) by auto. rewrite <- (map_map g Some).
  apply all_some_map.
Qed.
Lemma fmean_of : forall A (l : list A) f (g : A -> R), (forall x, In x l -> f x = Some (g x)) ->
  fmean (map f l) = Some (mean (map g l)).
Proof. intros. unfold fmean. erewrite all_some_of; eauto. Qed.
Lemma fsd1_of : forall A (l : list A) f (g : A -> R), (forall x, In x l -> f x = Some (g x)) ->
  fsd1 (map f l) = sd1 (map g l).
Proof. intros. unfold fsd1. erewrite all_some_of; eauto. Qed.
Lemma all_some_inv : forall A (l : list (option A)) r, all_some l = Some r -> l = map Some r.
Proof.
  induction l as [|x l IH]; intros r H; simpl in H; [injection H as <-; auto|].
  destruct x as [x|]; [|discriminate]. destruct (all_some l) as [xs|]; [|discriminate].
  injection H as <-. simpl. f_equal. auto.
Qed.
Lemma mean_perm : forall l l', Permutation l l' -> mean l = mean l'.
Proof. intros l l' H. unfold mean. rewrite (Rsum_perm _ _ H), (Permutation_length H). auto. Qed.

(** ** Members of a group *)
Lemma members_spec : forall ls m names k x, compute_groups_matrix ls = Ok (m, names) -> nth_error names k = Some x ->
  members_of ls x (members m k).
Proof.
  intros ls m names k x H Hk. destruct (groups_matrix_membership _ _ _ H) as (HL & H01 & Hm).
  destruct (compute_groups_matrix_entries _ _ _ H) as (Hn & _ & _).
  unfold members. split; [apply NoDup_filter, seq_NoDup|].
  intros j. rewrite filter_In, in_seq.
  assert (Q : j < length m -> (negb (nth k (nth j m []) 0 =? 0) = true <-> entry m j k = Some 1)).
  { intros Hj. unfold entry. assert (E := nth_error_nth' m [] Hj). rewrite E.
    assert (Hin : In (nth j m []) m) by (apply nth_In; auto).
    destruct (H01 _ Hin) as [HW HV].
    assert (Hkl : k < length (nth j m [])) by (rewrite HW; eapply nth_error_Some_lt; eauto).
    rewrite (nth_error_nth' _ 0 Hkl). rewrite negb_true_iff, Nat.eqb_neq.
    destruct (HV (nth k (nth j m []) 0)) as [E1|E1]; [apply nth_In; auto|rewrite E1; split; congruence|rewrite E1; split; [auto|lia]]. }
  split.
  - intros [Hj Hf]. apply Q in Hf; [|lia]. apply Hm in Hf. destruct Hf as (g & H1 & H2). congruence.
  - intros Hj. assert (Hl : j < length m) by (rewrite HL; eapply nth_error_Some_lt; eauto).
    split; [lia|]. apply Q; auto. apply Hm. eauto.
Qed.

Lemma members_of_perm : forall ls x js js', members_of ls x js -> members_of ls x js' -> Permutation js js'.
Proof.
  intros ls x js js' [N1 H1] [N2 H2]. apply NoDup_Permutation; auto. intros j. rewrite H1, H2. tauto.
Qed.

Lemma group_total : forall ls m names k, compute_groups_matrix ls = Ok (m, names) -> k < length names ->
  list_sum (column m k) = length (members m k).
Proof.
  intros ls m names k H Hk. destruct (groups_matrix_membership _ _ _ H) as (HL & H01 & Hm).
  unfold members. clear Hm HL H.
  rewrite <- (map_id m) at 1.
  assert (Q : forall (l : list (list nat)) pre, (forall r, In r l -> length r = length names /\ forall v, In v r -> v = 0 \/ v = 1) ->
    list_sum (column l k) =
    length (filter (fun j => negb (nth k (nth j (pre ++ l) []) 0 =? 0)) (seq (length pre) (length l)))).
  { induction l as [|r l IH]; intros pre Hl; [reflexivity|].
    simpl seq. simpl filter. rewrite app_nth2, Nat.sub_diag by lia. simpl nth.
    destruct (Hl r) as [HW HV]; [left; auto|].
    assert (Hkl : k < length r) by lia.
    unfold column. simpl flat_map. rewrite (nth_error_nth' r 0 Hkl). cbn [app list_sum fold_right].
    fold (column l k). specialize (IH (pre ++ [r])). rewrite app_length in IH. simpl in IH.
    replace (length pre + 1) with (S (length pre)) in IH by lia.
    rewrite <- app_assoc in IH. simpl in IH. change (fold_right Nat.add 0 (column l k)) with (list_sum (column l k)).
    rewrite IH by (intros r' Hr'; apply Hl; right; auto).
    destruct (HV (nth k r 0)) as [E|E]; [apply nth_In; auto| |]; rewrite E; simpl; auto. }
  rewrite map_id. apply (Q m []). auto.
Qed.

(** ** The analysis of arbitrary samples *)
Definition ee (size : nat) (X : list (list R)) (Y : list R) (delta : R) (scaled : bool) (i j : nat) : fval :=
  if scaled then scaled_effect size X Y i j else fdiv (difference size X Y i j) delta.

Definition conf_of (nq : R -> R) (conf_level : R) (idxs : list (list nat)) (ee : list fval) : fval :=
  fmul (Some (nq (1 / 2 + conf_level / 2)%R))
    (fsd1 (map (fun idx => fmean (map (fun t => fabs (nth t ee None)) idx)) idxs)).

Lemma analyze_size : forall T G, 0 < T -> (T * (G + 1)) / (G + 1) = T /\ (T * (G + 1)) / T = G + 1.
Proof. intros. split; [apply Nat.div_mul; lia|]. rewrite Nat.mul_comm. apply Nat.div_mul. lia. Qed.

Lemma morris_analyze_eq : forall nq p ls X Y conf_level scaled levels resample T,
  labels_of p ls -> length ls = p_num_vars p -> 0 < p_num_vars p -> 2 <= levels -> cols X = p_num_vars p ->
  (0 < conf_level < 1)%R -> length (rows X) = length Y -> length Y = T * (length (pd_unique ls) + 1) -> 0 < T ->
  exists p1 m, compute_groups_matrix ls = Ok (m, pd_unique ls) /\
  let G := length (pd_unique ls) in
  let col := fun j => map (fun i => ee (G + 1) (rows X) Y (step levels) scaled i j) (seq 0 T) in
  let over := fun (f : nat -> fval) => map (fun k => fmean (map f (members m k))) (seq 0 G) in
  morris_analyze nq p X Y conf_level scaled levels resample
  = (p1, Ok (mkMorris (pd_unique ls) (over (fun j => fmean (col j))) (over (fun j => fmean (map fabs (col j))))
       (map (fun k => if length (members m k) =? 1 then fmean (map (fun j => fsd1 (col j)) (members m k)) else None) (seq 0 G))
       (over (fun j => conf_of nq conf_level (resample j) (col j))))).
Proof.
  intros nq p ls X Y conf_level scaled levels resample T Hls Hn Hp Hl Hc Hcl HXY HY HT.
  assert (HG : exists p1, define_problem_with_groups p = Ok p1 /\ p_groups p1 = Some ls /\ p_num_vars p1 = p_num_vars p).
  { destruct (define_groups_cases p) as [[Hg (p' & E & H1 & H2 & H3 & H4 & H5 & H6)]|[(g & Hg & Hne & HL & E)|(g & Hg & Hne & HL & E)]].
    - exists p'. destruct Hls as [(g & gs & Hgg & ->)|[_ ->]]; [destruct Hg; congruence|]. repeat split; auto.
    - exists p. destruct Hls as [(g' & gs & Hgg & ->)|[[Hgg|Hgg] ->]]; [|congruence|congruence].
      repeat split; auto.
    - exfalso. destruct Hls as [(g' & gs & Hgg & ->)|[[Hgg|Hgg] ->]]; [|congruence|congruence].
      rewrite Hgg in Hg. injection Hg as <-. congruence. }
  destruct HG as (p1 & E1 & Eg & Ev).
  destruct (compute_groups_matrix_total ls) as [m Em].
  destruct (groups_matrix_membership _ _ _ Em) as (HLm & _ & _).
  exists p1, m. split; auto. intros G col over.
  destruct (analyze_size T G HT) as [S1 S2].
  unfold morris_analyze. rewrite E1, Eg, (compute_delta_ok _ Hl). cbn [bind]. rewrite Em. cbn [bind].
  fold G in HY |- *. rewrite HY, S1, S2.
  destruct (Nat.eqb_spec T 0) as [Z|_]; [lia|].
  unfold elementary_effects. rewrite HXY, HY, S1, Nat.eqb_refl. cbn [negb].
  rewrite Nat.eqb_refl. cbn [negb bind].
  change (fun j i : nat => if scaled then scaled_effect (G + 1) (rows X) Y i j
            else fdiv (difference (G + 1) (rows X) Y i j) (step levels))
    with (fun j i : nat => ee (G + 1) (rows X) Y (step levels) scaled i j).
  set (EE := tab (cols X) T (fun j i => ee (G + 1) (rows X) Y (step levels) scaled i j)).
  assert (HEE : forall j, j < p_num_vars p -> nth_error EE j = Some (col j)).
  { intros j Hj. unfold EE, tab. rewrite nth_error_map_seq. rewrite Hc, (proj2 (Nat.ltb_lt _ _) Hj). auto. }
  unfold mu_star_confidence.
  rewrite (proj2 (Rltb_true 0 conf_level)), (proj2 (Rltb_true conf_level 1)) by lra. cbn [negb andb].
  rewrite (@mapM_ext nat fval _ (fun j => Ok (conf_of nq conf_level (resample j) (col j)))).
  2: { intros j Hj. apply in_seq in Hj. unfold get. rewrite HEE by lia. reflexivity. }
  rewrite mapM_Ok_map. cbn [bind].
  rewrite HLm, Hn, Hc, Nat.eqb_refl. cbn [negb].
  assert (Hmem : forall k j, k < G -> In j (members m k) -> j < p_num_vars p).
  { intros k j Hk Hj. destruct (nth_error_lt_Some (pd_unique ls) Hk) as [x Hx].
    destruct (members_spec _ _ _ _ _ Em Hx) as [_ HI]. apply HI in Hj. rewrite <- Hn. eapply nth_error_Some_lt; eauto. }
  assert (Hnth : forall (f : list fval -> fval) j, j < p_num_vars p -> nth j (map f EE) None = f (col j)).
  { intros f j Hj. apply nth_error_nth. rewrite nth_error_map, HEE by auto. auto. }
  assert (Hover : forall (l : list fval) (f : nat -> fval), (forall j, j < p_num_vars p -> nth j l None = f j) ->
            grouped_metric l m G = over f).
  { intros l f Hf. unfold grouped_metric, over. apply map_ext_in. intros k Hk. apply in_seq in Hk. f_equal.
    apply map_ext_in. intros j Hj. apply Hf. apply (Hmem k); auto. lia. }
  f_equal. f_equal. f_equal.
  - apply Hover. intros j Hj. rewrite (Hnth fmean); auto.
  - apply Hover. intros j Hj. rewrite (Hnth (fun ee => fmean (map fabs ee))); auto.
  - unfold grouped_sigma. apply map_ext_in. intros k Hk. apply in_seq in Hk.
    rewrite (group_total _ _ _ _ Em) by (fold G; lia). destruct (length (members m k) =? 1); auto.
    unfold grouped_metric. rewrite nth_map_seq by lia. f_equal. apply map_ext_in. intros j Hj.
    rewrite (Hnth fsd1); auto. apply (Hmem k); auto. lia.
  - apply Hover. intros j Hj. rewrite nth_map_seq by lia. auto.
Qed.

(** ** Inequalities, for arbitrary samples *)
Lemma fmean_abs : forall l a b, fmean l = Some a -> fmean (map fabs l) = Some b -> (Rabs a <= b)%R.
Proof.
  intros l a b Ha Hb. unfold fmean in Ha. destruct (all_some l) as [r|] eqn:E; [|discriminate]. injection Ha as <-.
  apply all_some_inv in E. subst l.
  assert (Q : fmean (map fabs (map Some r)) = Some (mean (map Rabs r))) by (rewrite map_map; apply fmean_of; auto).
  rewrite Q in Hb. injection Hb as <-.
  unfold mean. rewrite map_length. destruct r as [|x r]; [simpl; unfold Rdiv; rewrite Rmult_0_l, Rabs_R0; lra|].
  assert (H : (0 < INR (length (x :: r)))%R) by (apply INR_length_pos; discriminate).
  unfold Rdiv. rewrite Rabs_mult, (Rabs_right (/ _)) by (left; apply Rinv_0_lt_compat; auto).
  apply Rmult_le_compat_r; [left; apply Rinv_0_lt_compat; auto|apply Rsum_abs].
Qed.

Lemma fmean_some : forall l a, fmean l = Some a -> exists r, l = map Some r /\ a = mean r.
Proof.
  intros l a H. unfold fmean in H. destruct (all_some l) as [r|] eqn:E; [|discriminate]. injection H as <-.
  exists r. split; auto. apply all_some_inv; auto.
Qed.

Lemma mean_le_abs : forall l l', Forall2 (fun a b => (Rabs a <= b)%R) l l' -> (Rabs (mean l) <= mean l')%R.
Proof.
  intros l l' H. assert (HL : length l = length l') by (induction H; simpl; congruence).
  assert (HS : (Rabs (Rsum l) <= Rsum l')%R).
  { clear HL. induction H; simpl; [rewrite Rabs_R0; lra|]. pose proof (Rabs_triang x (Rsum l)). lra. }
  unfold mean. rewrite HL. destruct l' as [|y l'].
  - destruct l; [|discriminate]. simpl. unfold Rdiv. rewrite Rmult_0_l, Rabs_R0. lra.
  - assert (Hp : (0 < INR (length (y :: l')))%R) by (apply INR_length_pos; discriminate).
    unfold Rdiv. rewrite Rabs_mult, (Rabs_right (/ _)) by (left; apply Rinv_0_lt_compat; auto).
    apply Rmult_le_compat_r; auto. left. apply Rinv_0_lt_compat. auto.
Qed.

Lemma grouped_abs : forall (js : list nat) (f g : nat -> fval),
  (forall j a b, f j = Some a -> g j = Some b -> (Rabs a <= b)%R) ->
  forall a b, fmean (map f js) = Some a -> fmean (map g js) = Some b -> (Rabs a <= b)%R.
Proof.
  intros js f g H a b Ha Hb. apply fmean_some in Ha, Hb. destruct Ha as (r & Er & ->). destruct Hb as (q & Eq & ->).
  apply mean_le_abs. revert r q Er Eq. induction js as [|j js IH]; intros r q Er Eq.
  - destruct r; [|discriminate]. destruct q; [|discriminate]. constructor.
  - destruct r as [|x r]; [discriminate|]. destruct q as [|y q]; [discriminate|].
    simpl in Er, Eq. injection Er as E1 Er. injection Eq as E2 Eq. constructor; eauto.
Qed.

Lemma fsd1_nonneg : forall l s, fsd1 l = Some s -> (0 <= s)%R.
Proof.
  intros l s H. unfold fsd1 in H. destruct (all_some l); [|discriminate]. unfold sd1 in H.
  destruct (_ <? _); [discriminate|]. injection H as <-. apply sqrt_pos.
Qed.
Lemma fmean_nonneg : forall (js : list nat) (f : nat -> fval) a, (forall j x, f j = Some x -> (0 <= x)%R) ->
  fmean (map f js) = Some a -> (0 <= a)%R.
Proof.
  intros js f a H Ha. apply fmean_some in Ha. destruct Ha as (r & Er & ->). apply mean_nonneg.
  intros x Hx. apply (in_map Some) in Hx. rewrite <- Er in Hx. apply in_map_iff in Hx. destruct Hx as (j & E & _). eauto.
Qed.

Theorem measures_ordered : forall nq p X Y conf_level scaled levels resample out,
  snd (morris_analyze nq p X Y conf_level scaled levels resample) = Ok out ->
  forall k,
    (forall a b, nth_error (m_mu out) k = Some (Some a) -> nth_error (m_mu_star out) k = Some (Some b) -> (Rabs a <= b)%R) /\
    (forall b, nth_error (m_mu_star out) k = Some (Some b) -> (0 <= b)%R) /\
    (forall s, nth_error (m_sigma out) k = Some (Some s) -> (0 <= s)%R).
Proof.
  intros nq p X Y conf_level scaled levels resample out H k.
  unfold morris_analyze in H.
  destruct (define_problem_with_groups p) as [p1|e]; [|discriminate]. cbn [snd] in H.
  destruct (compute_delta levels) as [delta|e]; [|discriminate]. cbn [bind] in H.
  destruct (compute_groups_matrix _) as [[m names]|e]; [|discriminate]. cbn [bind] in H.
  destruct (_ =? 0); [discriminate|].
  destruct (elementary_effects _ _ _ _ _ _) as [EE|e]; [|discriminate]. cbn [bind] in H.
  destruct (mu_star_confidence _ _ _ _ _) as [conf|e]; [|discriminate]. cbn [bind] in H.
  destruct (negb _); [discriminate|]. injection H as <-. cbn [m_mu m_mu_star m_sigma].
  assert (Hg : forall (l : list fval) a, nth_error (grouped_metric l m (length names)) k = Some (Some a) ->
     fmean (map (fun j => nth j l None) (members m k)) = Some a).
  { intros l a Ha. unfold grouped_metric in Ha. rewrite nth_error_map_seq in Ha. destruct (k <? _); congruence. }
  assert (Hnone : forall (f : list fval -> fval) j x, nth j (map f EE) None = Some x ->
     exists e, nth_error EE j = Some e /\ f e = Some x).
  { intros f j x Hx. destruct (nth_error EE j) as [e|] eqn:Ee.
    - rewrite (nth_error_nth (map f EE) j None (x:=f e)) in Hx; [eauto|]. rewrite nth_error_map, Ee. auto.
    - rewrite nth_overflow in Hx; [discriminate|]. rewrite map_length. apply nth_error_None. auto. }
  split; [|split].
  - intros a b Ha Hb. apply Hg in Ha, Hb. eapply grouped_abs; [|exact Ha|exact Hb].
    intros j x y Hx Hy. apply Hnone in Hx. destruct Hx as (e & E1 & Hx).
    apply Hnone in Hy. destruct Hy as (e' & E2 & Hy). assert (e' = e) by congruence. subst e'. eapply fmean_abs; eauto.
  - intros b Hb. apply Hg in Hb. eapply fmean_nonneg; [|exact Hb]. intros j x Hx. apply Hnone in Hx.
    destruct Hx as (e & _ & Hx). apply fmean_some in Hx. destruct Hx as (r & Er & ->). apply mean_nonneg.
    intros x Hx. apply (in_map Some) in Hx. rewrite <- Er in Hx. apply in_map_iff in Hx. destruct Hx as (q & E & _).
    destruct q; [|discriminate]. injection E as <-. apply Rabs_pos.
  - intros s Hs. unfold grouped_sigma in Hs. rewrite nth_error_map_seq in Hs. destruct (k <? _) eqn:Ek; [|discriminate].
    apply Nat.ltb_lt in Ek. destruct (_ =? 1); [|discriminate]. injection Hs as Hs.
    unfold grouped_metric in Hs. rewrite nth_map_seq in Hs by auto. eapply fmean_nonneg; [|exact Hs].
    intros j x Hx. apply Hnone in Hx. destruct Hx as (e & _ & Hx). eapply fsd1_nonneg; eauto.
Qed.
