(** * Proofs: serial = parallel for varied resamples; confidence intervals. *)
From Coq Require Import Reals String List Arith ZArith Bool Lia Lra.
From Verif Require Import Base Arrays ModelGroups SpecGroups ProofsGroups ModelScale ProofsScale
  Stats ModelSobol SpecSobol ProofsSobol ProofsSobol2 ProofsSobol3 ProofsSobol4 ProofsSobol5 ProofsSobol6.
Import ListNotations.
Local Open Scope nat_scope.

Lemma In_gather : forall x r i v, In i (concat r) -> nth_error x i = Some v -> In v (concat (gather x r)).
Proof.
  intros x r i v Hi Hv. unfold gather. rewrite <- concat_map. apply in_map_iff. exists i. split; auto.
  apply nth_error_nth. auto.
Qed.

Lemma norm_inj : forall mu sigma x y, sigma <> 0%R -> ((x - mu) / sigma = (y - mu) / sigma)%R -> x = y.
Proof.
  intros mu sigma x y Hs E. assert (E' : (x - mu = y - mu)%R).
  { apply (Rmult_eq_reg_r (/ sigma)%R); [exact E|]. apply Rinv_neq_0_compat; auto. }
  lra.
Qed.

Lemma drawn_var_diff : forall mu sigma Y D N second A B AB BA r,
  sigma <> 0%R -> length Y = N * block_size D second ->
  separate_output_values (map (fun y => (y - mu) / sigma)%R Y) D N second = Ok (A, B, AB, BA) ->
  drawn_varied Y D second r -> var_diff A B r <> 0%R.
Proof.
  intros mu sigma Y D N second A B AB BA r Hs HL HE (i & i' & x & y & Hi & Hi' & Hxy & Hx & Hy).
  pose proof (block_size_pos D second) as Hbs.
  destruct (separate_ok R (map (fun y => (y - mu) / sigma)%R Y) D N second) as
    (A' & B' & AB' & BA' & Esep & LA & LB & _ & _ & _ & _ & RA & RB & _).
  { rewrite map_length. auto. }
  rewrite HE in Esep. injection Esep as <- <- <- <-.
  set (g := fun y => ((y - mu) / sigma)%R) in *.
  assert (Q : forall i x, In i (concat r) ->
    (nth_error Y (i * block_size D second) = Some x \/
     nth_error Y (i * block_size D second + (block_size D second - 1)) = Some x) ->
    In (g x) (concat (gather A r) ++ concat (gather B r))).
  { intros j z Hj [Hz|Hz]; apply in_or_app; [left|right].
    - assert (j < N) by (apply nth_error_Some_lt in Hz; nia).
      apply (In_gather A r j); auto. rewrite RA by auto. rewrite nth_error_map', Hz. reflexivity.
    - assert (j < N) by (apply nth_error_Some_lt in Hz; nia).
      apply (In_gather B r j); auto. rewrite RB by auto. rewrite nth_error_map', Hz. reflexivity. }
  unfold var_diff. intros E.
  assert (Hne : concat (gather A r) ++ concat (gather B r) <> []).
  { intros E0. specialize (Q i x Hi Hx). rewrite E0 in Q. destruct Q. }
  apply Hxy. apply (norm_inj mu sigma); auto.
  apply (proj1 (ptp_zero_iff _ Hne) E); apply Q with (1 := Hi) (2 := Hx) || apply Q with (1 := Hi') (2 := Hy).
Qed.

Lemma parallel_equals_serial : forall mu sigma Zq resample cpus p Y second conf keep np,
  let D := snd (extract_group_names p) in
  np <> Some 0 -> (np = None -> 0 < cpus) -> 0 < D ->
  drawn_varied Y D second (resample (length Y / block_size D second)) ->
  (forall e, analyze_with mu sigma Zq resample cpus p Y second conf keep None = Err e <->
             analyze_with mu sigma Zq resample cpus p Y second conf keep (Some np) = Err e) /\
  (forall s s', analyze_with mu sigma Zq resample cpus p Y second conf keep None = Ok s ->
     analyze_with mu sigma Zq resample cpus p Y second conf keep (Some np) = Ok s' ->
     same_tables s s').
Proof.
  intros mu sigma Zq resample cpus p Y second conf keep np D H1 H2 HD HV. split.
  - apply analyze_errs; auto.
  - intros s s' Hs Hs'. apply (parallel_same mu sigma Zq resample cpus p Y second conf keep np s s'); auto.
    intros N A B AB BA HL HE Hsig. eapply drawn_var_diff; eauto.
    assert (E : length Y / block_size D second = N).
    { fold D in HL. rewrite HL, Nat.div_mul; auto. pose proof (block_size_pos D second). lia. }
    rewrite <- E. auto.
Qed.

(** ** Order of the workers *)
(** Any grouping and order of the finished tasks that covers each task once or more gives the same
    table as the parallel run. *)
Lemma any_schedule : forall Z A B AB BA r D second n keep np cpus s (S_list : list (list (task * fval))) tasks,
  length AB = D -> (second = true -> exists ba, BA = Some ba /\ length ba = D) ->
  parallel Z A B AB BA r D n keep second np cpus = Ok s ->
  create_task_list D second np cpus = Ok tasks ->
  (forall t v, In (t, v) (concat S_list) <-> In (t, v) (concat (map (map (fun t => (t, par_value Z A B AB BA r t))) tasks))) ->
  exists s', Si_list_to_dict S_list D n keep second = Ok s' /\ same_tables s s'.
Proof.
  intros Z A B AB BA r D second n keep np cpus s S_list tasks HAB HBA HP HT HS.
  destruct (parallel_inv _ _ _ _ _ _ _ _ _ _ _ _ _ HAB HBA HP) as (P1 & P2 & P3).
  assert (HIn : forall t v, In (t, v) (concat S_list) <-> In t (all_tasks D second) /\ v = par_value Z A B AB BA r t).
  { intros t v. rewrite HS, <- concat_map, in_map_iff. split.
    - intros (t' & E & Ht). injection E as <- <-. split; auto. eapply task_list_ok; eauto.
    - intros [Ht ->]. exists t. split; auto. eapply task_list_ok; eauto. }
  destruct (collect_covers Z A B AB BA r D second S_list n keep) as (s' & E & Hsh & Hc & Hk).
  - intros t v Htv. apply HIn in Htv. tauto.
  - intros t. rewrite in_map_iff. split.
    + intros ([t' v] & <- & Hin). apply HIn in Hin. tauto.
    + intros Ht. exists (t, par_value Z A B AB BA r t). split; auto. apply HIn. auto.
  - exists s'. split; auto. apply (Si_ext D second); auto. intros t.
    destruct (in_dec task_eq_dec t (all_tasks D second)) as [Hi|Hn].
    + rewrite (proj1 (P2 t) Hi), (proj1 (Hc t) Hi). reflexivity.
    + rewrite (proj2 (P2 t) Hn), (proj2 (Hc t) Hn). reflexivity.
Qed.

(** ** Numeric indices and confidence intervals *)
Lemma indices_numeric : forall mu sigma Zq resample cpus p Y second conf keep workers s,
  sigma <> 0%R ->
  analyze_with mu sigma Zq resample cpus p Y second conf keep workers = Ok s ->
  length (S1 s) = snd (extract_group_names p) /\ length (ST s) = snd (extract_group_names p) /\
  (forall x, In x (S1 s) \/ In x (ST s) -> exists v, x = Some v).
Proof.
  intros mu sigma Zq resample cpus p Y second conf keep workers s Hsig HA.
  destruct (analyze_inv _ _ _ _ _ _ _ _ _ _ _ _ Hsig HA) as
    (N & A & B & AB & BA & HYl & HN & HR & Es & LA & LB & LAB & FAB & HBA & Hsh & Hcov & _ & _).
  set (D := snd (extract_group_names p)) in *.
  destruct Hsh as (L1 & _ & LT & _). split; auto. split; auto.
  assert (Hne : 0 < D -> A <> []) by (intros HD ->; specialize (HN HD); simpl in LA; lia).
  intros x [Hx|Hx]; apply in_nth_error in Hx; destruct Hx as [k Hk].
  - assert (k < D) by (rewrite <- L1; eapply nth_error_Some_lt; eauto).
    change (nth_error (S1 s) k) with (read s (kS1, k, None)) in Hk.
    rewrite (proj1 (Hcov _)) in Hk by (apply in_first_tasks; simpl; auto). injection Hk as <-.
    destruct (first_order_numeric A (nth k AB []) B (Hne (Nat.le_lt_trans _ _ _ (Nat.le_0_l k) H))) as [v Hv].
    exists v. destruct workers; exact Hv.
  - assert (k < D) by (rewrite <- LT; eapply nth_error_Some_lt; eauto).
    change (nth_error (ST s) k) with (read s (kST, k, None)) in Hk.
    rewrite (proj1 (Hcov _)) in Hk by (apply in_first_tasks; simpl; auto). injection Hk as <-.
    destruct (total_order_numeric A (nth k AB []) B (Hne (Nat.le_lt_trans _ _ _ (Nat.le_0_l k) H))) as [v Hv].
    exists v. destruct workers; exact Hv.
Qed.

Lemma all_some_ok : forall l, (forall x, In x l -> exists v, x = Some v) -> exists xs, all_some l = Some xs /\ length xs = length l.
Proof.
  induction l as [|x l IH]; simpl; intros H; [eauto|].
  destruct (H x) as [v ->]; auto. destruct IH as (xs & -> & HL); [auto|]. exists (v :: xs). simpl; auto.
Qed.

Lemma sd1_some : forall xs, 2 <= length xs -> exists v, sd1 xs = Some v /\ (0 <= v)%R.
Proof.
  intros xs H. unfold sd1. destruct (Nat.ltb_spec (length xs) 2); [lia|]. eexists. split; [reflexivity|]. apply sqrt_pos.
Qed.

Lemma confidence_numeric : forall Z l, (0 <= Z)%R -> 2 <= length l -> (forall x, In x l -> exists v, x = Some v) ->
  exists v, confidence Z (Columns l) = Some v /\ (0 <= v)%R.
Proof.
  intros Z l HZ Hl H. unfold confidence, est_std. destruct (all_some_ok l H) as (xs & -> & HL).
  destruct (sd1_some xs) as (v & -> & Hv); [lia|]. simpl. eexists. split; [reflexivity|]. apply Rmult_le_pos; auto.
Qed.

Lemma map3_length : forall X Y Z W (f : X -> Y -> Z -> W) n a b c, length a = n -> length b = n -> length c = n ->
  length (map3 f a b c) = n.
Proof. induction n; destruct a, b, c; simpl; intros; try discriminate; auto. Qed.

Lemma map3_gather : forall W (f : list R -> list R -> list R -> W) x y z r w,
  In w (map3 f (gather x r) (gather y r) (gather z r)) ->
  exists idx, In idx r /\ w = f (map (fun i => nth i x 0%R) idx) (map (fun i => nth i y 0%R) idx) (map (fun i => nth i z 0%R) idx).
Proof.
  intros W f x y z. induction r as [|idx r IH]; simpl; intros w H; [tauto|].
  destruct H as [<-|H]; [eauto|]. destruct (IH w H) as (i & Hi & E). eauto.
Qed.

(** Each resample draws two differing outputs of type A or B. *)
Lemma conf_numeric : forall mu sigma Zq resample cpus p Y second conf keep workers s,
  let D := snd (extract_group_names p) in
  let r := resample (length Y / block_size D second) in
  sigma <> 0%R -> (0 <= Zq conf)%R -> 2 <= length r ->
  (forall idx, In idx r -> drawn_varied Y D second [idx]) ->
  analyze_with mu sigma Zq resample cpus p Y second conf keep workers = Ok s ->
  forall x, In x (S1_conf s) \/ In x (ST_conf s) -> exists v, x = Some v /\ (0 <= v)%R.
Proof.
  intros mu sigma Zq resample cpus p Y second conf keep workers s D r Hsig HZ Hr HV HA.
  destruct (analyze_inv _ _ _ _ _ _ _ _ _ _ _ _ Hsig HA) as
    (N & A & B & AB & BA & HYl & HN & HR & Es & LA & LB & LAB & FAB & HBA & Hsh & Hcov & _ & _).
  fold D in HYl, HN, HR, Es, LAB, HBA, Hsh, Hcov.
  assert (EN : length Y / block_size D second = N).
  { rewrite HYl, Nat.div_mul; auto. pose proof (block_size_pos D second). lia. }
  unfold r in *. rewrite EN in *. clear r. set (r := resample N) in *.
  assert (Hcol : forall idx, In idx r ->
    var (map (fun i => nth i A 0%R) idx ++ map (fun i => nth i B 0%R) idx) <> 0%R).
  { intros idx Hidx E. apply (drawn_var_diff mu sigma Y D N second A B AB BA [idx]); auto.
    unfold var_diff, gather. simpl. rewrite !app_nil_r. apply ptp_var; auto.
    intros E0. apply app_eq_nil in E0. destruct E0 as [E0 _]. apply map_eq_nil in E0. subst idx.
    destruct (HV [] Hidx) as (i & _ & _ & _ & Hi & _). destruct Hi. }
  assert (Hvd : var_diff A B r <> 0%R).
  { destruct r as [|idx r'] eqn:Er; [simpl in Hr; lia|].
    apply (drawn_var_diff mu sigma Y D N second A B AB BA); auto.
    destruct (HV idx) as (i & i' & x & y & Hi & Hi' & Hrest); [simpl; auto|].
    simpl in Hi, Hi'. rewrite app_nil_r in Hi, Hi'. exists i, i', x, y.
    simpl. split; [apply in_or_app; auto|]. split; [apply in_or_app; auto|]. auto. }
  assert (Hvd' : Reqb (ptp (concat (gather A r) ++ concat (gather B r))) 0 = false) by (apply Reqb_false; exact Hvd).
  assert (C1 : forall ab, exists v, confidence (Zq conf) (first_order2 (gather A r) (gather ab r) (gather B r)) = Some v /\ (0 <= v)%R).
  { intros ab. unfold first_order2. rewrite Hvd'. apply confidence_numeric; auto.
    - rewrite (map3_length _ _ _ _ _ (length r)); auto; unfold gather; apply map_length.
    - intros x Hx. apply map3_gather in Hx. destruct Hx as (idx & Hidx & ->). unfold first_col, fdiv.
      rewrite (proj2 (Reqb_false _ _) (Hcol idx Hidx)). eauto. }
  assert (CT : forall ab, exists v, confidence (Zq conf) (total_order2 (gather A r) (gather ab r) (gather B r)) = Some v /\ (0 <= v)%R).
  { intros ab. unfold total_order2. rewrite Hvd'. apply confidence_numeric; auto.
    - rewrite (map3_length _ _ _ _ _ (length r)); auto; unfold gather; apply map_length.
    - intros x Hx. apply map3_gather in Hx. destruct Hx as (idx & Hidx & ->). unfold total_col, fdiv.
      rewrite (proj2 (Reqb_false _ _) (Hcol idx Hidx)). eauto. }
  destruct Hsh as (_ & L1 & _ & LT & _).
  intros x [Hx|Hx]; apply in_nth_error in Hx; destruct Hx as [k Hk].
  - assert (k < D) by (rewrite <- L1; eapply nth_error_Some_lt; eauto).
    change (nth_error (S1_conf s) k) with (read s (kS1c, k, None)) in Hk.
    rewrite (proj1 (Hcov _)) in Hk by (apply in_first_tasks; simpl; auto). injection Hk as <-.
    destruct (C1 (nth k AB [])) as (v & Hv & H0). exists v. split; auto.
    destruct workers; [exact Hv|]. unfold ser_value.
    rewrite (proj2 (Reqb_false _ _) Hvd). exact Hv.
  - assert (k < D) by (rewrite <- LT; eapply nth_error_Some_lt; eauto).
    change (nth_error (ST_conf s) k) with (read s (kSTc, k, None)) in Hk.
    rewrite (proj1 (Hcov _)) in Hk by (apply in_first_tasks; simpl; auto). injection Hk as <-.
    destruct (CT (nth k AB [])) as (v & Hv & H0). exists v. split; auto.
    destruct workers; [exact Hv|]. unfold ser_value.
    rewrite (proj2 (Reqb_false _ _) Hvd). exact Hv.
Qed.

(** ** Resamples that draw only equal outputs *)
Lemma gather_out : forall mu sigma Y D N second (x : list R) o r,
  x = norml mu sigma (map (fun i => out Y D second i o) (seq 0 N)) ->
  Forall (Forall (fun i => i < N)) r ->
  forall v, In v (concat (gather x r)) -> exists i, In i (concat r) /\ v = ((out Y D second i o - mu) / sigma)%R.
Proof.
  intros mu sigma Y D N second x o r -> HF v Hv. unfold gather in Hv. rewrite <- concat_map in Hv.
  apply in_map_iff in Hv. destruct Hv as (i & <- & Hi). exists i. split; auto.
  assert (Hlt : i < N).
  { apply in_concat in Hi. destruct Hi as (idx & Hidx & Hi). rewrite Forall_forall in HF.
    specialize (HF idx Hidx). rewrite Forall_forall in HF. auto. }
  apply nth_error_nth. unfold norml. rewrite !nth_error_map', nth_error_seq.
  destruct (Nat.ltb_spec i N); [reflexivity|lia].
Qed.

Lemma constant_resamples : forall mu sigma Zq resample cpus p Y second conf keep np s s',
  let D := snd (extract_group_names p) in
  let r := resample (length Y / block_size D second) in
  sigma <> 0%R -> Forall (Forall (fun i => i < length Y / block_size D second)) r ->
  drawn_constant Y D second (concat r) ->
  analyze_with mu sigma Zq resample cpus p Y second conf keep None = Ok s ->
  analyze_with mu sigma Zq resample cpus p Y second conf keep (Some np) = Ok s' ->
  forall k, k < D ->
    nth_error (S1_conf s) k = Some (Some 0%R) /\ nth_error (ST_conf s) k = Some (Some 0%R) /\
    nth_error (S1_conf s') k = Some None /\ nth_error (ST_conf s') k = Some None.
Proof.
  intros mu sigma Zq resample cpus p Y second conf keep np s s' D r Hsig HF HC HA HA' k Hk.
  destruct (analyze_inv _ _ _ _ _ _ _ _ _ _ _ _ Hsig HA) as
    (N & A & B & AB & BA & HYl & HN & HR & Es & LA & LB & LAB & FAB & HBA & Hsh & Hcov & _ & _).
  destruct (analyze_inv _ _ _ _ _ _ _ _ _ _ _ _ Hsig HA') as
    (N' & A' & B' & AB' & BA' & HYl' & _ & _ & Es' & _ & _ & _ & _ & _ & Hsh' & Hcov' & _ & _).
  fold D in HYl, HN, HR, Es, LAB, HBA, Hsh, Hcov, HYl', Es', Hsh', Hcov'.
  pose proof (block_size_pos D second) as Hbs.
  assert (N' = N) by nia. subst N'. rewrite Es in Es'. injection Es' as <- <- <- <-.
  assert (EN : length Y / block_size D second = N) by (rewrite HYl, Nat.div_mul; lia).
  unfold r in *. rewrite EN in *. clear r. set (r := resample N) in *.
  destruct (sep_norml _ _ _ _ _ _ _ _ _ _ HYl Es) as (EA & EB & _ & _).
  destruct HC as [c Hc].
  assert (Ev : ptp (concat (gather A r) ++ concat (gather B r)) = 0%R).
  { apply (ptp_const _ ((c - mu) / sigma)%R). intros v Hv. apply in_app_or in Hv.
    destruct Hv as [Hv|Hv].
    - destruct (gather_out _ _ _ _ _ _ _ _ _ EA HF v Hv) as (i & Hi & ->). rewrite (proj1 (Hc i Hi)). auto.
    - destruct (gather_out _ _ _ _ _ _ _ _ _ EB HF v Hv) as (i & Hi & ->). rewrite (proj2 (Hc i Hi)). auto. }
  assert (Ev' : Reqb (var_diff A B r) 0 = true) by (apply Reqb_true; exact Ev).
  change (nth_error (S1_conf s) k) with (read s (kS1c, k, None)).
  change (nth_error (ST_conf s) k) with (read s (kSTc, k, None)).
  change (nth_error (S1_conf s') k) with (read s' (kS1c, k, None)).
  change (nth_error (ST_conf s') k) with (read s' (kSTc, k, None)).
  rewrite !(proj1 (Hcov _)) by (apply in_first_tasks; simpl; auto).
  rewrite !(proj1 (Hcov' _)) by (apply in_first_tasks; simpl; auto).
  unfold ser_value. rewrite Ev'. split; [reflexivity|]. split; [reflexivity|].
  unfold par_value, first_order2, total_order2. rewrite Ev, Reqb_refl0. split; reflexivity.
Qed.

Lemma parallel_kept_zero : forall mu sigma Zq resample cpus p Y second conf np s',
  let D := snd (extract_group_names p) in
  let r := resample (length Y / block_size D second) in
  sigma <> 0%R ->
  analyze_with mu sigma Zq resample cpus p Y second conf true (Some np) = Ok s' ->
  S1_conf_all s' = Some (repeat (repeat (Some 0%R) (length r)) D) /\
  ST_conf_all s' = Some (repeat (repeat (Some 0%R) (length r)) D).
Proof.
  intros mu sigma Zq resample cpus p Y second conf np s' D r Hsig HA.
  destruct (analyze_inv _ _ _ _ _ _ _ _ _ _ _ _ Hsig HA) as
    (N & A & B & AB & BA & HYl & HN & HR & Es & LA & LB & LAB & FAB & HBA & Hsh & Hcov & Hk & _).
  fold D in HYl, Hk. pose proof (block_size_pos D second) as Hbs.
  assert (EN : length Y / block_size D second = N) by (rewrite HYl, Nat.div_mul; lia).
  unfold r. rewrite EN. destruct Hk as [H1 H2]; [congruence|]. auto.
Qed.

Lemma all_some_None : forall l, In None l -> all_some l = None.
Proof.
  induction l as [|[x|] l IH]; simpl; intros H; auto; [tauto|].
  destruct H as [H|H]; [discriminate|]. rewrite IH; auto.
Qed.
Lemma map3_gather_In : forall W (f : list R -> list R -> list R -> W) x y z r idx, In idx r ->
  In (f (map (fun i => nth i x 0%R) idx) (map (fun i => nth i y 0%R) idx) (map (fun i => nth i z 0%R) idx))
     (map3 f (gather x r) (gather y r) (gather z r)).
Proof.
  intros W f x y z. induction r as [|i r IH]; simpl; intros idx [].
  - subst. auto.
  - right. apply IH. auto.
Qed.

Lemma one_constant_resample : forall mu sigma Zq resample cpus p Y second conf keep workers s idx,
  let D := snd (extract_group_names p) in
  let r := resample (length Y / block_size D second) in
  sigma <> 0%R -> Forall (Forall (fun i => i < length Y / block_size D second)) r ->
  drawn_varied Y D second r -> In idx r -> idx <> [] -> drawn_constant Y D second idx ->
  analyze_with mu sigma Zq resample cpus p Y second conf keep workers = Ok s ->
  forall k, k < D -> nth_error (S1_conf s) k = Some None /\ nth_error (ST_conf s) k = Some None.
Proof.
  intros mu sigma Zq resample cpus p Y second conf keep workers s idx D r Hsig HF HV Hidx Hne HC HA k Hk.
  destruct (analyze_inv _ _ _ _ _ _ _ _ _ _ _ _ Hsig HA) as
    (N & A & B & AB & BA & HYl & HN & HR & Es & LA & LB & LAB & FAB & HBA & Hsh & Hcov & _ & _).
  fold D in HYl, HN, HR, Es, LAB, HBA, Hsh, Hcov.
  pose proof (block_size_pos D second) as Hbs.
  assert (EN : length Y / block_size D second = N) by (rewrite HYl, Nat.div_mul; lia).
  unfold r in *. rewrite EN in *. clear r. set (r := resample N) in *.
  destruct (sep_norml _ _ _ _ _ _ _ _ _ _ HYl Es) as (EA & EB & _ & _).
  assert (Hvd : Reqb (ptp (concat (gather A r) ++ concat (gather B r))) 0 = false).
  { apply Reqb_false. eapply drawn_var_diff; eauto. }
  assert (Hvd' : Reqb (var_diff A B r) 0 = false) by exact Hvd.
  assert (HFi : Forall (Forall (fun i => i < N)) [idx]).
  { constructor; auto. rewrite Forall_forall in HF. auto. }
  destruct HC as [c Hc].
  assert (Hv0 : var (map (fun i => nth i A 0%R) idx ++ map (fun i => nth i B 0%R) idx) = 0%R).
  { apply var_zero_iff; [destruct idx; simpl; congruence|].
    assert (Q : forall v, In v (map (fun i => nth i A 0%R) idx ++ map (fun i => nth i B 0%R) idx) ->
              v = ((c - mu) / sigma)%R).
    { intros v Hv. apply in_app_or in Hv. destruct Hv as [Hv|Hv].
      - destruct (gather_out _ _ _ _ _ _ _ _ [idx] EA HFi v) as (i & Hi & ->).
        { simpl. rewrite app_nil_r. auto. }
        simpl in Hi. rewrite app_nil_r in Hi. rewrite (proj1 (Hc i Hi)). auto.
      - destruct (gather_out _ _ _ _ _ _ _ _ [idx] EB HFi v) as (i & Hi & ->).
        { simpl. rewrite app_nil_r. auto. }
        simpl in Hi. rewrite app_nil_r in Hi. rewrite (proj2 (Hc i Hi)). auto. }
    intros x y Hx Hy. rewrite (Q x Hx), (Q y Hy). auto. }
  assert (C1 : forall ab, confidence (Zq conf) (first_order2 (gather A r) (gather ab r) (gather B r)) = None).
  { intros ab. unfold first_order2. rewrite Hvd. unfold confidence, est_std. rewrite all_some_None; auto.
    replace None with (first_col (map (fun i => nth i A 0%R) idx) (map (fun i => nth i ab 0%R) idx) (map (fun i => nth i B 0%R) idx)).
    - apply map3_gather_In. auto.
    - unfold first_col, fdiv. rewrite Hv0, Reqb_refl0. reflexivity. }
  assert (CT : forall ab, confidence (Zq conf) (total_order2 (gather A r) (gather ab r) (gather B r)) = None).
  { intros ab. unfold total_order2. rewrite Hvd. unfold confidence, est_std. rewrite all_some_None; auto.
    replace None with (total_col (map (fun i => nth i A 0%R) idx) (map (fun i => nth i ab 0%R) idx) (map (fun i => nth i B 0%R) idx)).
    - apply map3_gather_In. auto.
    - unfold total_col, fdiv. rewrite Hv0, Reqb_refl0. reflexivity. }
  change (nth_error (S1_conf s) k) with (read s (kS1c, k, None)).
  change (nth_error (ST_conf s) k) with (read s (kSTc, k, None)).
  rewrite !(proj1 (Hcov _)) by (apply in_first_tasks; simpl; auto).
  destruct workers; unfold ser_value; rewrite ?Hvd'; unfold par_value; rewrite C1, CT; auto.
Qed.

(** Witness that serial and parallel runs keep different resamples. *)
Lemma serial_kept_nonzero : forall Zq cpus s,
  let p := mkProblem 1 ["x"%string] [[0; 1]%R] None None false in
  analyze Zq (fun _ => [[0]; [0]]) cpus p [0; 1; 3]%R false (1/2) true None = Ok s ->
  S1_conf_all s <> Some (repeat (repeat (Some 0%R) 2) 1).
Proof.
  intros Zq cpus s p HA. unfold analyze in HA.
  assert (Hsig : sd [0; 1; 3]%R <> 0%R).
  { intros E. assert (Q : (0 = 1)%R); [|lra].
    apply (proj1 (sd_zero_iff [0; 1; 3]%R ltac:(congruence)) E); simpl; auto. }
  assert (Hmu : mean [0; 1; 3]%R = (4/3)%R) by (unfold mean; simpl; field).
  rewrite Hmu in HA. set (sg := sd [0; 1; 3]%R) in *.
  destruct (analyze_inv _ _ _ _ _ _ _ _ _ _ _ _ Hsig HA) as
    (N & A & B & AB & BA & HYl & HN & HR & Es & LA & LB & LAB & FAB & HBA & Hsh & Hcov & _ & Hsk).
  change (snd (extract_group_names p)) with 1 in *. unfold block_size in HYl. cbn [length] in HYl.
  assert (EN : 1 = N) by lia. destruct EN.
  unfold separate_output_values, slice_step in Es. simpl in Es. injection Es as <- <- <- <-.
  destruct (Hsk eq_refl) as [_ K]. destruct (K eq_refl) as (m1 & mT & E1 & _ & L1 & _ & Hj).
  rewrite E1. intros E. injection E as ->. destruct (Hj 0) as [H0 _]; [lia|]. simpl in H0. injection H0 as H0.
  unfold est1, first_order2 in H0. simpl in H0.
  assert (Hp : Reqb (ptp [((0 - 4 / 3) / sg)%R; ((0 - 4 / 3) / sg)%R; ((3 - 4 / 3) / sg)%R; ((3 - 4 / 3) / sg)%R]) 0 = false).
  { apply Reqb_false. intros E. assert (Q : (0 = 3)%R); [|lra]. apply (norm_inj (4/3) sg); auto.
    refine (proj1 (ptp_zero_iff _ _) E _ _ _ _); [congruence|simpl; auto|simpl; auto]. }
  rewrite Hp in H0. simpl in H0. unfold first_col, fdiv in H0.
  match type of H0 with context[Reqb ?v 0] => destruct (Reqb v 0) eqn:Ev end; [discriminate|].
  apply Reqb_false in Ev. injection H0 as H0 _. revert H0.
  match goal with |- (0 = ?n / ?v)%R -> _ => set (vv := v) in *; assert (Hn : (n <> 0)%R) end.
  { unfold mean. simpl. intros E.
    assert (E' : ((5/3) / (sg * sg) = 0)%R) by (rewrite <- E; field; auto).
    assert (/ (sg * sg) <> 0)%R by (apply Rinv_neq_0_compat; nra). nra. }
  intros E. apply Hn. apply (Rmult_eq_reg_r (/ vv)%R); [|apply Rinv_neq_0_compat; auto].
  rewrite Rmult_0_l. symmetry. exact E.
Qed.

Lemma any_order : forall Z A B AB BA r D second n keep np cpus s tasks S_list S_list',
  length AB = D -> (second = true -> exists ba, BA = Some ba /\ length ba = D) ->
  create_task_list D second np cpus = Ok tasks ->
  mapM (sobol_parallel Z A B AB BA r) tasks = Ok S_list ->
  Si_list_to_dict S_list D n keep second = Ok s ->
  (forall tv, In tv (concat S_list') <-> In tv (concat S_list)) ->
  exists s', Si_list_to_dict S_list' D n keep second = Ok s' /\ same_tables s s'.
Proof.
  intros Z A B AB BA r D second n keep np cpus s tasks S_list S_list' HAB HBA HT HM HS HI.
  eapply (any_schedule Z A B AB BA r D second n keep np cpus s S_list' tasks); auto.
  - unfold parallel. rewrite HT. cbn [bind]. rewrite HM. cbn [bind]. auto.
  - assert (E : mapM (sobol_parallel Z A B AB BA r) tasks
              = Ok (map (map (fun t => (t, par_value Z A B AB BA r t))) tasks)).
    { rewrite <- mapM_Ok_map. apply mapM_ext. intros x Hx.
      eapply sobol_parallel_ok; eauto.
      intros t Ht. apply all_tasks_valid. eapply task_list_ok; eauto. apply in_concat. eauto. }
    rewrite E in HM. injection HM as <-. intros t v. apply HI.
Qed.

Lemma single_group_length : forall zero (base : list (list R)) N p second rows g x l,
  p_groups p = Some (x :: l) -> (forall y, In y (x :: l) -> y = g) ->
  labelled p -> proper_base base (seq 0 N) p ->
  cross_sample zero base (seq 0 N) p second = Ok rows ->
  length rows = N * block_size (p_num_vars p) second /\ snd (extract_group_names p) = 1.
Proof.
  intros zero base N p second rows g x l E H HL HB HE.
  destruct (single_group_sampler p g x l E H) as [S1 S2]. rewrite S2. split; auto.
  destruct (cross_sample_layout zero base (seq 0 N) p second HL HB) as (rs & G & E' & HG & HLen & _).
  rewrite HE in E'. injection E' as <-. rewrite seq_length in HLen.
  destruct (sampler_groups_ok p) as (G' & n' & E2 & HG' & _). rewrite S1 in E2. injection E2 as <- <-.
  rewrite (group_count_fun _ _ _ HG HG') in HLen. auto.
Qed.

Lemma constant_nan : forall Zq resample cpus p Y c second conf keep workers s,
  (forall y, In y Y -> y = c) -> Y <> [] ->
  analyze Zq resample cpus p Y second conf keep workers = Ok s ->
  forall k, k < snd (extract_group_names p) ->
    nth_error (S1 s) k = Some None /\ nth_error (ST s) k = Some None /\
    nth_error (S1_conf s) k = Some None /\ nth_error (ST_conf s) k = Some None.
Proof.
  intros Zq resample cpus p Y c second conf keep workers s HY Hne HA k Hk.
  unfold analyze in HA. rewrite (proj2 (sd_zero_iff Y Hne)) in HA.
  - apply analyze_nan in HA. subst s. unfold all_nan. cbn [S1 ST S1_conf ST_conf].
    rewrite !nth_error_repeat, (proj2 (Nat.ltb_lt _ _) Hk). auto.
  - intros x y Hx Hy. rewrite (HY x Hx), (HY y Hy). auto.
Qed.

Lemma second_report : forall mu sigma Zq resample cpus p Y conf keep workers s,
  sigma <> 0%R -> 2 <= snd (extract_group_names p) ->
  analyze_with mu sigma Zq resample cpus p Y true conf keep workers = Ok s ->
  exists idx v vc, second_frame p s = Ok (Some (idx, v, vc)) /\
    NoDup idx /\ length v = length idx /\ length vc = length idx /\
    (forall a b, In (a, b) idx <-> exists j k, j < k /\
       nth_error (fst (extract_group_names p)) j = Some a /\
       nth_error (fst (extract_group_names p)) k = Some b) /\
    (forall q a b j k, nth_error idx q = Some (a, b) ->
       nth_error (fst (extract_group_names p)) j = Some a ->
       nth_error (fst (extract_group_names p)) k = Some b ->
       exists m mc, S2 s = Some m /\ S2_conf s = Some mc /\
         nth_error v q = entry m j k /\ nth_error vc q = entry mc j k).
Proof.
  intros mu sigma Zq resample cpus p Y conf keep workers s Hsig H2 HA.
  destruct (analyze_inv _ _ _ _ _ _ _ _ _ _ _ _ Hsig HA) as
    (N & A & B & AB & BA & HYl & HN & HR & Es & LA & LB & LAB & FAB & HBA & Hsh & _).
  destruct Hsh as (_ & _ & _ & _ & Q1 & Q2).
  destruct (S2 s) as [m|] eqn:E1; [|discriminate]. destruct (S2_conf s) as [mc|] eqn:E2; [|discriminate].
  destruct (second_frame_ok p s _ m mc eq_refl H2 E1 E2) as (idx & v & vc & Z1 & Z2 & Z3 & Z4 & Z5 & Z6); auto.
  exists idx, v, vc. split; auto. split; auto. split; auto. split; auto. split; auto.
  intros q a b j k Hq Hj Hk. exists m, mc. destruct (Z6 q a b j k Hq Hj Hk). auto.
Qed.

Lemma second_report_single : forall mu sigma Zq resample cpus p Y conf keep workers s,
  sigma <> 0%R -> snd (extract_group_names p) = 1 ->
  analyze_with mu sigma Zq resample cpus p Y true conf keep workers = Ok s ->
  second_frame p s = Err IndexError.
Proof.
  intros mu sigma Zq resample cpus p Y conf keep workers s Hsig H1 HA.
  destruct (analyze_inv _ _ _ _ _ _ _ _ _ _ _ _ Hsig HA) as
    (N & A & B & AB & BA & HYl & HN & HR & Es & LA & LB & LAB & FAB & HBA & Hsh & _).
  destruct Hsh as (_ & _ & _ & _ & Q1 & Q2).
  unfold second_frame.
  destruct (S2 s) as [m|] eqn:E1; [|discriminate]. destruct (S2_conf s) as [mc|] eqn:E2; [|discriminate].
  rewrite extract_group_names_eq in *. simpl fst. simpl snd in H1.
  destruct (pd_unique (group_source p)) as [|x [|y l]]; simpl in H1; try lia. reflexivity.
Qed.
