(** * Delta: the size of the subsets, the step mode, and where points are missing. *)
From Coq Require Import Reals String List Arith ZArith Bool Lia Lra Permutation Sorted.
From Verif Require Import Base Arrays ListFacts ModelScale ProofsScale Stats Quant SpecRsa ProofsRsa ModelDelta SpecDelta ProofsDelta ProofsDelta2.
Import ListNotations.
Local Open Scope nat_scope.

(** ** Totals *)
Lemma linspace_top : forall a b n, 2 <= n -> (a < b)%R -> (nth (length (linspace a b n) - 2) (linspace a b n) 0 < b)%R.
Proof.
  intros a b n Hn Hab. rewrite linspace_length, linspace_nth by lia.
  assert (E : (INR (n - 2) = INR (n - 1) - 1)%R) by (replace (n - 1) with (S (n - 2)) by lia; rewrite S_INR; ring). rewrite E.
  assert (0 < INR (n - 1))%R by (apply lt_0_INR; lia).
  replace (a + (INR (n - 1) - 1) * ((b - a) / INR (n - 1)))%R with (b - (b - a) / INR (n - 1))%R by (field; lra).
  assert (0 < (b - a) / INR (n - 1))%R by (apply Rdiv_lt_0_compat; lra). lra.
Qed.
Lemma edges_top : forall X spec edges n, X <> [] -> ~ constant X -> (forall z, spec = Some (BInt z) -> (1 <= z)%Z) ->
  (forall l, spec = Some (BList l) -> ~ In (maxl X) l) ->
  check_bininfo spec (minl X) (maxl X) = Ok (edges, n) -> (nth (length edges - 2) edges 0 < maxl X)%R.
Proof.
  intros X spec edges n HX HC HZ HL H. destruct (not_constant X HX HC) as [_ Hlt]. unfold check_bininfo in H.
  destruct spec as [[z|l| |]|]; try (inversion H; subst; apply linspace_top; auto; lia).
  - specialize (HZ z eq_refl). destruct (z + 1 <? 0)%Z eqn:E; [discriminate|]. inversion H; subst.
    apply linspace_top; auto. lia.
  - destruct (some_below l (minl X) || some_above l (maxl X)) eqn:E.
    + inversion H; subst; apply linspace_top; auto; lia.
    + destruct (negb (ascends l)) eqn:E2; inversion H; subst; [apply linspace_top; auto; lia|].
      apply orb_false_iff in E. destruct E as [E1 E3]. rewrite some_above_false in E3. specialize (HL l eq_refl).
      cbn [length app]. rewrite app_length. cbn [length].
      destruct (list_eq_dec Req_EM_T l []) as [->|N]; [simpl; lra|].
      replace (S (length l + 1) - 2) with (length l) by lia. destruct (exists_last N) as (l0 & e & ->).
      rewrite app_length. cbn [length]. rewrite Nat.add_1_r. cbn [nth]. rewrite <- app_assoc. rewrite app_nth2, Nat.sub_diag by lia. cbn.
      assert (In e (l0 ++ [e])) by (apply in_or_app; right; left; auto). specialize (E3 e H0).
      destruct (Req_EM_T e (maxl X)) as [->|]; [tauto|lra].
Qed.
Lemma balanced_total : forall c X y spec edges n k ind, X <> [] -> (forall z, spec = Some (BInt z) -> (1 <= z)%Z) ->
  (forall l, spec = Some (BList l) -> ~ In (maxl X) l) -> check_bininfo spec (minl X) (maxl X) = Ok (edges, n) -> 1 <= k ->
  resample c X y Balanced edges k = Ok ind -> length ind = y.
Proof.
  intros c X y spec edges n k ind HX HZ HL HE Hk H.
  assert (HC : ~ constant X) by (intros C; rewrite resample_constant in H; [discriminate|auto]).
  destruct (bins_indices edges X k) as [init fin] eqn:E.
  pose proof (resample_balanced c X y edges k init fin HX HC E) as B. rewrite H in B. destruct B as (_ & _ & ds & -> & D).
  destruct (last_bin_nonempty edges X k init fin) as [N F]; auto.
  - eapply edges_cover; eauto.
  - eapply edges_top; eauto.
  - eapply dealt_total; eauto.
Qed.
Lemma nondefault_total : forall edges Xs size k init fin ds, Xs <> [] -> covers edges Xs -> (nth (length edges - 2) edges 0 < maxl Xs)%R ->
  1 <= k -> bins_indices edges Xs k = (init, fin) -> dealt size (length fin) 0 fin ds -> length (concat ds) = size.
Proof.
  intros edges Xs size k init fin ds HX HC HT Hk E D. destruct (last_bin_nonempty edges Xs k init fin) as [N F]; auto.
  eapply dealt_total; eauto.
Qed.

(** ** Positions of the values with a property *)
Lemma take_where_gen : forall (t : R -> bool) X pre,
  mapM (get (pre ++ X)) (map fst (filter (fun ix => t (snd ix)) (combine (seq (length pre) (length X)) X))) = Ok (filter t X).
Proof.
  intros t. induction X as [|a X IH]; intros pre; cbn [length seq combine filter map mapM]; auto.
  pose proof (IH (pre ++ [a])) as E. rewrite <- app_assoc, app_length in E. cbn [app length] in E. rewrite Nat.add_1_r in E.
  cbn [snd]. destruct (t a); cbn [map mapM fst]; [|auto].
  unfold get at 1. rewrite nth_error_app2, Nat.sub_diag by lia. cbn [nth_error bind]. rewrite E. cbn [bind]. auto.
Qed.
Lemma take_where : forall t X, mapM (get X) (where_ t X) = Ok (filter t X).
Proof. intros. apply (take_where_gen t X []). Qed.
Lemma where_length : forall t X, length (where_ t X) = length (filter t X).
Proof. intros t X. symmetry. apply (mapM_Ok_length _ _ (take_where t X)). Qed.
Lemma where_all : forall t X, (forall x, In x X -> t x = true) -> where_ t X = seq 0 (length X).
Proof.
  intros t X H. apply sorted_ext.
  - apply where_sorted.
  - generalize 0. induction (length X) as [|n IH]; intros s; simpl; constructor; auto.
    apply Forall_forall. intros i Hi. apply in_seq in Hi. lia.
  - intros i. rewrite where_in, in_seq. split.
    + intros (x & Hx & _). apply nth_error_Some_lt in Hx. lia.
    + intros [_ Hi]. destruct (nth_error_lt_Some X Hi) as [x Hx]. exists x. split; auto. apply H. eapply nth_error_In; eauto.
Qed.
Lemma where_none : forall t X, (forall x, In x X -> t x = false) -> where_ t X = [].
Proof.
  intros t X H. destruct (where_ t X) as [|i l] eqn:E; auto.
  assert (Hi : In i (where_ t X)) by (rewrite E; left; auto). apply where_in in Hi. destruct Hi as (x & Hx & T).
  rewrite H in T; [discriminate|]. eapply nth_error_In; eauto.
Qed.
Lemma mapM_get_map : forall (l : list nat) ix, Forall (fun i => i < length l) ix -> mapM (get l) ix = Ok (map (fun i => nth i l 0) ix).
Proof.
  intros l ix H. induction H as [|i ix Hi H IH]; simpl; auto. unfold get at 1.
  destruct (nth_error_lt_Some l Hi) as [v Hv]. rewrite Hv. cbn [bind]. rewrite IH. cbn [bind]. f_equal. f_equal.
  symmetry. apply nth_error_nth. auto.
Qed.
Lemma dealt_in : forall total n i bins ds, dealt total n i bins ds -> forall x, In x (concat ds) -> In x (concat bins).
Proof.
  induction 1; simpl; auto. intros x Hx. apply in_app_or in Hx. apply in_or_app. destruct Hx; auto.
Qed.
Lemma bins_in_range : forall edges X k init fin i, bins_indices edges X k = (init, fin) -> In i (concat fin) -> i < length X.
Proof.
  intros edges X k init fin i E H. apply bins_indices_spec in E. destruct E as [[_ B] M]. rewrite (merged_concat _ _ _ M) in H.
  apply in_concat in H. destruct H as (b & Hb & Hi). apply In_nth_error in Hb. destruct Hb as [s Hs].
  apply (B s b Hs) in Hi. destruct Hi as (x & Hx & _). eapply nth_error_Some_lt; eauto.
Qed.

(** ** Step subsets *)
Definition positive (X : list R) : list R := filter (fun x => ltb 0 x) X.
Definition step_edges (X : list R) : list R := linspace (minl (positive X)) (maxl (positive X)) 6.
Definition step_places (X : list R) : list nat := where_ (fun x => ltb 0 x) X.

Lemma mapM_mapM_get : forall (l : list nat) ds, (forall i, In i (concat ds) -> i < length l) ->
  mapM (mapM (get l)) ds = Ok (map (map (fun i => nth i l 0)) ds).
Proof.
  induction ds as [|d ds IH]; intros H; simpl; auto. rewrite mapM_get_map.
  - cbn [bind]. rewrite IH; [auto|]. intros i Hi. apply H. simpl. apply in_or_app. auto.
  - apply Forall_forall. intros i Hi. apply H. simpl. apply in_or_app. auto.
Qed.
Lemma resample_step_eq : forall c X y edges k, X <> [] -> ~ constant X -> positive X <> [] ->
  resample c X y Step edges k =
    (do z <- choice (c 0) (where_ (fun x => leb x 0) X) (y / 2) ;;
     do ds <- balanced_draws c (step_edges X) (positive X) (y - y / 2) (k / 2) ;;
     Ok (z ++ map (fun i => nth i (step_places X) 0) (concat ds))).
Proof.
  intros c X y edges k HX HC HP. destruct (not_constant X HX HC) as [N _]. unfold resample. rewrite N.
  destruct X as [|x X]; [congruence|]. set (XX := x :: X) in *. cbv zeta.
  destruct (choice (c 0) (where_ (fun x0 => leb x0 0) XX) (y / 2)) as [z|e]; cbn [bind]; auto.
  rewrite take_where. cbn [bind]. fold (positive XX).
  assert (EE : forall A (a : result A) b, match positive XX with [] => a | _ :: _ => b end = b) by (intros; destruct (positive XX); congruence).
  rewrite EE. clear EE. unfold check_bininfo. change (5 + 1 <? 0)%Z with false. cbn iota. cbn [bind fst].
  change (Z.to_nat (5 + 1)) with 6. fold (step_edges XX).
  destruct (bins_indices (step_edges XX) (positive XX) (k / 2)) as [init fin] eqn:E.
  pose proof (balanced_draws_spec c (step_edges XX) (positive XX) (y - y / 2) (k / 2) init fin E) as B.
  destruct (balanced_draws c (step_edges XX) (positive XX) (y - y / 2) (k / 2)) as [ds|e]; cbn [bind]; auto.
  destruct B as (_ & _ & D). rewrite mapM_mapM_get.
  - cbn [bind]. f_equal. f_equal. unfold step_places. rewrite concat_map. auto.
  - intros i Hi. rewrite where_length. fold (positive XX). eapply bins_in_range; eauto. eapply dealt_in; eauto.
Qed.
Lemma step_no_positive : forall c X y edges k, positive X = [] -> forall ind, resample c X y Step edges k <> Ok ind.
Proof.
  intros c X y edges k HP ind H. unfold resample in H. destruct X as [|x X]; [discriminate|].
  destruct (Reqb _ _); [discriminate|]. cbv zeta in H. destruct (choice _ _ _); cbn [bind] in H; [|discriminate].
  rewrite take_where in H. cbn [bind] in H. fold (positive (x :: X)) in H. rewrite HP in H. discriminate.
Qed.
Lemma places_positive : forall X i, i < length (positive X) -> exists x, nth_error X (nth i (step_places X) 0) = Some x /\ (0 < x)%R.
Proof.
  intros X i Hi. assert (H : In (nth i (step_places X) 0) (step_places X)) by (apply nth_In; unfold step_places; rewrite where_length; auto).
  apply where_in in H. destruct H as (x & Hx & T). apply ltb_spec in T. eauto.
Qed.
Lemma resample_step : forall c X y edges k ind init fin, resample c X y Step edges k = Ok ind ->
  bins_indices (step_edges X) (positive X) (k / 2) = (init, fin) ->
  exists z ds, ind = z ++ map (fun i => nth i (step_places X) 0) (concat ds) /\ length z = y / 2 /\
    Forall (fun i => exists x, nth_error X i = Some x /\ (x <= 0)%R) z /\
    2 <= length fin /\ k / 2 <= (y - y / 2) / length fin /\ dealt (y - y / 2) (length fin) 0 fin ds.
Proof.
  intros c X y edges k ind init fin H E.
  assert (HX : X <> []) by (intros ->; discriminate).
  assert (HC : ~ constant X) by (intros C; rewrite resample_constant in H; [discriminate|auto]).
  assert (HP : positive X <> []) by (intros P; eapply step_no_positive; eauto).
  rewrite resample_step_eq in H by auto.
  destruct (choice (c 0) (where_ (fun x => leb x 0) X) (y / 2)) as [z|] eqn:Ez; cbn [bind] in H; [|discriminate].
  pose proof (balanced_draws_spec c (step_edges X) (positive X) (y - y / 2) (k / 2) init fin E) as B.
  destruct (balanced_draws c (step_edges X) (positive X) (y - y / 2) (k / 2)) as [ds|e]; cbn [bind] in H; [|discriminate].
  inversion H; subst. apply choice_spec in Ez. destruct Ez as [L I]. exists z, ds. repeat split; try tauto.
  apply Forall_forall. intros i Hi. apply I in Hi. apply where_in in Hi. destruct Hi as (x & Hx & T). apply leb_spec in T. eauto.
Qed.
Lemma step_total : forall c X y edges k ind, ~ constant (positive X) -> 2 <= k -> resample c X y Step edges k = Ok ind -> length ind = y.
Proof.
  intros c X y edges k ind HC Hk H.
  assert (HP : positive X <> []) by (intros P; eapply step_no_positive; eauto).
  destruct (bins_indices (step_edges X) (positive X) (k / 2)) as [init fin] eqn:E.
  destruct (resample_step c X y edges k ind init fin H E) as (z & ds & -> & L & _ & _ & _ & D).
  rewrite app_length, map_length, L.
  rewrite (nondefault_total (step_edges X) (positive X) (y - y / 2) (k / 2) init fin ds); auto.
  - pose proof (Nat.div_le_upper_bound y 2 y ltac:(lia) ltac:(lia)). lia.
  - apply linspace_covers; auto; lia.
  - apply linspace_top; [lia|]. apply not_constant; auto.
  - apply Nat.div_le_lower_bound; lia.
Qed.

(** ** Two bins of which the second is empty *)
Lemma dealt_two : forall c edges Xs size k n, snd (bins_indices edges Xs k) = [seq 0 n; []] -> 0 < n -> k <= size / 2 ->
  exists ds, balanced_draws c edges Xs size k = Ok ds /\ length (concat ds) = size - size / 2.
Proof.
  intros c edges Xs size k n E Hn Hk. destruct (bins_indices edges Xs k) as [init fin] eqn:B. simpl in E. subst fin.
  pose proof (balanced_draws_spec c edges Xs size k _ _ B) as S.
  destruct (balanced_draws c edges Xs size k) as [ds|e]; simpl in S.
  - exists ds. split; auto. destruct S as (_ & _ & D). rewrite (dealt_length _ _ _ _ _ D).
    destruct n; [lia|]. simpl shares. unfold share_of. pose proof (Nat.div_mod size 2 ltac:(lia)).
    pose proof (Nat.mod_upper_bound size 2 ltac:(lia)).
    set (q := size / 2) in *. set (r := size mod 2) in *. destruct (0 <? r) eqn:E; [apply Nat.ltb_lt in E|apply Nat.ltb_ge in E]; lia.
  - exfalso. change (S (fst (Nat.divmod size 1 0 1) - _)) with (size / 2) in S || idtac. 
    destruct S as [[_ S]|[[_ S]|[_ [_ S]]]]; try discriminate. change (size / 2 < k) in S. lia.
Qed.
Lemma constant_step_bins : forall P k, P <> [] -> constant P -> 1 <= k -> k <= length P ->
  snd (bins_indices (linspace (minl P) (maxl P) 6) P k) = [seq 0 (length P); []].
Proof.
  intros P k HP HC Hk HL. destruct (minl_spec P HP) as [Hm _]. destruct (maxl_spec P HP) as [HM _].
  set (v := minl P) in *. assert (Ev : maxl P = v) by (apply HC; auto). rewrite Ev.
  assert (EN : forall i, i < 6 -> nth i (linspace v v 6) 0%R = v) by (intros; rewrite linspace_nth by lia; unfold Rdiv; ring).
  unfold bins_indices. cbn [snd]. unfold init_bins. rewrite linspace_length. change (seq 0 (6 - 1)) with [0; 1; 2; 3; 4].
  assert (E0 : where_ (fun x => (if 0 =? 0 then leb (nth 0 (linspace v v 6) 0%R) x else ltb (nth 0 (linspace v v 6) 0%R) x) && leb x (nth (0 + 1) (linspace v v 6) 0%R)) P = seq 0 (length P)).
  { apply where_all. intros x Hx. rewrite (HC x v Hx Hm). rewrite !EN by lia. cbn [Nat.eqb]. apply andb_true_iff. rewrite !leb_spec. lra. }
  assert (ES : forall i, 0 < i < 5 -> where_ (fun x => (if i =? 0 then leb (nth i (linspace v v 6) 0%R) x else ltb (nth i (linspace v v 6) 0%R) x) && leb x (nth (i + 1) (linspace v v 6) 0%R)) P = []).
  { intros i Hi. apply where_none. intros x Hx. rewrite (HC x v Hx Hm). rewrite !EN by lia. destruct i; [lia|]. cbn [Nat.eqb].
    apply andb_false_iff. left. apply not_true_iff_false. rewrite ltb_spec. lra. }
  cbn [map]. cbv zeta. rewrite E0, (ES 1), (ES 2), (ES 3), (ES 4) by lia. unfold merge_bins. cbn [fill]. rewrite seq_length.
  replace (length P <? k) with false by (symmetry; apply Nat.ltb_ge; auto).
  destruct k; [lia|]. cbn. auto.
Qed.
Lemma step_two_valued : forall c X y edges k, (exists x, In x X /\ (x <= 0)%R) -> positive X <> [] -> constant (positive X) -> 2 <= k ->
  k / 2 <= length (positive X) -> k / 2 <= (y - y / 2) / 2 ->
  exists ind, resample c X y Step edges k = Ok ind /\ length ind = y - (y - y / 2) / 2.
Proof.
  intros c X y edges k (x0 & Hx0 & Hx0') HP HC Hk HL HY.
  assert (Hpos : exists x1, In x1 X /\ (0 < x1)%R).
  { destruct (positive X) as [|x1 r] eqn:E; [congruence|]. exists x1.
    assert (H : In x1 (positive X)) by (rewrite E; left; auto). apply filter_In in H. rewrite ltb_spec in H. tauto. }
  destruct Hpos as (x1 & Hx1 & Hx1').
  assert (NC : ~ constant X) by (intros C; specialize (C x0 x1 Hx0 Hx1); lra).
  rewrite resample_step_eq; auto; [|destruct X; [destruct Hx0|discriminate]].
  assert (K1 : 1 <= k / 2) by (apply Nat.div_le_lower_bound; lia).
  destruct (choice_ok (c 0) (where_ (fun x => leb x 0) X) (y / 2)) as [z Hz].
  { intros E. apply In_nth_error in Hx0. destruct Hx0 as [i Hi].
    assert (In i (where_ (fun x => leb x 0) X)) by (apply where_in; exists x0; rewrite leb_spec; auto). rewrite E in H. destruct H. }
  rewrite Hz. cbn [bind].
  destruct (dealt_two c (step_edges X) (positive X) (y - y / 2) (k / 2) (length (positive X))) as (ds & -> & L); auto.
  - apply constant_step_bins; auto.
  - destruct (positive X); simpl; [congruence|lia].
  - cbn [bind]. eexists. split; [reflexivity|]. rewrite app_length, map_length, L. apply choice_spec in Hz. destruct Hz as [-> _].
    pose proof (Nat.div_mod y 2 ltac:(lia)). pose proof (Nat.div_mod (y - y / 2) 2 ltac:(lia)).
    set (h := y / 2) in *. set (q := (y - h) / 2) in *. lia.
Qed.
Lemma top_edge_bins : forall X k, X <> [] -> k <= length X ->
  snd (bins_indices ([minl X - / 1000000000] ++ [maxl X] ++ [maxl X + / 1000000000])%R X k) = [seq 0 (length X); []].
Proof.
  intros X k HX HL. destruct (minl_spec X HX) as [_ Hm]. destruct (maxl_spec X HX) as [_ HM].
  unfold bins_indices. cbn [snd]. unfold init_bins. cbn [app length Nat.sub seq map Nat.add Nat.eqb nth].
  rewrite where_all, where_none.
  - unfold merge_bins. cbn [fill]. rewrite seq_length. replace (length X <? k) with false by (symmetry; apply Nat.ltb_ge; auto). auto.
  - intros x Hx. apply andb_false_iff. left. apply not_true_iff_false. rewrite ltb_spec. specialize (HM x Hx). lra.
  - intros x Hx. apply andb_true_iff. rewrite !leb_spec. specialize (HM x Hx). specialize (Hm x Hx). lra.
Qed.
Lemma top_edge_short : forall c X y k, X <> [] -> ~ constant X -> 1 <= k -> k <= length X -> k <= y / 2 ->
  exists edges ind, check_bininfo (Some (BList [maxl X])) (minl X) (maxl X) = Ok (edges, []) /\
    resample c X y Balanced edges k = Ok ind /\ length ind = y - y / 2.
Proof.
  intros c X y k HX HC Hk HL HY. destruct (minl_spec X HX) as [_ Hm]. destruct (maxl_spec X HX) as [HI HM].
  exists ([minl X - / 1000000000] ++ [maxl X] ++ [maxl X + / 1000000000])%R.
  destruct (dealt_two c _ X y k (length X) (top_edge_bins X k HX HL)) as (ds & E & L); auto.
  { destruct X; simpl; [congruence|lia]. }
  exists (concat ds). split; [|split; auto].
  - unfold check_bininfo.
    assert (E1 : some_below [maxl X] (minl X) = false) by (apply some_below_false; intros e [<-|[]]; auto).
    assert (E2 : some_above [maxl X] (maxl X) = false) by (apply some_above_false; intros e [<-|[]]; lra).
    rewrite E1, E2. reflexivity.
  - unfold resample. destruct (not_constant X HX HC) as [N _]. rewrite N. destruct X; [congruence|]. rewrite E. auto.
Qed.
