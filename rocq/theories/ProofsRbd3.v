(** * RBD-FAST: the analyser. *)
From Coq Require Import Reals String List Arith ZArith Bool Lia Lra Permutation Sorted.
From Verif Require Import Base Arrays ListFacts ModelGroups ModelScale ProofsScale Stats Sums ModelFast SpecFast ProofsFast2 ProofsMorris3 ProofsMorris7
  ModelRbd SpecRbd ProofsRbd ProofsRbd2.
Import ListNotations.
Local Open Scope nat_scope.

Lemma lamb_ne : forall M N, 0 < N -> 2 * M <> N -> (0 < INR N)%R /\ (1 - 2 * INR M / INR N <> 0)%R.
Proof.
  intros M N HN Hne. assert (H : (0 < INR N)%R) by (apply lt_0_INR; auto). split; auto.
  intros E. apply Hne. apply INR_eq. rewrite mult_INR. simpl (INR 2).
  assert (2 * INR M / INR N * INR N = INR N)%R by (replace (2 * INR M / INR N)%R with 1%R by lra; ring).
  unfold Rdiv in H0. rewrite Rmult_assoc, Rinv_l in H0 by lra. lra.
Qed.

Lemma unskew_spec : forall s M N,
  ((N = 0 \/ N = 2 * M) -> unskew s M N = Err ZeroDivisionError) /\
  (0 < N -> N <> 2 * M -> unskew s M N = Ok (option_map (corrected M N) s)).
Proof.
  intros s M N. unfold unskew. split.
  - intros [->|E]; auto. destruct (N =? 0); auto. destruct (Nat.eqb_spec (2 * M) N); [auto|lia].
  - intros HN Hne. destruct (Nat.eqb_spec N 0); [lia|]. destruct (Nat.eqb_spec (2 * M) N); [lia|].
    destruct (lamb_ne M N HN ltac:(lia)) as [HP Hl]. f_equal. destruct s as [s|]; auto. cbn [option_map]. f_equal.
    unfold corrected. rewrite mult_INR. simpl (INR 2). field. split; [lra|].
    intros E. apply Hl. unfold Rdiv. apply Rmult_eq_reg_r with (INR N); [|lra]. rewrite Rmult_minus_distr_r, Rmult_assoc, Rinv_l by lra. lra.
Qed.

Lemma lamb_small : forall M N, 2 * M < N -> (0 <= 2 * INR M / INR N < 1)%R.
Proof.
  intros M N H. assert (HN : (0 < INR N)%R) by (apply lt_0_INR; lia).
  assert (H2 : (2 * INR M < INR N)%R). { apply lt_INR in H. rewrite mult_INR in H. simpl (INR 2) in H. lra. }
  pose proof (pos_INR M). split.
  - apply Rdiv_nonneg; lra.
  - apply Rmult_lt_reg_r with (INR N); auto. unfold Rdiv. rewrite Rmult_assoc, Rinv_l by lra. lra.
Qed.

Lemma corrected_laws : forall M N, 2 * M < N ->
  corrected M N 1 = 1%R /\
  (forall s t, s < t -> corrected M N s < corrected M N t)%R /\
  (forall s, s <= 1 -> corrected M N s <= s)%R /\
  (0 < M -> forall s, (s < 1)%R -> (corrected M N s < s)%R) /\
  (forall s, 0 <= s -> - (2 * INR M / (INR N - 2 * INR M)) <= corrected M N s)%R.
Proof.
  intros M N H. pose proof (lamb_small M N H) as Hl. unfold corrected. cbv zeta. set (l := (2 * INR M / INR N)%R) in *.
  assert (Hi : (0 < / (1 - l))%R) by (apply Rinv_0_lt_compat; lra).
  split; [field; lra|]. split; [|split; [|split]].
  - intros s t Hst. unfold Rdiv. apply Rmult_lt_compat_r; lra.
  - intros s Hs. apply Rmult_le_reg_r with (1 - l)%R; [lra|]. unfold Rdiv. rewrite Rmult_assoc, Rinv_l by lra. nra.
  - intros HM s Hs. assert (0 < l)%R.
    { unfold l. apply Rdiv_lt_0_compat; [|apply lt_0_INR; lia]. apply lt_0_INR in HM. lra. }
    apply Rmult_lt_reg_r with (1 - l)%R; [lra|]. unfold Rdiv. rewrite Rmult_assoc, Rinv_l by lra. nra.
  - intros s Hs. assert (HN : (0 < INR N)%R) by (apply lt_0_INR; lia).
    assert (E : (2 * INR M / (INR N - 2 * INR M) = l / (1 - l))%R).
    { unfold l. field. split; [lra|]. apply lt_INR in H. rewrite mult_INR in H. simpl (INR 2) in H. lra. }
    rewrite E. apply Rmult_le_reg_r with (1 - l)%R; [lra|]. unfold Rdiv. rewrite Ropp_mult_distr_l, !Rmult_assoc, Rinv_l by lra. lra.
Qed.

Lemma var_perm : forall a b, Permutation a b -> var a = var b.
Proof.
  intros a b H. unfold var. rewrite (mean_perm a b H). apply mean_perm. apply Permutation_map. auto.
Qed.

Lemma first_order_of : forall y Y M, Permutation y Y -> Y <> [] ->
  compute_first_order y M = (if Req_EM_T (var Y) 0 then None else Some (share y M)) /\
  (var Y <> 0%R -> (0 <= share y M <= 1)%R).
Proof.
  intros y Y M HP HY. pose proof (var_perm _ _ HP) as EV. destruct (first_order_spec y M) as [H0 H1].
  assert (Hy : y <> []). { intros ->. apply Permutation_nil in HP. auto. }
  destruct (Req_EM_T (var Y) 0) as [E|E].
  - split; [|contradiction]. apply H0. right. congruence.
  - destruct (H1 Hy) as [A B]; [congruence|]. auto.
Qed.

Lemma mapM_get_ok : forall (l : list R) idx, Forall (fun t => t < length l) idx ->
  mapM (get l) idx = Ok (map (fun t => nth t l 0%R) idx).
Proof.
  intros l idx H. rewrite <- mapM_Ok_map. apply mapM_ext. intros t Ht. rewrite Forall_forall in H.
  unfold get. rewrite (nth_error_nth' l 0%R) by auto. auto.
Qed.

Lemma bootstrap_ok : forall argsort nq Xd Y M cl ds, argsort_ok argsort -> length Xd = length Y ->
  draws_ok (length Y) ds -> length Y / 2 <> 0 -> length Y / 2 <> 2 * M ->
  exists c, rbd_bootstrap argsort nq Xd Y M cl ds = Ok c /\ ((0 <= nq (1 / 2 + cl / 2))%R -> forall v, c = Some v -> (0 <= v)%R).
Proof.
  intros argsort nq Xd Y M cl ds Ha HL HD H0 H2. unfold rbd_bootstrap.
  destruct (proj2 (mapM_Ok_iff (fun idx => do xs <- mapM (get Xd) idx ;; do ys <- mapM (get Y) idx ;;
      do py <- permute_outputs argsort xs ys ;; unskew (compute_first_order py M) M (length ys)) ds)) as [res E].
  - intros idx Hi. unfold draws_ok in HD. rewrite Forall_forall in HD. destruct (HD idx Hi) as [Li Fi].
    rewrite (mapM_get_ok Xd) by (rewrite HL; auto). rewrite (mapM_get_ok Y) by auto. cbn [bind].
    rewrite permute_ok by (auto; rewrite !map_length; auto). cbn [bind]. rewrite map_length, Li.
    rewrite (proj2 (unskew_spec _ M (length Y / 2))) by lia. eauto.
  - rewrite E. cbn [bind]. eexists. split; [reflexivity|]. intros Hq v Hv. eapply width_nonneg; eauto.
Qed.

Lemma column_values : forall X D i, Forall (fun r => length r = D) X -> i < D ->
  mapM (fun r : list R => get r i) X = Ok (values X i).
Proof.
  intros X D i H Hi. unfold values. rewrite <- mapM_Ok_map. apply mapM_ext. intros r Hr. rewrite Forall_forall in H.
  unfold get. rewrite (nth_error_nth' r 0%R) by (rewrite (H r Hr); auto). auto.
Qed.

Lemma values_length : forall X i, length (values X i) = length X.
Proof. intros. apply map_length. Qed.

Section Analyze.
  Variables (argsort : list R -> list nat) (nq : R -> R) (p : problem) (X : list (list R)) (Y : list R) (M : nat) (cl : R)
    (draws : nat -> list (list nat)).
  Let D := p_num_vars p.
  Let N := length Y.
  Hypotheses (Ha : argsort_ok argsort) (HX : Forall (fun r => length r = D) X) (LX : length X = N).

  Lemma analyze_spec : 0 < N -> N <> 2 * M -> (forall i, i < D -> draws_ok N (draws i)) -> N / 2 <> 0 -> N / 2 <> 2 * M ->
    exists out, rbd_analyze argsort nq p X Y M cl draws = Ok out /\ r_names out = p_names p /\
      length (r_S1 out) = D /\ length (r_conf out) = D /\
      forall i, i < D -> exists y, permute_outputs argsort (values X i) Y = Ok y /\ Permutation y Y /\
        nth_error (r_S1 out) i = Some (if Req_EM_T (var Y) 0 then None else Some (corrected M N (share y M))) /\
        (var Y <> 0%R -> (0 <= share y M <= 1)%R) /\
        ((0 <= nq (1 / 2 + cl / 2))%R -> forall v, nth_error (r_conf out) i = Some (Some v) -> (0 <= v)%R).
  Proof.
    intros HN H2 HD H0 H4. assert (HY : Y <> []) by (intros E; unfold N in HN; rewrite E in HN; simpl in HN; lia).
    set (body := fun i => do Xi <- mapM (fun r => get r i) X ;; do py <- permute_outputs argsort Xi Y ;;
      do s <- unskew (compute_first_order py M) M (length Y) ;; do c <- rbd_bootstrap argsort nq Xi Y M cl (draws i) ;; Ok (s, c)).
    assert (HB : forall i, i < D -> exists y c, body i = Ok ((if Req_EM_T (var Y) 0 then None else Some (corrected M N (share y M))), c) /\
       permute_outputs argsort (values X i) Y = Ok y /\ Permutation y Y /\ (var Y <> 0%R -> (0 <= share y M <= 1)%R) /\
       ((0 <= nq (1 / 2 + cl / 2))%R -> forall v, c = Some v -> (0 <= v)%R)).
    { intros i Hi. unfold body. rewrite (column_values X D i HX Hi). cbn [bind].
      destruct (permute_spec argsort (values X i) Y Ha) as (s & y & _ & Ey & HP & _); [rewrite values_length; auto|].
      rewrite Ey. cbn [bind]. destruct (first_order_of y Y M HP HY) as [EF HS]. rewrite EF.
      rewrite (proj2 (unskew_spec _ M (length Y))) by auto. cbn [bind].
      destruct (bootstrap_ok argsort nq (values X i) Y M cl (draws i) Ha) as (c & Ec & Hc);
        [rewrite values_length; auto|apply HD; auto|auto|auto|].
      rewrite Ec. cbn [bind]. exists y, c. split; [|auto].
      destruct (Req_EM_T (var Y) 0); reflexivity. }
    assert (EM : exists rs, mapM body (seq 0 D) = Ok rs).
    { apply mapM_Ok_iff. intros i Hi. apply in_seq in Hi. destruct (HB i ltac:(lia)) as (y & c & E & _). eauto. }
    destruct EM as [rs EM]. pose proof (mapM_Ok_length _ _ EM) as LR. rewrite seq_length in LR.
    exists (mkRbd (map fst rs) (map snd rs) (p_names p)). split.
    { unfold rbd_analyze. fold body. fold D. rewrite EM. reflexivity. }
    cbn [r_names r_S1 r_conf]. rewrite !map_length. split; auto. split; auto. split; auto.
    intros i Hi. destruct (HB i Hi) as (y & c & E & E1 & E2 & E3 & E4).
    destruct (mapM_Ok_nth _ _ i EM (x := i)) as (z & Ez & Hz); [rewrite nth_error_seq; destruct (Nat.ltb_spec i D); [auto|lia]|].
    exists y. split; auto. split; auto. rewrite !nth_error_map, Hz. cbn [option_map]. rewrite E in Ez. injection Ez as <-. cbn [fst snd].
    split; auto. split; auto. intros Hq v Hv. injection Hv as Hv. eauto.
  Qed.

  Lemma analyze_division : 0 < D -> 0 < N -> N = 2 * M -> rbd_analyze argsort nq p X Y M cl draws = Err ZeroDivisionError.
  Proof.
    intros HD HN E. unfold rbd_analyze. fold D. destruct D as [|d] eqn:ED; [lia|]. cbn [seq mapM].
    rewrite (column_values X (S d) 0 HX) by lia. cbn [bind].
    rewrite permute_ok by (auto; rewrite values_length, LX; auto). cbn [bind].
    rewrite (proj1 (unskew_spec _ M (length Y))) by (right; auto). reflexivity.
  Qed.

  Lemma bootstrap_division : 0 < D -> 0 < N -> N <> 2 * M -> N / 2 = 2 * M -> draws 0 <> [] -> draws_ok N (draws 0) ->
    rbd_analyze argsort nq p X Y M cl draws = Err ZeroDivisionError.
  Proof.
    intros HD HN H2 H4 Hdr HD0. unfold rbd_analyze. fold D. destruct D as [|d] eqn:ED; [lia|]. cbn [seq mapM].
    rewrite (column_values X (S d) 0 HX) by lia. cbn [bind].
    rewrite permute_ok by (auto; rewrite values_length, LX; auto). cbn [bind].
    rewrite (proj2 (unskew_spec _ M (length Y))) by auto. cbn [bind].
    unfold rbd_bootstrap. destruct (draws 0) as [|idx ds]; [congruence|]. cbn [mapM].
    unfold draws_ok in HD0. inversion HD0 as [|? ? [Li Fi] _]; subst.
    rewrite (mapM_get_ok (values X 0)) by (rewrite values_length, LX; auto). rewrite (mapM_get_ok Y) by auto. cbn [bind].
    rewrite permute_ok by (auto; rewrite !map_length; auto). cbn [bind]. rewrite map_length, Li.
    rewrite (proj1 (unskew_spec _ M (N / 2))) by (right; auto). reflexivity.
  Qed.
End Analyze.

(** ** Small samples *)
Lemma share_all : forall y M, y <> [] -> var y <> 0%R -> length y <= 2 * M + 1 -> share y M = 1%R.
Proof.
  intros y M Hy Hv HL. unfold share. change (fun q => ((if (length y =? 2 * q)%nat then 1 else 2) * power y q)%R) with (weighted y).
  assert (E : Nat.min M (length y / 2) = length y / 2).
  { apply Nat.min_r. apply Nat.lt_succ_r. apply Nat.div_lt_upper_bound; lia. }
  rewrite E, total_variance by auto. field. auto.
Qed.

Lemma share_affine : forall y M a b, y <> [] -> a <> 0%R -> var y <> 0%R -> share (map (fun v => a * v + b)%R y) M = share y M.
Proof.
  intros y M a b Hy Ha Hv. unfold share. rewrite map_length, var_affine by auto.
  rewrite (Rsum_ext _ _ (fun q => a ^ 2 * ((if (length y =? 2 * q)%nat then 1 else 2) * power y q))%R).
  - rewrite Rsum_map_scal. field. split; auto.
  - intros q Hq. apply in_seq in Hq. assert (q < length y).
    { pose proof (Nat.div_mod (length y) 2 ltac:(lia)). lia. }
    rewrite power_affine by lia. ring.
Qed.

(** ** The order of the values is all that matters *)
Lemma sorted_unique : forall (l l' : list R), StronglySorted Rle l -> StronglySorted Rle l' -> Permutation l l' -> l = l'.
Proof.
  induction l as [|x l IH]; intros l' HS HS' HP.
  - apply Permutation_nil in HP. auto.
  - destruct l' as [|y l']; [apply Permutation_sym, Permutation_nil in HP; discriminate|].
    inversion HS as [|? ? HS1 HF1]; subst. inversion HS' as [|? ? HS2 HF2]; subst.
    assert (x = y).
    { assert (In x (y :: l')) by (apply (Permutation_in _ HP); left; auto).
      assert (In y (x :: l)) by (apply (Permutation_in _ (Permutation_sym HP)); left; auto).
      rewrite Forall_forall in HF1, HF2. destruct H as [H|H]; auto. destruct H0 as [H0|H0]; auto.
      specialize (HF1 _ H0). specialize (HF2 _ H). lra. }
    subst y. f_equal. apply IH; auto. apply Permutation_cons_inv with x. auto.
Qed.

Lemma sorting_sorted : forall X s, sorting X s -> StronglySorted Rle (map (fun i => nth i X 0%R) s).
Proof.
  intros X s [_ H]. induction s as [|i s IH]; simpl; constructor.
  - apply IH. intros a b i0 j0 Hab. specialize (H (S a) (S b) i0 j0 ltac:(lia)). exact H.
  - rewrite Forall_forall. intros x Hx. apply in_map_iff in Hx. destruct Hx as (j & <- & Hj).
    apply In_nth_error in Hj. destruct Hj as [k Hk]. apply (H 0 (S k) i j); auto; lia.
Qed.

Lemma sorting_unique : forall X s s', NoDup X -> sorting X s -> sorting X s' -> s = s'.
Proof.
  intros X s s' HD HS HS'. assert (HP : Permutation s s').
  { etransitivity; [apply HS|symmetry; apply HS']. }
  assert (E : map (fun i => nth i X 0%R) s = map (fun i => nth i X 0%R) s').
  { apply sorted_unique; try (apply sorting_sorted; auto). apply Permutation_map. auto. }
  assert (B : forall i, In i s -> i < length X) by (intros i; apply (sorting_bound X s i HS)).
  assert (B' : forall i, In i s' -> i < length X) by (intros i; apply (sorting_bound X s' i HS')).
  clear HP HS HS'. revert s' E B'. induction s as [|i s IH]; intros [|j s'] E B'; try discriminate; auto.
  simpl in E. injection E as E1 E2. f_equal.
  - apply (proj1 (NoDup_nth X 0%R)); auto; [apply B|apply B']; left; auto.
  - apply IH; auto; intros; [apply B|apply B']; right; auto.
Qed.

Lemma permute_monotone : forall argsort g X Y, argsort_ok argsort -> NoDup X ->
  (forall a b, In a X -> In b X -> a < b -> g a < g b)%R ->
  permute_outputs argsort (map g X) Y = permute_outputs argsort X Y.
Proof.
  intros argsort g X Y Ha HD Hg. unfold permute_outputs. cbv zeta.
  assert (E : argsort (map g X) = argsort X); [|rewrite E; reflexivity].
  apply sorting_unique with X; auto. pose proof (Ha (map g X)) as [HP HS]. rewrite map_length in HP. split; auto.
  intros a b i j Hab Hi Hj. specialize (HS a b i j Hab Hi Hj).
  assert (Bi : i < length X) by (apply nth_error_In in Hi; apply (Permutation_in _ HP) in Hi; apply in_seq in Hi; lia).
  assert (Bj : j < length X) by (apply nth_error_In in Hj; apply (Permutation_in _ HP) in Hj; apply in_seq in Hj; lia).
  rewrite (nth_indep _ 0%R (g 0%R)), map_nth, (nth_indep (map g X) 0%R (g 0%R)), map_nth in HS by (rewrite map_length; auto).
  destruct (Rle_lt_dec (nth i X 0%R) (nth j X 0%R)) as [|Hlt]; auto. exfalso.
  assert (g (nth j X 0) < g (nth i X 0))%R by (apply Hg; auto; apply nth_In; auto). lra.
Qed.

Lemma nth_map_lt : forall A B (f : A -> B) l i d d', i < length l -> nth i (map f l) d' = f (nth i l d).
Proof. intros. rewrite (nth_indep _ d' (f d)) by (rewrite map_length; auto). apply map_nth. Qed.

Lemma permute_rows : forall argsort X Y p, argsort_ok argsort -> NoDup X -> length X = length Y -> Permutation p (seq 0 (length X)) ->
  permute_outputs argsort (map (fun i => nth i X 0%R) p) (map (fun i => nth i Y 0%R) p) = permute_outputs argsort X Y.
Proof.
  intros argsort X Y p Ha HD HL Hp.
  assert (Lp : length p = length X) by (rewrite (Permutation_length Hp), seq_length; auto).
  rewrite !permute_ok by (auto; rewrite ?map_length; lia). f_equal.
  set (X' := map (fun i => nth i X 0%R) p). set (s := argsort X').
  pose proof (Ha X') as Hs. fold s in Hs.
  assert (LX' : length X' = length X) by (unfold X'; rewrite map_length; auto).
  assert (E : map (fun k => nth k p 0) s = argsort X).
  { apply sorting_unique with X; auto. split.
    - etransitivity; [apply Permutation_map; apply (proj1 Hs)|]. rewrite LX', <- Lp.
      rewrite <- (list_nth_seq nat 0 p). rewrite <- Lp in Hp. rewrite Lp in Hp |- *. auto.
    - intros a b i j Hab Hi Hj. rewrite nth_error_map in Hi, Hj.
      destruct (nth_error s a) as [u|] eqn:Eu; [|discriminate]. destruct (nth_error s b) as [v|] eqn:Ev; [|discriminate].
      simpl in Hi, Hj. injection Hi as <-. injection Hj as <-.
      pose proof (proj2 Hs a b u v Hab Eu Ev) as H.
      assert (Bu : u < length p) by (apply nth_error_In in Eu; apply (sorting_bound X' s u Hs) in Eu; lia).
      assert (Bv : v < length p) by (apply nth_error_In in Ev; apply (sorting_bound X' s v Hs) in Ev; lia).
      unfold X' in H.
      rewrite (nth_map_lt _ _ (fun i => nth i X 0%R) p u 0 0%R Bu), (nth_map_lt _ _ (fun i => nth i X 0%R) p v 0 0%R Bv) in H. auto. }
  rewrite <- E. unfold riffle.
  assert (EV : forall l : list nat, every2 (map (fun k => nth k p 0) l) = map (fun k => nth k p 0) (every2 l)).
  { intros l. induction l using list_ind2; simpl; auto. f_equal. auto. }
  assert (ET : forall l : list nat, tl (map (fun k => nth k p 0) l) = map (fun k => nth k p 0) (tl l)) by (destruct l; auto).
  rewrite EV, ET, EV, <- map_rev, <- map_app, map_map. apply map_ext_in. intros k Hk.
  assert (Bk : k < length p).
  { change (every2 s ++ rev (every2 (tl s))) with (riffle s) in Hk. apply (Permutation_in _ (riffle_perm _ s)) in Hk.
    apply (sorting_bound X' s k Hs) in Hk. lia. }
  apply (nth_map_lt _ _ (fun i => nth i Y 0%R)). auto.
Qed.
