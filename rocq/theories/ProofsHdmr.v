(** * HDMR: terms, labels and totals. *)
From Coq Require Import Reals String List Arith ZArith Bool Lia Lra Sorted Permutation.
From Verif Require Import Base Arrays ListFacts ModelGroups ModelScale Stats Sums SpecMorris ModelFast ModelMorris ModelMorrisAnalyze ModelDgsm ModelPawn
  ProofsMorris3 ModelHdmr SpecHdmr.
Import ListNotations.
Local Open Scope nat_scope.

Definition hdmr_term_list (d maxorder : nat) : list (list nat) :=
  map (fun j => [j]) (seq 0 d) ++ hdmr_c2 d maxorder ++ hdmr_c3 d maxorder.

Lemma hdmr_n_length : forall d k, length (hdmr_term_list d k) = hdmr_n d k.
Proof. intros. unfold hdmr_term_list, hdmr_n. rewrite !app_length, map_length, seq_length. lia. Qed.

Lemma combinations_NoDup : forall A k (l : list A), NoDup l -> NoDup (combinations k l).
Proof.
  induction k; intros l H.
  - destruct l; simpl; constructor; auto; constructor.
  - induction l as [|x l IHl]; [constructor|]. inversion H as [|? ? Hx Hl]; subst. rewrite combinations_cons.
    apply NoDup_app_intro.
    + apply FinFun.Injective_map_NoDup; auto. intros a b E. congruence.
    + auto.
    + intros c H1 H2. apply in_map_iff in H1. destruct H1 as (c' & <- & _).
      assert (E : forall k (l : list A) c, In c (combinations k l) -> incl c l).
      { clear. induction k; intros l c.
        - destruct l; simpl; intros [<-|[]]; intros ? [].
        - induction l as [|y l IH]; [intros []|]. rewrite combinations_cons, in_app_iff, in_map_iff.
          intros [(c' & <- & H)|H] z Hz.
          + destruct Hz as [<-|Hz]; [left; auto|right]. exact (IHk _ _ H z Hz).
          + right. exact (IH H z Hz). }
      apply Hx. apply (E _ _ _ H2). left; auto.
Qed.

Lemma combinations_count : forall n a,
  2 * length (combinations 2 (seq a n)) = n * (n - 1) /\
  6 * length (combinations 3 (seq a n)) = n * (n - 1) * (n - 2).
Proof.
  induction n; intros a; [split; reflexivity|].
  cbn [seq]. rewrite !combinations_cons, !app_length, !map_length, combinations_1, map_length, seq_length.
  destruct (IHn (S a)) as (H2 & H3). split.
  - destruct n; simpl Nat.sub in *; lia.
  - rewrite Nat.mul_add_distr_l, H3. replace (6 * length (combinations 2 (seq (S a) n))) with (3 * (n * (n - 1))) by lia.
    destruct n as [|[|n]]; [reflexivity|reflexivity|]. simpl Nat.sub. rewrite ?Nat.sub_0_r. ring.
Qed.

Lemma in_c2 : forall d k t, In t (hdmr_c2 d k) <-> 1 < k /\ selection d 2 t.
Proof.
  intros. unfold hdmr_c2. destruct (Nat.ltb_spec 1 k).
  - rewrite combinations_selection. tauto.
  - split; [intros []|lia].
Qed.
Lemma in_c3 : forall d k t, In t (hdmr_c3 d k) <-> k = 3 /\ selection d 3 t.
Proof.
  intros. unfold hdmr_c3. destruct (Nat.eqb_spec k 3).
  - rewrite combinations_selection. tauto.
  - split; [intros []|tauto].
Qed.

Lemma hdmr_term_list_spec : forall d k, 1 <= k <= 3 -> term_list d k (hdmr_term_list d k).
Proof.
  intros d k K.
  assert (HL1 : forall t, In t (map (fun j : nat => [j]) (seq 0 d)) -> length t = 1).
  { intros t H. apply in_map_iff in H. destruct H as (j & <- & _). reflexivity. }
  assert (HL2 : forall t, In t (hdmr_c2 d k) -> length t = 2) by (intros t H; apply in_c2 in H; apply H).
  assert (HL3 : forall t, In t (hdmr_c3 d k) -> length t = 3) by (intros t H; apply in_c3 in H; apply H).
  split; [|split; [|split]].
  - apply NoDup_app_intro; [|apply NoDup_app_intro|].
    + apply FinFun.Injective_map_NoDup; [intros a b E; congruence|apply seq_NoDup].
    + unfold hdmr_c2. destruct (1 <? k); [apply combinations_NoDup, seq_NoDup|constructor].
    + unfold hdmr_c3. destruct (k =? 3); [apply combinations_NoDup, seq_NoDup|constructor].
    + intros t H2 H3. apply HL2 in H2. apply HL3 in H3. congruence.
    + intros t H1 H23. apply HL1 in H1. apply in_app_iff in H23. destruct H23 as [H|H]; [apply HL2 in H|apply HL3 in H]; congruence.
  - intros t. unfold hdmr_term_list. rewrite !in_app_iff, in_map_iff, in_c2, in_c3. unfold is_term, selection. split.
    + intros [(j & <- & Hj)|[(H & H1 & H2 & H3)|(H & H1 & H2 & H3)]].
      * apply in_seq in Hj. simpl. split; [lia|]. split; [constructor; constructor|]. intros x [<-|[]]. lia.
      * split; [lia|]. auto.
      * split; [lia|]. auto.
    + intros (H1 & H2 & H3). destruct t as [|a t]; [simpl in H1; lia|]. destruct t as [|b t].
      * left. exists a. split; auto. apply in_seq. specialize (H3 a (or_introl eq_refl)). lia.
      * destruct t as [|c t].
        -- right; left. simpl in *. repeat split; auto; lia.
        -- destruct t; [|simpl in H1; lia]. right; right. simpl in *. repeat split; auto; lia.
  - intros i Hi. unfold hdmr_term_list. rewrite nth_error_app1 by (rewrite map_length, seq_length; auto).
    rewrite nth_error_map', nth_error_seq. destruct (Nat.ltb_spec i d); [reflexivity|lia].
  - intros i j t u Hij Hi Hj. unfold hdmr_term_list in *.
    assert (L1 : length (map (fun j : nat => [j]) (seq 0 d)) = d) by (rewrite map_length, seq_length; auto).
    destruct (Nat.lt_ge_cases i d) as [Hid|Hid].
    + rewrite nth_error_app1 in Hi by lia. apply nth_error_In in Hi. rewrite (HL1 _ Hi).
      destruct (Nat.lt_ge_cases j d).
      * rewrite nth_error_app1 in Hj by lia. apply nth_error_In in Hj. rewrite (HL1 _ Hj). lia.
      * rewrite nth_error_app2 in Hj by lia. apply nth_error_In in Hj. apply in_app_iff in Hj.
        destruct Hj as [Hj|Hj]; [rewrite (HL2 _ Hj)|rewrite (HL3 _ Hj)]; lia.
    + rewrite nth_error_app2 in Hi by lia. rewrite nth_error_app2 in Hj by lia. rewrite L1 in Hi, Hj.
      destruct (Nat.lt_ge_cases (i - d) (length (hdmr_c2 d k))).
      * rewrite nth_error_app1 in Hi by lia. apply nth_error_In in Hi. rewrite (HL2 _ Hi).
        apply nth_error_In in Hj. apply in_app_iff in Hj.
        destruct Hj as [Hj|Hj]; [rewrite (HL2 _ Hj)|rewrite (HL3 _ Hj)]; lia.
      * rewrite nth_error_app2 in Hi by lia. rewrite nth_error_app2 in Hj by lia.
        apply nth_error_In in Hi. apply nth_error_In in Hj. rewrite (HL3 _ Hi), (HL3 _ Hj). lia.
Qed.

Lemma hdmr_count : forall d k, 1 <= k <= 3 -> term_count d k (hdmr_n d k).
Proof.
  intros d k K. unfold hdmr_n, hdmr_c2, hdmr_c3. destruct (combinations_count d 0) as (H2 & H3).
  destruct k as [|[|[|[|k]]]]; try lia; unfold term_count; cbn [Nat.ltb Nat.leb Nat.eqb length]; lia.
Qed.

(** ** Labels *)
Lemma concat_label : forall names t ns, t <> [] -> mapM (get names) t = Ok ns -> label_of names t (String.concat "/" ns).
Proof.
  induction t as [|i t IH]; intros ns H E; [congruence|].
  cbn [mapM] in E. unfold get at 1 in E. destruct (nth_error names i) as [s|] eqn:Ei; [|discriminate]. cbn [bind] in E.
  destruct (mapM (get names) t) as [ns'|] eqn:Et; [|discriminate]. cbn [bind] in E. injection E as <-.
  destruct t as [|j t].
  - cbn in Et. injection Et as <-. simpl. constructor. auto.
  - specialize (IH ns' ltac:(discriminate) eq_refl). destruct ns' as [|s' ns'].
    + exfalso. apply mapM_Ok_length in Et. discriminate.
    + change (String.concat "/" (s :: s' :: ns')) with (s ++ "/" ++ String.concat "/" (s' :: ns'))%string. constructor; auto.
Qed.

Lemma hdmr_terms_spec : forall names d k ls, hdmr_terms names d k = Ok ls -> Forall2 (label_of names) (hdmr_term_list d k) ls.
Proof.
  intros names d k ls E. unfold hdmr_terms in E.
  destruct (mapM (get names) (seq 0 d)) as [l1|] eqn:E1; [|discriminate]. cbn [bind] in E.
  destruct (mapM _ (hdmr_c2 d k)) as [l2|] eqn:E2; [|discriminate]. cbn [bind] in E.
  destruct (mapM _ (hdmr_c3 d k)) as [l3|] eqn:E3; [|discriminate]. cbn [bind] in E. injection E as <-.
  assert (G : forall (c : list (list nat)) l, (forall t, In t c -> t <> []) ->
    mapM (fun c => do ns <- mapM (get names) c ;; Ok (String.concat "/" ns)) c = Ok l -> Forall2 (label_of names) c l).
  { clear. induction c as [|t c IH]; intros l H E.
    - cbn in E. injection E as <-. constructor.
    - cbn [mapM] in E. destruct (mapM (get names) t) as [ns|] eqn:Et; [|discriminate]. cbn [bind] in E.
      destruct (mapM _ c) as [l'|] eqn:Ec in E; [|discriminate]. cbn [bind] in E. injection E as <-. constructor.
      + apply concat_label; auto. apply H. left; auto.
      + apply IH; auto. intros; apply H; right; auto. }
  unfold hdmr_term_list. apply Forall2_app; [|apply Forall2_app].
  - clear E2 E3. revert l1 E1. generalize (seq 0 d). intros l. induction l as [|i l IH]; intros l1 E1.
    + cbn in E1. injection E1 as <-. constructor.
    + cbn [mapM] in E1. unfold get at 1 in E1. destruct (nth_error names i) as [s|] eqn:Ei; [|discriminate]. cbn [bind] in E1.
      destruct (mapM (get names) l) as [l'|] eqn:Ec; [|discriminate]. cbn [bind] in E1. injection E1 as <-.
      cbn [map]. constructor; auto. constructor. auto.
  - apply G; auto. intros t H. apply in_c2 in H. destruct H as (_ & H & _). intros ->. discriminate.
  - apply G; auto. intros t H. apply in_c3 in H. destruct H as (_ & H & _). intros ->. discriminate.
Qed.

Lemma hdmr_terms_ok : forall names d k, d <= length names -> exists ls, hdmr_terms names d k = Ok ls.
Proof.
  intros names d k H. unfold hdmr_terms.
  assert (G : forall t : list nat, (forall x, In x t -> x < d) -> exists ns, mapM (get names) t = Ok ns).
  { intros t Ht. apply mapM_Ok_iff. intros x Hx. unfold get. specialize (Ht x Hx).
    destruct (nth_error_lt_Some names (i := x)) as (s & E); [lia|]. rewrite E. eauto. }
  destruct (G (seq 0 d)) as (l1 & E1); [intros x Hx; apply in_seq in Hx; lia|]. rewrite E1. cbn [bind].
  assert (G2 : forall c : list (list nat), (forall t, In t c -> forall x, In x t -> x < d) ->
    exists l, mapM (fun c => do ns <- mapM (get names) c ;; Ok (String.concat "/" ns)) c = Ok l).
  { intros c Hc. apply mapM_Ok_iff. intros t Ht. destruct (G t (Hc t Ht)) as (ns & E). rewrite E. cbn [bind]. eauto. }
  destruct (G2 (hdmr_c2 d k)) as (l2 & E2); [intros t Ht; apply in_c2 in Ht; apply Ht|]. rewrite E2. cbn [bind].
  destruct (G2 (hdmr_c3 d k)) as (l3 & E3); [intros t Ht; apply in_c3 in Ht; apply Ht|]. rewrite E3. cbn [bind]. eauto.
Qed.

(** ** Totals *)
Lemma count_one : forall r t, StronglySorted lt t -> (length (filter (Nat.eqb r) t) =? 1) = true <-> In r t.
Proof.
  intros r t H. rewrite Nat.eqb_eq. induction H as [|x t Ht IH Hx]; [simpl; split; [discriminate|intros []]|].
  cbn [filter In]. destruct (Nat.eqb_spec r x) as [->|N].
  - simpl length. split; [auto|]. intros _. f_equal. apply length_zero_iff_nil.
    destruct (filter (Nat.eqb x) t) as [|y q] eqn:F; auto. exfalso.
    assert (Hy : In y (filter (Nat.eqb x) t)) by (rewrite F; left; auto). apply filter_In in Hy. destruct Hy as (H1 & H2).
    apply Nat.eqb_eq in H2. subst y. rewrite Forall_forall in Hx. specialize (Hx x H1). lia.
  - rewrite IH. split; auto. intros [E|E]; [congruence|auto].
Qed.

Lemma rows_with_spec : forall r c, (forall t, In t c -> StronglySorted lt t) ->
  forall i, In i (rows_with r c) <-> exists t, nth_error c i = Some t /\ In r t.
Proof.
  intros r c H i. unfold rows_with. rewrite filter_In, in_seq. split.
  - intros (Hi & E). destruct (nth_error_lt_Some c (i := i)) as (t & Et); [lia|]. exists t. split; auto.
    rewrite (nth_error_nth c i [] Et) in E. apply count_one in E; auto. apply H. eapply nth_error_In; eauto.
  - intros (t & Et & Ht). pose proof (nth_error_Some_lt _ _ Et). split; [lia|].
    rewrite (nth_error_nth c i [] Et). apply count_one; auto. apply H. eapply nth_error_In; eauto.
Qed.

Lemma rows_with_NoDup : forall r c, NoDup (rows_with r c).
Proof. intros. apply NoDup_filter, seq_NoDup. Qed.

Lemma total_rows_spec : forall d k r, 1 <= k <= 3 -> r < d ->
  NoDup (total_rows d k r) /\ forall j, In j (total_rows d k r) <-> exists t, nth_error (hdmr_term_list d k) j = Some t /\ In r t.
Proof.
  intros d k r K Hr.
  assert (S2 : forall t, In t (hdmr_c2 d k) -> StronglySorted lt t) by (intros t H; apply in_c2 in H; apply H).
  assert (S3 : forall t, In t (hdmr_c3 d k) -> StronglySorted lt t) by (intros t H; apply in_c3 in H; apply H).
  assert (L1 : length (map (fun j : nat => [j]) (seq 0 d)) = d) by (rewrite map_length, seq_length; auto).
  assert (E : total_rows d k r = r :: map (fun i => d + i) (rows_with r (hdmr_c2 d k))
     ++ map (fun i => d + length (hdmr_c2 d k) + i) (rows_with r (hdmr_c3 d k))).
  { unfold total_rows. destruct k as [|[|[|[|k]]]]; try lia; reflexivity || (simpl; rewrite ?app_nil_r; reflexivity). }
  assert (B2 : forall i, In i (rows_with r (hdmr_c2 d k)) -> i < length (hdmr_c2 d k)).
  { intros i Hi. unfold rows_with in Hi. apply filter_In in Hi. destruct Hi as (Hi & _). apply in_seq in Hi. lia. }
  rewrite E. split.
  - constructor.
    + intros H. apply in_app_iff in H. destruct H as [H|H]; apply in_map_iff in H; destruct H as (i & Hi & _); lia.
    + apply NoDup_app_intro.
      * apply FinFun.Injective_map_NoDup; [intros a b; lia|apply rows_with_NoDup].
      * apply FinFun.Injective_map_NoDup; [intros a b; lia|apply rows_with_NoDup].
      * intros x H1 H2. apply in_map_iff in H1, H2. destruct H1 as (i & <- & Hi), H2 as (i' & Hi' & _). apply B2 in Hi. lia.
  - intros j. cbn [In]. rewrite in_app_iff, !in_map_iff. unfold hdmr_term_list.
    destruct (Nat.lt_ge_cases j d) as [Hj|Hj].
    + rewrite nth_error_app1 by lia. rewrite nth_error_map', nth_error_seq. destruct (Nat.ltb_spec j d); [|lia]. cbn.
      split.
      * intros [->|[(i & Hi & _)|(i & Hi & _)]]; try lia. exists [j]. simpl. auto.
      * intros (t & Et & Ht). injection Et as <-. destruct Ht as [->|[]]. auto.
    + rewrite nth_error_app2 by lia. rewrite L1. destruct (Nat.lt_ge_cases (j - d) (length (hdmr_c2 d k))) as [Hj2|Hj2].
      * rewrite nth_error_app1 by lia. rewrite <- rows_with_spec by auto. split.
        -- intros [->|[(i & Hi & H)|(i & Hi & _)]]; try lia. subst j. replace (d + i - d) with i by lia. auto.
        -- intros H. right; left. exists (j - d). split; [lia|auto].
      * rewrite nth_error_app2 by lia. rewrite <- rows_with_spec by auto. split.
        -- intros [->|[(i & Hi & H)|(i & Hi & H)]]; try lia.
           ++ apply B2 in H. lia.
           ++ subst j. replace (d + length (hdmr_c2 d k) + i - d - length (hdmr_c2 d k)) with i by lia. auto.
        -- intros H. right; right. exists (j - d - length (hdmr_c2 d k)). split; [lia|auto].
Qed.
