(** * Delta: bins and their merging. *)
From Coq Require Import Reals String List Arith ZArith Bool Lia Lra Permutation Sorted.
From Verif Require Import Base Arrays ListFacts ModelScale ProofsScale Stats Quant SpecRsa ProofsRsa ModelDelta SpecDelta.
Import ListNotations.
Local Open Scope nat_scope.

Lemma leb_spec : forall x y, leb x y = true <-> (x <= y)%R.
Proof. intros x y. unfold leb. destruct (Rle_dec x y); split; auto; try discriminate; tauto. Qed.
Lemma ltb_spec : forall x y, ltb x y = true <-> (x < y)%R.
Proof. intros x y. unfold ltb. destruct (Rlt_dec x y); split; auto; try discriminate; tauto. Qed.

(** ** np.where *)
Lemma combine_seq_nth : forall A (X : list A) s i x, In (i, x) (combine (seq s (length X)) X) <-> s <= i /\ nth_error X (i - s) = Some x.
Proof.
  intros A. induction X as [|a X IH]; intros s i x; simpl.
  - split; [tauto|]. intros [_ H]. rewrite nth_error_nil in H. discriminate.
  - rewrite IH. split.
    + intros [E|[H1 H2]].
      * inversion E; subst. rewrite Nat.sub_diag. auto.
      * split; [lia|]. replace (i - s) with (S (i - S s)) by lia. auto.
    + intros [H1 H2]. destruct (Nat.eq_dec i s) as [->|N].
      * rewrite Nat.sub_diag in H2. simpl in H2. inversion H2. auto.
      * right. split; [lia|]. replace (i - s) with (S (i - S s)) in H2 by lia. auto.
Qed.
Lemma where_in : forall t X i, In i (where_ t X) <-> exists x, nth_error X i = Some x /\ t x = true.
Proof.
  intros t X i. unfold where_. rewrite in_map_iff. split.
  - intros ([i' x] & E & H). simpl in E. subst i'. apply filter_In in H. destruct H as [H T].
    apply combine_seq_nth in H. rewrite Nat.sub_0_r in H. exists x. tauto.
  - intros (x & H & T). exists (i, x). split; auto. apply filter_In. split; auto. apply combine_seq_nth. rewrite Nat.sub_0_r. split; [lia|auto].
Qed.
Lemma where_sorted_gen : forall (t : R -> bool) X s, StronglySorted lt (map fst (filter (fun ix => t (snd ix)) (combine (seq s (length X)) X)))
  /\ Forall (fun i => s <= i) (map fst (filter (fun ix => t (snd ix)) (combine (seq s (length X)) X))).
Proof.
  intros t. induction X as [|a X IH]; intros s; simpl; [split; constructor|].
  destruct (IH (S s)) as [H1 H2]. destruct (t a); simpl.
  - split; constructor; auto.
    eapply Forall_impl; [|exact H2]. simpl. lia.
  - split; auto. eapply Forall_impl; [|exact H2]. simpl. lia.
Qed.
Lemma where_sorted : forall t X, StronglySorted lt (where_ t X).
Proof. intros. apply where_sorted_gen. Qed.
Lemma sorted_NoDup : forall l, StronglySorted lt l -> NoDup l.
Proof.
  induction l as [|a l IH]; intros H; [constructor|]. inversion H as [|? ? HS HF]; subst. constructor; auto.
  intros C. rewrite Forall_forall in HF. specialize (HF a C). lia.
Qed.
Lemma where_lt : forall t X i, In i (where_ t X) -> i < length X.
Proof. intros t X i H. apply where_in in H. destruct H as (x & H & _). eapply nth_error_Some_lt; eauto. Qed.

(** ** The bins *)
Lemma init_bins_spec : forall edges X, binned edges X (init_bins edges X).
Proof.
  intros edges X. unfold init_bins. split; [rewrite map_length, seq_length; auto|].
  intros s b H. rewrite nth_error_map', nth_error_seq in H. destruct (s <? length edges - 1); [|discriminate].
  simpl in H. inversion H; subst b. clear H. split; [apply where_sorted|].
  intros i. rewrite where_in. split; intros (x & H & T); exists x; split; auto.
  - apply andb_true_iff in T. destruct T as [T1 T2]. apply leb_spec in T2. unfold in_bin.
    destruct s; cbn [Nat.eqb] in T1; [apply leb_spec in T1|apply ltb_spec in T1]; repeat split; intros; try lia; auto.
  - destruct T as (A & B & C). apply andb_true_iff. split; [|apply leb_spec; auto].
    destruct s; cbn [Nat.eqb]; [apply leb_spec; apply A; auto|apply ltb_spec; apply B; lia].
Qed.

Lemma bin_unique : forall edges X s s' x, covers edges X -> s < length edges - 1 -> s' < length edges - 1 ->
  in_bin (fun t => nth t edges 0%R) s x -> in_bin (fun t => nth t edges 0%R) s' x -> s = s'.
Proof.
  intros edges X s s' x (L & M & _) Hs Hs' (A & B & C) (A' & B' & C').
  destruct (Nat.lt_trichotomy s s') as [H|[H|H]]; auto; exfalso.
  - specialize (B' ltac:(lia)). pose proof (M (s + 1) s' ltac:(lia) ltac:(lia)). lra.
  - specialize (B ltac:(lia)). pose proof (M (s' + 1) s ltac:(lia) ltac:(lia)). lra.
Qed.
Lemma bin_covers : forall edges X x, covers edges X -> In x X ->
  exists s, s < length edges - 1 /\ in_bin (fun t => nth t edges 0%R) s x.
Proof.
  intros edges X x (L & M & C) H. destruct (C x H) as [C1 C2].
  apply (bin_exists (fun t => nth t edges 0%R)); auto. lia.
Qed.

Lemma NoDup_concat : forall A (ls : list (list A)), Forall (@NoDup A) ls ->
  (forall i j a b x, nth_error ls i = Some a -> nth_error ls j = Some b -> In x a -> In x b -> i = j) -> NoDup (concat ls).
Proof.
  induction ls as [|l ls IH]; intros HF H; simpl; [constructor|].
  inversion HF; subst. apply NoDup_app_intro; auto.
  - apply IH; auto. intros i j a b x Hi Hj Ha Hb. specialize (H (S i) (S j) a b x Hi Hj Ha Hb). lia.
  - intros x Hx Hc. apply in_concat in Hc. destruct Hc as (b & Hb & Hxb). apply In_nth_error in Hb. destruct Hb as [j Hj].
    specialize (H 0 (S j) l b x eq_refl Hj Hx Hxb). lia.
Qed.

Lemma bins_keep_all : forall edges X bs, covers edges X -> binned edges X bs -> Permutation (concat bs) (seq 0 (length X)).
Proof.
  intros edges X bs HC [HL HB]. apply NoDup_Permutation.
  - apply NoDup_concat.
    + apply Forall_forall. intros b Hb. apply In_nth_error in Hb. destruct Hb as [s Hs]. apply sorted_NoDup. apply (HB s b Hs).
    + intros i j a b x Hi Hj Ha Hb. apply (HB i a Hi) in Ha. apply (HB j b Hj) in Hb.
      destruct Ha as (v & V & Ba). destruct Hb as (v' & V' & Bb). rewrite V in V'. inversion V'; subst v'.
      eapply bin_unique; eauto; rewrite <- HL; eapply nth_error_Some_lt; eauto.
  - apply seq_NoDup.
  - intros i. rewrite in_concat, in_seq. split.
    + intros (b & Hb & Hi). apply In_nth_error in Hb. destruct Hb as [s Hs]. apply (HB s b Hs) in Hi.
      destruct Hi as (v & V & _). apply nth_error_Some_lt in V. lia.
    + intros [_ Hi]. destruct (nth_error_lt_Some X Hi) as [v V].
      destruct (bin_covers edges X v HC ltac:(eapply nth_error_In; eauto)) as (s & Hs & Hb).
      rewrite <- HL in Hs. destruct (nth_error_lt_Some bs Hs) as [b B]. exists b. split; [eapply nth_error_In; eauto|].
      apply (HB s b B). eauto.
Qed.

(** ** Merging *)
Lemma fill_spec : forall k bins pre, pre <> [] ->
  (forall g1 g2, pre = g1 ++ g2 -> g1 <> [] -> g2 <> [] -> length (concat g1) < k) ->
  exists g gs, concat (g :: gs) = pre ++ bins /\ fill k (concat pre) bins = map (@concat nat) (g :: gs) /\
    Forall (fun g => g <> [] /\ forall g1 g2, g = g1 ++ g2 -> g1 <> [] -> g2 <> [] -> length (concat g1) < k) (g :: gs) /\
    forall h gs1 gs2, g :: gs = gs1 ++ h :: gs2 -> gs2 <> [] -> k <= length (concat h).
Proof.
  intros k. induction bins as [|b bins IH]; intros pre Hp Hk; cbn [fill].
  - exists pre, []. simpl. rewrite app_nil_r. repeat split; auto.
    intros h gs1 gs2 E N. destruct gs1 as [|? [|? ?]]; inversion E; subst; congruence.
  - destruct (length (concat pre) <? k) eqn:E.
    + apply Nat.ltb_lt in E. destruct (IH (pre ++ [b])) as (g & gs & H1 & H2 & H3 & H4).
      * destruct pre; discriminate.
      * intros g1 g2 G N1 N2. destruct (exists_last N2) as (g2' & b' & ->). rewrite app_assoc in G.
        apply app_inj_tail in G. destruct G as [-> _]. destruct g2' as [|c g2'].
        -- rewrite app_nil_r in E. auto.
        -- apply (Hk g1 (c :: g2')); auto. discriminate.
      * exists g, gs. rewrite <- app_assoc in H1. split; auto. split; auto.
        rewrite concat_app in H2. simpl in H2. rewrite app_nil_r in H2. auto.
    + apply Nat.ltb_ge in E. destruct (IH [b]) as (g & gs & H1 & H2 & H3 & H4); [discriminate| |].
      * intros g1 g2 G N1 N2. destruct g1 as [|x [|y g1]]; [congruence| |]; inversion G; subst; congruence.
      * simpl in H2. rewrite app_nil_r in H2. exists pre, (g :: gs). simpl concat at 1. simpl in H1. rewrite H1. split; auto.
        split; [cbn [map]; f_equal; auto|]. split; [constructor; auto|].
        intros h gs1 gs2 G N. destruct gs1 as [|x gs1]; cbn [app] in G; inversion G; subst; auto. eapply H4; eauto.
Qed.
Lemma merge_spec : forall k init, merged k init (merge_bins k init).
Proof.
  intros k [|b init]; unfold merge_bins.
  - exists []. repeat split; auto. intros g [|? ?] gs2 H; discriminate.
  - destruct (fill_spec k init [b]) as (g & gs & H1 & H2 & H3 & H4); [discriminate| |].
    + intros g1 g2 G N1 N2. destruct g1 as [|x [|y g1]]; [congruence| |]; inversion G; subst; congruence.
    + simpl in H2. rewrite app_nil_r in H2. exists (g :: gs). repeat split; auto.
Qed.
Lemma concat_concat_map : forall A (gs : list (list (list A))), concat (map (@concat A) gs) = concat (concat gs).
Proof. induction gs as [|g gs IH]; simpl; auto. rewrite concat_app, IH. auto. Qed.
Lemma merged_concat : forall k init fin, merged k init fin -> concat fin = concat init.
Proof. intros k init fin (gs & <- & -> & _). apply concat_concat_map. Qed.
Lemma map_eq_app_cons : forall A B (f : A -> B) l p b s, map f l = p ++ b :: s ->
  exists l1 a l2, l = l1 ++ a :: l2 /\ map f l1 = p /\ f a = b /\ map f l2 = s.
Proof.
  intros A B f. induction l as [|x l IH]; intros [|q p] b s H; simpl in H; try discriminate; inversion H; subst.
  - exists [], x, l. auto.
  - destruct (IH p b s H2) as (l1 & a & l2 & -> & <- & <- & <-). exists (x :: l1), a, l2. auto.
Qed.
Lemma merged_sizes : forall k init fin, merged k init fin ->
  forall b before after, fin = before ++ b :: after -> after <> [] -> k <= length b.
Proof.
  intros k init fin (gs & _ & -> & _ & H) b before after E N.
  apply map_eq_app_cons in E. destruct E as (g1 & g & g2 & -> & _ & <- & <-). eapply H; eauto.
  intros ->. apply N. reflexivity.
Qed.
(** The merged bins are determined. *)
Lemma merged_count : forall k init fin, merged k init fin -> length fin <= length init /\ (init <> [] -> fin <> []).
Proof.
  intros k init fin (gs & <- & -> & HF & _). split.
  - rewrite map_length. clear - HF. induction HF as [|g gs [Hg _] HF IH]; simpl; auto. rewrite app_length.
    destruct g; [congruence|]. simpl. lia.
  - intros H. destruct gs; simpl in *; congruence.
Qed.

Lemma concat_nil_inv : forall A (gs : list (list A)), Forall (fun g => g <> []) gs -> concat gs = [] -> gs = [].
Proof. intros A [|g gs] H E; auto. inversion H; subst. simpl in E. apply app_eq_nil in E. tauto. Qed.
Lemma prefix_cases : forall A (a b c d : list A), a ++ b = c ++ d ->
  (exists r, r <> [] /\ c = a ++ r /\ b = r ++ d) \/ (exists r, r <> [] /\ a = c ++ r /\ d = r ++ b) \/ (a = c /\ b = d).
Proof.
  intros A. induction a as [|x a IH]; intros b c d E.
  - destruct c as [|y c]; simpl in *; auto. left. exists (y :: c). split; [discriminate|]. auto.
  - destruct c as [|y c]; simpl in E.
    + right. left. exists (x :: a). split; [discriminate|]. auto.
    + inversion E; subst. destruct (IH b c d H1) as [(r & N & -> & ->)|[(r & N & -> & ->)|[-> ->]]]; eauto 10.
Qed.
Lemma merged_unique : forall k init fin fin', merged k init fin -> merged k init fin' -> fin = fin'.
Proof.
  intros k init fin fin' (gs & E & -> & F & S) (gs' & E' & -> & F' & S'). f_equal.
  assert (G : concat gs = concat gs') by congruence. clear E E' init. revert gs' F' S' G.
  induction gs as [|g gs IH]; intros gs' F' S' G.
  - simpl in G. symmetry. apply concat_nil_inv; auto. eapply Forall_impl; [|exact F']. intros a []; auto.
  - destruct gs' as [|g' gs'].
    + apply concat_nil_inv in G; auto. eapply Forall_impl; [|exact F]. intros a []; auto.
    + simpl in G. inversion F as [|? ? [N Hg] F1]; subst. inversion F' as [|? ? [N' Hg'] F1']; subst.
      apply prefix_cases in G. destruct G as [(r & Nr & Eg & Er)|[(r & Nr & Eg & Er)|[-> Er]]].
      * exfalso. specialize (Hg' g r Eg N Nr). specialize (S g [] gs eq_refl).
        assert (gs <> []) by (intros ->; simpl in Er; destruct r; discriminate || congruence). specialize (S H). lia.
      * exfalso. specialize (Hg g' r Eg N' Nr). specialize (S' g' [] gs' eq_refl).
        assert (gs' <> []) by (intros ->; simpl in Er; destruct r; discriminate || congruence). specialize (S' H). lia.
      * f_equal. apply IH; auto.
        -- intros h g1 g2 Eh. apply (S h (g' :: g1)). rewrite Eh. auto.
        -- intros h g1 g2 Eh. apply (S' h (g' :: g1)). rewrite Eh. auto.
Qed.
Lemma sorted_ext : forall l l', StronglySorted lt l -> StronglySorted lt l' -> (forall i, In i l <-> In i l') -> l = l'.
Proof.
  induction l as [|a l IH]; intros [|b l'] H H' E; auto.
  - destruct (proj2 (E b)); left; auto.
  - destruct (proj1 (E a)); left; auto.
  - inversion H as [|? ? HS HF]; subst. inversion H' as [|? ? HS' HF']; subst. rewrite Forall_forall in HF, HF'.
    assert (a = b).
    { destruct (proj1 (E a) (or_introl eq_refl)) as [->|Ha]; auto. destruct (proj2 (E b) (or_introl eq_refl)) as [->|Hb]; auto.
      specialize (HF b Hb). specialize (HF' a Ha). lia. }
    subst b. f_equal. apply IH; auto. intros i. split; intros Hi.
    + destruct (proj1 (E i) (or_intror Hi)) as [->|]; auto. specialize (HF i Hi). lia.
    + destruct (proj2 (E i) (or_intror Hi)) as [->|]; auto. specialize (HF' i Hi). lia.
Qed.
Lemma binned_unique : forall edges X bs bs', binned edges X bs -> binned edges X bs' -> bs = bs'.
Proof.
  intros edges X bs bs' [L H] [L' H']. apply nth_error_ext'. intros s.
  destruct (nth_error bs s) as [b|] eqn:E.
  - assert (Hs : s < length bs') by (rewrite L', <- L; eapply nth_error_Some_lt; eauto).
    destruct (nth_error_lt_Some bs' Hs) as [b' E']. rewrite E'. f_equal.
    destruct (H s b E) as [S1 I1]. destruct (H' s b' E') as [S2 I2]. apply sorted_ext; auto.
    intros i. rewrite I1, I2. tauto.
  - symmetry. apply nth_error_None. apply nth_error_None in E. lia.
Qed.
Lemma bins_indices_spec : forall edges X k init fin,
  bins_indices edges X k = (init, fin) <-> binned edges X init /\ merged k init fin.
Proof.
  intros edges X k init fin. unfold bins_indices. split.
  - intros E. inversion E; subst. split; [apply init_bins_spec|apply merge_spec].
  - intros [B M]. rewrite (binned_unique _ _ _ _ B (init_bins_spec edges X)) in *.
    rewrite (merged_unique _ _ _ _ M (merge_spec k _)). auto.
Qed.
