(** * Delta: ranks, classes and the first-order index. *)
From Coq Require Import Reals String List Arith ZArith Bool Lia Lra Permutation Sorted.
From Verif Require Import Base Arrays ListFacts ModelScale ProofsScale Stats Sums Quant ModelRsa SpecRsa ProofsRsa ModelFast ModelDelta SpecDelta ProofsDelta ProofsDelta2 ProofsDelta3.
Import ListNotations.
Local Open Scope nat_scope.

(** ** Ranks *)
Lemma filter_none : forall A (t : A -> bool) l, (forall x, In x l -> t x = false) -> filter t l = [].
Proof. induction l as [|a l IH]; intros H; simpl; auto. rewrite (H a) by (left; auto). apply IH. intros. apply H. right. auto. Qed.

Definition beforeb (X : list R) (k i : nat) : bool :=
  ltb (nth k X 0%R) (nth i X 0%R) || ((if Req_EM_T (nth k X 0%R) (nth i X 0%R) then true else false) && (k <=? i)).
Lemma beforeb_spec : forall X k i, beforeb X k i = true <-> before X k i.
Proof.
  intros X k i. unfold beforeb, before. rewrite orb_true_iff, andb_true_iff, ltb_spec, Nat.leb_le.
  destruct (Req_EM_T (nth k X 0%R) (nth i X 0%R)); split; intros [H|[H1 H2]]; auto; try discriminate; tauto.
Qed.
Lemma filter_seq_values : forall (t : R -> bool) X n, n <= length X ->
  length (filter t (firstn n X)) = length (filter (fun k => t (nth k X 0%R)) (seq 0 n)).
Proof.
  intros t X. induction n as [|n IH]; intros H; [rewrite firstn_O; auto|].
  rewrite seq_S, filter_app, app_length, <- IH by lia. cbn [filter Nat.add].
  destruct (nth_error_lt_Some X (i := n)) as [x Hx]; [lia|].
  assert (E : firstn (S n) X = firstn n X ++ [x]).
  { apply nth_error_ext'. intros k. rewrite nth_error_firstn. destruct (Nat.lt_trichotomy k n) as [L|[->|L]].
    - rewrite nth_error_app1 by (rewrite firstn_length; lia). rewrite nth_error_firstn.
      replace (k <? S n) with true by (symmetry; apply Nat.ltb_lt; lia). replace (k <? n) with true by (symmetry; apply Nat.ltb_lt; lia). auto.
    - rewrite nth_error_app2 by (rewrite firstn_length; lia). rewrite firstn_length, Nat.min_l, Nat.sub_diag by lia.
      replace (n <? S n) with true by (symmetry; apply Nat.ltb_lt; lia). auto.
    - replace (k <? S n) with false by (symmetry; apply Nat.ltb_ge; lia). symmetry. apply nth_error_None.
      rewrite app_length, firstn_length. simpl. lia. }
  rewrite E, filter_app, app_length. cbn [filter]. rewrite (nth_error_nth X n 0%R Hx). destruct (t x); auto.
Qed.
Lemma filter_le_prefix : forall (t : nat -> bool) i n, i < n ->
  length (filter t (seq 0 (S i))) = length (filter (fun k => t k && (k <=? i)) (seq 0 n)).
Proof.
  intros t i n H. replace n with (S i + (n - S i)) by lia. rewrite seq_app, filter_app, app_length. change (0 + S i) with (S i).
  rewrite (filter_ext_in (fun k => t k && (k <=? i)) t (seq 0 (S i))).
  - replace (filter (fun k => t k && (k <=? i)) (seq (S i) (n - S i))) with (@nil nat); [simpl; lia|].
    symmetry. apply filter_none. intros k Hk. apply in_seq in Hk. apply andb_false_iff. right. apply Nat.leb_gt. lia.
  - intros k Hk. apply in_seq in Hk. replace (k <=? i) with true by (symmetry; apply Nat.leb_le; lia). apply andb_true_r.
Qed.

Lemma filter_orb_disjoint : forall A (f g : A -> bool) l, (forall x, In x l -> f x = true -> g x = false) ->
  length (filter (fun x => f x || g x) l) = length (filter f l) + length (filter g l).
Proof.
  induction l as [|a l IH]; intros H; simpl; auto. assert (H' := H a (or_introl eq_refl)).
  destruct (f a), (g a); simpl; try rewrite IH; auto; try lia;
    try (intros x Hx; apply H; right; auto); specialize (H' eq_refl); discriminate.
Qed.
Definition place_set (X : list R) (i : nat) : list nat := filter (fun k => beforeb X k i) (seq 0 (length X)).
Lemma ordinal_places : forall X i, i < length X -> ordinal X i = length (place_set X i).
Proof.
  intros X i H. unfold ordinal, place_set, beforeb. rewrite filter_orb_disjoint.
  - f_equal.
    + unfold count_lt. rewrite <- (firstn_all X) at 1. rewrite filter_seq_values by auto. auto.
    + rewrite filter_seq_values by lia.
      rewrite (filter_le_prefix (fun k => if Req_EM_T (nth k X 0%R) (nth i X 0%R) then true else false) i (length X) H). auto.
  - intros k _ Hk. apply ltb_spec in Hk. destruct (Req_EM_T _ _); auto. lra.
Qed.
Lemma ordinal_rank : forall X i, i < length X -> rank_is X i (ordinal X i).
Proof.
  intros X i H. exists (place_set X i). split; [apply NoDup_filter, seq_NoDup|]. split; [symmetry; apply ordinal_places; auto|].
  intros k. unfold place_set. rewrite filter_In, in_seq, beforeb_spec. split; intros [A B]; split; auto; lia.
Qed.
Lemma rank_unique : forall X i r r', rank_is X i r -> rank_is X i r' -> r = r'.
Proof.
  intros X i r r' (l & N & <- & H) (l' & N' & <- & H'). apply Permutation_length. apply NoDup_Permutation; auto.
  intros k. rewrite H, H'. tauto.
Qed.
Lemma rank_ordinal : forall X i r, i < length X -> (rank_is X i r <-> r = ordinal X i).
Proof.
  intros X i r H. split; [|intros ->; apply ordinal_rank; auto]. intros Hr. eapply rank_unique; eauto. apply ordinal_rank. auto.
Qed.
Lemma before_trans : forall X a b c, before X a b -> before X b c -> before X a c.
Proof. unfold before. intros X a b c [H|[H1 H2]] [G|[G1 G2]]; [left; lra|left; lra|left; lra|right; split; [lra|lia]]. Qed.
Lemma before_total : forall X a b, a <> b -> (before X a b /\ ~ before X b a) \/ (before X b a /\ ~ before X a b).
Proof.
  intros X a b N. unfold before. destruct (Rtotal_order (nth a X 0%R) (nth b X 0%R)) as [H|[H|H]].
  - left. split; auto. intros [C|[C _]]; lra.
  - destruct (Nat.lt_trichotomy a b) as [L|[L|L]]; [|lia|].
    + left. split; [right; split; [auto|lia]|]. intros [C|[_ C]]; [lra|lia].
    + right. split; [right; split; [auto|lia]|]. intros [C|[_ C]]; [lra|lia].
  - right. split; auto. intros [C|[C _]]; lra.
Qed.
Lemma NoDup_strict : forall (l l' : list nat) x, NoDup l -> incl l l' -> In x l' -> ~ In x l -> length l < length l'.
Proof.
  intros l l' x N I Hx Hn. change (length (x :: l) <= length l'). apply NoDup_incl_length; [constructor; auto|].
  intros y [<-|Hy]; auto.
Qed.
Lemma ordinal_before : forall X a b, a < length X -> b < length X -> before X a b -> ~ before X b a -> ordinal X a < ordinal X b.
Proof.
  intros X a b Ha Hb H N. rewrite !ordinal_places by auto. apply NoDup_strict with (x := b).
  - apply NoDup_filter, seq_NoDup.
  - intros k Hk. unfold place_set in *. apply filter_In in Hk. apply filter_In. split; [tauto|]. rewrite beforeb_spec in *.
    eapply before_trans; [apply Hk|auto].
  - unfold place_set. apply filter_In. rewrite in_seq, beforeb_spec. split; [lia|]. right. split; auto.
  - unfold place_set. rewrite filter_In, beforeb_spec. tauto.
Qed.
Lemma ordinal_inj : forall X a b, a < length X -> b < length X -> ordinal X a = ordinal X b -> a = b.
Proof.
  intros X a b Ha Hb E. destruct (Nat.eq_dec a b) as [|N]; auto. exfalso.
  destruct (before_total X a b N) as [[H1 H2]|[H1 H2]].
  - pose proof (ordinal_before X a b Ha Hb H1 H2). lia.
  - pose proof (ordinal_before X b a Hb Ha H1 H2). lia.
Qed.
Lemma filter_length_le : forall A (t : A -> bool) l, length (filter t l) <= length l.
Proof. induction l as [|a l IH]; simpl; auto. destruct (t a); simpl; lia. Qed.
Lemma ordinal_range : forall X i, i < length X -> 1 <= ordinal X i <= length X.
Proof.
  intros X i H. rewrite ordinal_places by auto. split.
  - assert (In i (place_set X i)).
    { unfold place_set. apply filter_In. rewrite in_seq, beforeb_spec. split; [lia|]. right. split; auto. }
    destruct (place_set X i); [destruct H0|simpl; lia].
  - unfold place_set. pose proof (filter_length_le _ (fun k => beforeb X k i) (seq 0 (length X))) as L. rewrite seq_length in L. auto.
Qed.
Lemma ordinal_onto : forall X r, 1 <= r <= length X -> exists i, i < length X /\ ordinal X i = r.
Proof.
  intros X r H. assert (I : incl (seq 1 (length X)) (map (ordinal X) (seq 0 (length X)))).
  { apply NoDup_length_incl.
    - apply map_NoDup_in; [|apply seq_NoDup]. intros a b Ha Hb E. apply in_seq in Ha, Hb. eapply ordinal_inj; eauto; lia.
    - rewrite map_length, !seq_length. auto.
    - intros x Hx. apply in_map_iff in Hx. destruct Hx as (i & <- & Hi). apply in_seq in Hi. apply in_seq.
      pose proof (ordinal_range X i ltac:(lia)). lia. }
  assert (Hr : In r (seq 1 (length X))) by (apply in_seq; lia). apply I in Hr. apply in_map_iff in Hr.
  destruct Hr as (i & E & Hi). apply in_seq in Hi. exists i. split; auto. lia.
Qed.

(** ** Classes *)
Lemma grid_nth : forall y M j, 1 <= M -> j <= M -> nth j (grid_m y M) 0%R = (INR j * (INR y / INR M))%R.
Proof.
  intros y M j HM Hj. unfold grid_m. rewrite linspace_nth by lia. replace (M + 1 - 1) with M by lia. unfold Rdiv. ring.
Qed.
Lemma grid_length : forall y M, length (grid_m y M) = M + 1.
Proof. intros. apply linspace_length. Qed.
Lemma INR_div_lt : forall a M r, 0 < M -> (INR a / INR M < INR r)%R <-> a / M < r.
Proof.
  intros a M r HM. assert (0 < INR M)%R by (apply lt_0_INR; auto).
  assert (E : (INR a / INR M < INR r)%R <-> (INR a < INR r * INR M)%R).
  { split; intros H0.
    - apply Rmult_lt_compat_r with (r := INR M) in H0; auto. unfold Rdiv in H0. rewrite Rmult_assoc, Rinv_l, Rmult_1_r in H0 by lra. auto.
    - apply Rmult_lt_reg_r with (INR M); auto. unfold Rdiv. rewrite Rmult_assoc, Rinv_l by lra. lra. }
  rewrite E, <- mult_INR. split; intros H0.
  - apply INR_lt in H0. apply Nat.div_lt_upper_bound; lia.
  - apply lt_INR. pose proof (Nat.mul_succ_div_gt a M ltac:(lia)). nia.
Qed.
Lemma INR_div_le : forall a M r, 0 < M -> (INR r <= INR a / INR M)%R <-> r <= a / M.
Proof. intros a M r HM. pose proof (INR_div_lt a M r HM) as H. split; intros G; [apply Nat.nlt_ge; intros C; apply H in C; lra|apply Rnot_lt_le; intros C; apply H in C; lia]. Qed.
Lemma class_member : forall X y M j i, 1 <= M -> j < M -> 
  (In i (class_of X (grid_m y M) j) <-> i < length X /\ j * y / M < ordinal X i <= (j + 1) * y / M).
Proof.
  intros X y M j i HM Hj. unfold class_of. rewrite filter_In, in_seq, andb_true_iff, ltb_spec, leb_spec, !grid_nth by lia.
  replace (INR j * (INR y / INR M))%R with (INR (j * y) / INR M)%R by (rewrite mult_INR; unfold Rdiv; ring).
  replace (INR (j + 1) * (INR y / INR M))%R with (INR ((j + 1) * y) / INR M)%R by (rewrite mult_INR; unfold Rdiv; ring).
  rewrite INR_div_lt, INR_div_le by lia. split; intros [A B]; split; auto; lia.
Qed.
Lemma filter_sorted : forall (t : nat -> bool) n s, StronglySorted lt (filter t (seq s n)).
Proof.
  intros t. induction n as [|n IH]; intros s; simpl; [constructor|]. destruct (t s); auto. constructor; auto.
  apply Forall_forall. intros k Hk. apply filter_In in Hk. destruct Hk as [Hk _]. apply in_seq in Hk. lia.
Qed.
Definition classes_list (X : list R) (M : nat) : list (list nat) := map (class_of X (grid_m (length X) M)) (seq 0 M).
Lemma classes_spec : forall X M, 1 <= M -> equal_classes X M (classes_list X M).
Proof.
  intros X M HM. unfold classes_list. split; [rewrite map_length, seq_length; auto|].
  intros j c H. rewrite nth_error_map', nth_error_seq in H. destruct (j <? M) eqn:E; [|discriminate]. apply Nat.ltb_lt in E.
  simpl in H. inversion H; subst c. split; [apply filter_sorted|].
  intros i. rewrite class_member by auto. split; intros [A B]; split; auto.
  - exists (ordinal X i). split; auto. apply ordinal_rank; auto.
  - destruct B as (r & Hr & B). apply rank_ordinal in Hr; auto. subst r. auto.
Qed.
Lemma equal_classes_unique : forall X M cls cls', equal_classes X M cls -> equal_classes X M cls' -> cls = cls'.
Proof.
  intros X M cls cls' [L H] [L' H']. apply nth_error_ext'. intros s.
  destruct (nth_error cls s) as [b|] eqn:E.
  - assert (Hs : s < length cls') by (rewrite L', <- L; eapply nth_error_Some_lt; eauto).
    destruct (nth_error_lt_Some cls' Hs) as [b' E']. rewrite E'. f_equal.
    destruct (H s b E) as [S1 I1]. destruct (H' s b' E') as [S2 I2]. apply sorted_ext; auto.
    intros i. rewrite I1, I2. tauto.
  - symmetry. apply nth_error_None. apply nth_error_None in E. lia.
Qed.
Lemma class_exists : forall n M r, 1 <= M -> 1 <= r <= n -> exists j, j < M /\ j * n / M < r <= (j + 1) * n / M.
Proof.
  intros n M r HM Hr.
  assert (G : forall m, r <= m * n / M -> exists j, j < m /\ j * n / M < r <= (j + 1) * n / M).
  { induction m as [|m IH]; intros H.
    - simpl in H. rewrite Nat.div_0_l in H by lia. lia.
    - destruct (Nat.le_gt_cases r (m * n / M)) as [C|C].
      + destruct (IH C) as (j & Hj & B). exists j. split; auto.
      + exists m. split; auto. split; auto. rewrite Nat.add_1_r. auto. }
  apply G. rewrite Nat.mul_comm, Nat.div_mul by lia. lia.
Qed.
Lemma div_mono : forall a b n M, M <> 0 -> a <= b -> a * n / M <= b * n / M.
Proof. intros a b n M HM H. apply Nat.div_le_mono; auto. apply Nat.mul_le_mono_r. auto. Qed.
Lemma classes_partition : forall X M cls, 1 <= M -> equal_classes X M cls -> Permutation (concat cls) (seq 0 (length X)).
Proof.
  intros X M cls HM [HL H]. apply NoDup_Permutation.
  - apply NoDup_concat.
    + apply Forall_forall. intros c Hc. apply In_nth_error in Hc. destruct Hc as [j Hj]. apply sorted_NoDup. apply (H j c Hj).
    + intros a b ca cb i Ha Hb Ia Ib. apply (H a ca Ha) in Ia. apply (H b cb Hb) in Ib.
      destruct Ia as (_ & r & Hr & B1). destruct Ib as (_ & r' & Hr' & B2). rewrite (rank_unique _ _ _ _ Hr' Hr) in B2.
      destruct (Nat.lt_trichotomy a b) as [L|[L|L]]; auto; exfalso.
      * pose proof (div_mono (a + 1) b (length X) M ltac:(lia) ltac:(lia)). lia.
      * pose proof (div_mono (b + 1) a (length X) M ltac:(lia) ltac:(lia)). lia.
  - apply seq_NoDup.
  - intros i. rewrite in_concat, in_seq. split.
    + intros (c & Hc & Hi). apply In_nth_error in Hc. destruct Hc as [j Hj]. apply (H j c Hj) in Hi. lia.
    + intros [_ Hi]. simpl in Hi. destruct (class_exists (length X) M (ordinal X i) HM (ordinal_range X i Hi)) as (j & Hj & B).
      destruct (nth_error_lt_Some cls (i := j)) as [c Hc]; [lia|]. exists c. split; [eapply nth_error_In; eauto|].
      apply (H j c Hc). split; auto. exists (ordinal X i). split; auto. apply ordinal_rank; auto.
Qed.
Lemma class_nonempty : forall X M cls, 1 <= M <= length X -> equal_classes X M cls -> Forall (fun c => c <> []) cls.
Proof.
  intros X M cls HM [HL H]. apply Forall_forall. intros c Hc. apply In_nth_error in Hc. destruct Hc as [j Hj].
  assert (Hlt : j < M) by (rewrite <- HL; eapply nth_error_Some_lt; eauto).
  assert (G : j * length X / M < (j + 1) * length X / M).
  { replace ((j + 1) * length X) with (j * length X + length X) by lia.
    pose proof (Nat.div_le_mono (j * length X + 1 * M) (j * length X + length X) M ltac:(lia) ltac:(lia)) as D.
    rewrite Nat.div_add in D by lia. lia. }
  assert (U : (j + 1) * length X / M <= length X).
  { apply Nat.div_le_upper_bound; [lia|]. nia. }
  destruct (ordinal_onto X ((j + 1) * length X / M)) as (i & Hi & E); [lia|].
  assert (In i c). { apply (H j c Hj). split; auto. exists (ordinal X i). split; [apply ordinal_rank; auto|]. lia. }
  intros ->. destruct H0.
Qed.
Lemma class_size : forall X M cls j c, 1 <= M -> equal_classes X M cls -> nth_error cls j = Some c ->
  length c = (j + 1) * length X / M - j * length X / M.
Proof.
  intros X M cls j c HM [HL H] Hj. destruct (H j c Hj) as [HS HI].
  set (a := j * length X / M) in *. set (b := (j + 1) * length X / M) in *.
  assert (Hlt : j < M) by (rewrite <- HL; eapply nth_error_Some_lt; eauto).
  assert (U : b <= length X). { apply Nat.div_le_upper_bound; [lia|]. nia. }
  assert (E : Permutation (map (ordinal X) c) (seq (S a) (b - a))).
  { apply NoDup_Permutation.
    - apply map_NoDup_in; [|apply sorted_NoDup; auto]. intros x y Hx Hy E. apply HI in Hx, Hy. eapply ordinal_inj; eauto; tauto.
    - apply seq_NoDup.
    - intros r. rewrite in_map_iff, in_seq. split.
      + intros (i & <- & Hi). apply HI in Hi. destruct Hi as (Hi & r & Hr & B). apply rank_ordinal in Hr; auto. subst r. lia.
      + intros B. destruct (ordinal_onto X r) as (i & Hi & E); [lia|]. exists i. split; auto. apply HI. split; auto.
        exists r. split; [|lia]. apply rank_ordinal; auto. }
  apply Permutation_length in E. rewrite map_length, seq_length in E. auto.
Qed.
