(** * Linking the models of ModelGroups to the vocabulary of SpecGroups. *)
From Coq Require Import Reals Ascii String List Arith Bool Lia.
From Verif Require Import Base ModelGroups SpecGroups ProofsGroups.
Import ListNotations.
Local Open Scope nat_scope.

Lemma labels_of_source : forall p ls, labels_of p ls <-> ls = group_source p.
Proof.
  intros p ls. unfold labels_of, group_source.
  destruct (p_groups p) as [[|g gs]|]; split; intros H.
  - destruct H as [(a & b & H & _)|[_ H]]; [discriminate|auto].
  - right; auto.
  - destruct H as [(a & b & H & ->)|[[H|H] _]]; congruence.
  - left. subst. eauto.
  - destruct H as [(a & b & H & _)|[_ H]]; [discriminate|auto].
  - right; auto.
Qed.

Lemma group_names_lemma : forall p ls names n,
  labels_of p ls -> extract_group_names p = (names, n) ->
  NoDup names /\ (forall x, In x names <-> In x ls) /\ n = length names /\
  (forall i j x y, i < j -> nth_error names i = Some x -> nth_error names j = Some y ->
     exists a b, a < b /\ first_at ls x a /\ first_at ls y b).
Proof.
  intros p ls names n Hl H. apply labels_of_source in Hl. subst ls.
  rewrite extract_group_names_eq in H. inversion H; subst. clear H.
  repeat split.
  - apply pd_unique_NoDup.
  - apply pd_unique_In.
  - apply pd_unique_In.
  - intros. eapply pd_unique_from_order; eauto.
Qed.

Lemma matrix_names_lemma : forall groups m names,
  compute_groups_matrix groups = Ok (m, names) ->
  NoDup names /\ (forall x, In x names <-> In x groups) /\
  (forall i j x y, i < j -> nth_error names i = Some x -> nth_error names j = Some y ->
     exists a b, a < b /\ first_at groups x a /\ first_at groups y b).
Proof.
  intros groups m names H.
  destruct (compute_groups_matrix_entries _ _ _ H) as [-> _].
  repeat split.
  - apply pd_unique_NoDup.
  - apply pd_unique_In.
  - apply pd_unique_In.
  - intros. eapply pd_unique_from_order; eauto.
Qed.

Lemma is_space_iff : forall c, is_space c = true <->
  In c (map ascii_of_nat [9; 10; 11; 12; 13; 28; 29; 30; 31; 32]).
Proof.
  intros c. rewrite <- (ascii_nat_embedding c).
  assert (Hn : nat_of_ascii c < 256).
  { destruct c as [[] [] [] [] [] [] [] []]; vm_compute; lia. }
  unfold is_space. rewrite nat_ascii_embedding by auto.
  rewrite !orb_true_iff, !andb_true_iff, Nat.eqb_eq, !Nat.leb_le.
  set (n := nat_of_ascii c) in *. clearbody n. clear c.
  split.
  - intros H.
    assert (In n [9; 10; 11; 12; 13; 28; 29; 30; 31; 32]).
    { simpl. lia. }
    apply in_map; auto.
  - intros H. apply in_map_iff in H. destruct H as (k & Hk & Hin).
    assert (k = n).
    { apply (f_equal nat_of_ascii) in Hk.
      rewrite !nat_ascii_embedding in Hk; auto.
      simpl in Hin. lia. }
    subst k. simpl in Hin. lia.
Qed.

Lemma is_comment_iff : forall s, is_comment s = true <-> comment_name s.
Proof.
  induction s as [|c s IH]; simpl.
  - split; [discriminate|]. intros (pre & rest & H & _). destruct pre; discriminate.
  - split.
    + destruct (is_space c) eqn:E; intros H.
      * apply IH in H. destruct H as (pre & rest & -> & Hp).
        exists (String c pre), rest. split; auto.
        intros d [<-|Hd]; auto. apply is_space_iff; auto.
      * apply Ascii.eqb_eq in H. subst c. exists EmptyString, s. split; auto. intros d [].
    + intros (pre & rest & H & Hp). destruct pre as [|d pre]; simpl in H.
      * inversion H; subst. reflexivity.
      * inversion H; subst.
        replace (is_space d) with true.
        -- apply IH. exists pre, rest. split; auto. intros e He. apply Hp. simpl; auto.
        -- symmetry. apply is_space_iff. apply Hp. simpl; auto.
Qed.

Lemma param_rows_kept : forall rs, param_rows rs (kept rs).
Proof.
  induction rs as [|r rs IH]; [constructor|].
  rewrite kept_cons. destruct (is_comment (r_name r)) eqn:E.
  - constructor; auto. apply is_comment_iff; auto.
  - apply pr_param; auto. rewrite <- is_comment_iff. congruence.
Qed.

Lemma param_rows_unique : forall rs ks, param_rows rs ks -> ks = kept rs.
Proof.
  induction 1; auto; rewrite kept_cons.
  - apply is_comment_iff in H. rewrite H. auto.
  - rewrite <- is_comment_iff in H. destruct (is_comment (r_name r)); [exfalso; auto|].
    f_equal; auto.
Qed.

Lemma row_group_iff : forall r g, effective_group r g <-> g = row_group r.
Proof.
  intros r g. unfold effective_group, row_group.
  destruct (r_group r) as [h|]; split; intros H.
  - destruct H as [[[H|H] ->]|[H Hn]]; try discriminate.
    + inversion H; subst. reflexivity.
    + inversion H; subst. apply String.eqb_neq in Hn. rewrite Hn. reflexivity.
  - destruct (String.eqb h "NA") eqn:E.
    + apply String.eqb_eq in E. subst. auto.
    + apply String.eqb_neq in E. subst. auto.
  - destruct H as [[_ ->]|[H _]]; [auto|discriminate].
  - auto.
Qed.

Lemma row_dist_iff : forall r d, effective_dist r d <-> d = row_dist r.
Proof.
  intros r d. unfold effective_dist, row_dist.
  destruct (r_dist r); split; intros H; intuition congruence.
Qed.

Lemma bad_number_iff : forall r, bad_number r <-> unreadable_number r.
Proof.
  intros r. unfold bad_number, unreadable_number.
  destruct (r_lower r) as [lo|e], (r_upper r) as [up|e']; split; intros H.
  - destruct H as [H|H]; [specialize (H lo)|specialize (H up)]; congruence.
  - destruct H as (e & [H|H]); discriminate.
  - eauto.
  - right. congruence.
  - eauto.
  - left; congruence.
  - eauto.
  - left; congruence.
Qed.

Lemma Forall2_map_r : forall A B (R : A -> B -> Prop) (f : A -> B) l,
  (forall x, R x (f x)) -> Forall2 R l (map f l).
Proof. induction l; simpl; constructor; auto. Qed.

Lemma read_param_file_ok : forall rs ks p,
  param_rows rs ks -> read_param_file rs = Ok p ->
  p_names p = map r_name ks /\
  p_num_vars p = length ks /\
  Forall2 (fun r b => exists lo up, r_lower r = Ok lo /\ r_upper r = Ok up /\ b = [lo; up])
          ks (p_bounds p) /\
  (p_groups p = None <-> forall r, In r ks -> effective_group r (r_name r)) /\
  (forall g, p_groups p = Some g -> Forall2 effective_group ks g) /\
  (p_dists p = None <-> forall r, In r ks -> effective_dist r "unif"%string) /\
  (forall d, p_dists p = Some d -> Forall2 effective_dist ks d).
Proof.
  intros rs ks p Hk H. apply param_rows_unique in Hk. subst ks.
  destruct (read_param_file_ok_lemma _ _ H) as (H1 & H2 & H3 & H4 & H5 & H6 & H7 & H8).
  split; auto. split; auto. split; [|split; [|split; [|split]]].
  - revert H3 H4. generalize (p_bounds p) (kept rs). clear.
    intros bs ks. revert bs.
    induction ks as [|k ks IH]; destruct bs as [|b bs]; simpl; intros Hl H; try discriminate.
    + constructor.
    + constructor.
      * destruct (H 0 k eq_refl) as (lo & up & Hlo & Hup & Hb). inversion Hb; eauto.
      * apply IH; [congruence|]. intros i r Hi. exact (H (S i) r Hi).
  - rewrite H5. split; intros Hx r Hr.
    + apply row_group_iff. symmetry; auto.
    + specialize (Hx r Hr). apply row_group_iff in Hx. auto.
  - intros g Hg. rewrite (H6 _ Hg). apply Forall2_map_r. intros x.
    apply row_group_iff; reflexivity.
  - rewrite H7. split; intros Hx r Hr.
    + apply row_dist_iff. symmetry; auto.
    + specialize (Hx r Hr). apply row_dist_iff in Hx. auto.
  - intros d Hd. rewrite (H8 _ Hd). apply Forall2_map_r. intros x.
    apply row_dist_iff; reflexivity.
Qed.

Lemma read_param_file_err : forall rs ks,
  param_rows rs ks ->
  ((exists e, read_param_file rs = Err e) <->
   (exists r, In r ks /\ bad_number r) \/
   ((exists r, In r ks /\ ~ effective_group r (r_name r)) /\
    (exists g, forall r, In r ks -> effective_group r g))).
Proof.
  intros rs ks Hk. apply param_rows_unique in Hk. subst ks.
  rewrite read_param_file_err_lemma. split.
  - intros [(r & Hr & Hb)|[(r & Hr & Hn) Hall]].
    + left. exists r. rewrite bad_number_iff. auto.
    + right. split.
      * exists r. split; auto. rewrite row_group_iff. congruence.
      * exists (row_group r). intros r' Hr'. apply row_group_iff. auto.
  - intros [(r & Hr & Hb)|[(r & Hr & Hn) (g & Hg)]].
    + left. exists r. rewrite <- bad_number_iff. auto.
    + right. split.
      * exists r. split; auto. rewrite row_group_iff in Hn. congruence.
      * intros r1 r2 Hr1 Hr2. apply Hg in Hr1. apply Hg in Hr2.
        apply row_group_iff in Hr1. apply row_group_iff in Hr2. congruence.
Qed.
