(** * Proofs about grouping helpers and parameter files. *)
From Coq Require Import Reals Ascii String List Arith Bool Lia.
From Verif Require Import Base ModelGroups.
Import ListNotations.
Local Open Scope nat_scope.

Lemma mem_In : forall l x, mem x l = true <-> In x l.
Proof.
  induction l; simpl; intros; [intuition discriminate|].
  rewrite orb_true_iff, String.eqb_eq, IHl. intuition.
Qed.

Lemma list_eqb_eq : forall l l', list_eqb l l' = true <-> l = l'.
Proof.
  induction l; destruct l'; simpl; try intuition congruence.
  rewrite andb_true_iff, String.eqb_eq, IHl. intuition congruence.
Qed.

Lemma pd_unique_from_In : forall l seen x,
  In x (pd_unique_from seen l) <-> In x l /\ ~ In x seen.
Proof.
  induction l; simpl; intros seen x; [intuition|].
  destruct (mem a seen) eqn:E.
  - apply mem_In in E. rewrite IHl. intuition (subst; auto). contradiction.
  - assert (Hn : ~ In a seen) by (rewrite <- mem_In; congruence).
    simpl. rewrite IHl. simpl. destruct (string_dec a x); intuition (subst; auto).
Qed.

Lemma pd_unique_from_NoDup : forall l seen, NoDup (pd_unique_from seen l).
Proof.
  induction l; simpl; intros seen; [constructor|].
  destruct (mem a seen); auto. constructor; auto.
  rewrite pd_unique_from_In. simpl. intuition.
Qed.

Lemma pd_unique_In : forall l x, In x (pd_unique l) <-> In x l.
Proof. intros. unfold pd_unique. rewrite pd_unique_from_In. simpl. intuition. Qed.

Lemma pd_unique_NoDup : forall l, NoDup (pd_unique l).
Proof. intros. apply pd_unique_from_NoDup. Qed.

(** First-occurrence order, generalised over the labels already seen. *)
Lemma pd_unique_from_order : forall l seen i j x y,
  i < j ->
  nth_error (pd_unique_from seen l) i = Some x ->
  nth_error (pd_unique_from seen l) j = Some y ->
  exists a b, a < b /\
    (nth_error l a = Some x /\ forall m, m < a -> nth_error l m <> Some x) /\
    (nth_error l b = Some y /\ forall m, m < b -> nth_error l m <> Some y).
Proof.
  induction l; simpl; intros seen i j x y Hij Hi Hj.
  { destruct i; discriminate. }
  assert (Hshift : forall seen' i', nth_error (pd_unique_from seen' l) i' = Some x ->
     a <> x \/ True) by auto.
  destruct (mem a seen) eqn:E.
  - apply mem_In in E.
    assert (Hx : x <> a).
    { intros ->. apply nth_error_In in Hi. apply pd_unique_from_In in Hi. tauto. }
    assert (Hy : y <> a).
    { intros ->. apply nth_error_In in Hj. apply pd_unique_from_In in Hj. tauto. }
    destruct (IHl _ _ _ _ _ Hij Hi Hj) as (p & q & Hpq & [Hp1 Hp2] & [Hq1 Hq2]).
    exists (S p), (S q). split; [lia|]. split; split; simpl; auto.
    + intros [|m] Hm; simpl; [congruence|]. apply Hp2; lia.
    + intros [|m] Hm; simpl; [congruence|]. apply Hq2; lia.
  - destruct j as [|j]; [lia|]. simpl in Hj.
    assert (Hy : y <> a).
    { intros ->. apply nth_error_In in Hj. apply pd_unique_from_In in Hj.
      simpl in Hj. tauto. }
    destruct i as [|i]; simpl in Hi.
    + inversion Hi; subst x.
      assert (Hin : In y l).
      { apply nth_error_In in Hj. apply pd_unique_from_In in Hj. tauto. }
      assert (Hb : exists b, nth_error l b = Some y /\
                             forall m, m < b -> nth_error l m <> Some y).
      { clear - Hin. induction l as [|z l IH]; [destruct Hin|].
        destruct (string_dec z y) as [->|Hz].
        - exists 0. split; auto. intros m Hm; lia.
        - destruct Hin as [->|Hin]; [congruence|].
          destruct (IH Hin) as (b & Hb1 & Hb2). exists (S b). split; auto.
          intros [|m] Hm; simpl; [congruence|]. apply Hb2; lia. }
      destruct Hb as (b & Hb1 & Hb2).
      exists 0, (S b). split; [lia|]. split; split; simpl; auto.
      * intros m Hm; lia.
      * intros [|m] Hm; simpl; [congruence|]. apply Hb2; lia.
    + assert (Hx : x <> a).
      { intros ->. apply nth_error_In in Hi. apply pd_unique_from_In in Hi.
        simpl in Hi. tauto. }
      assert (Hij' : i < j) by lia.
      destruct (IHl _ _ _ _ _ Hij' Hi Hj) as (p & q & Hpq & [Hp1 Hp2] & [Hq1 Hq2]).
      exists (S p), (S q). split; [lia|]. split; split; simpl; auto.
      * intros [|m] Hm; simpl; [congruence|]. apply Hp2; lia.
      * intros [|m] Hm; simpl; [congruence|]. apply Hq2; lia.
Qed.

Definition group_source (p : problem) : list string :=
  match p_groups p with
  | Some (g :: gs) => g :: gs
  | _ => p_names p
  end.

Lemma extract_group_names_eq : forall p,
  extract_group_names p = (pd_unique (group_source p), length (pd_unique (group_source p))).
Proof.
  intros p. unfold extract_group_names, truthy_groups, group_source.
  destruct (p_groups p) as [[|g gs]|]; reflexivity.
Qed.

Lemma dict_index_spec : forall names g i found,
  NoDup names ->
  (~ In g names /\ dict_index g names i found = found) \/
  (exists k, nth_error names k = Some g /\ dict_index g names i found = Some (i + k)).
Proof.
  induction names; intros g i found HN; cbn [dict_index].
  - left. split; auto.
  - inversion HN; subst.
    destruct (String.eqb a g) eqn:E.
    + apply String.eqb_eq in E; subst a.
      destruct (IHnames g (S i) (Some i)) as [[_ H]|(k & Hk & H)]; auto.
      * right. exists 0. split; auto. rewrite H. f_equal; lia.
      * exfalso. apply H1. eapply nth_error_In; eauto.
    + apply String.eqb_neq in E.
      destruct (IHnames g (S i) found) as [[Hn H]|(k & Hk & H)]; auto.
      * left. split; auto. simpl. intuition.
      * right. exists (S k). split; auto. rewrite H. f_equal; lia.
Qed.

Lemma dict_index_In : forall names g, NoDup names -> In g names ->
  exists k, dict_index g names 0 None = Some k /\ nth_error names k = Some g.
Proof.
  intros names g HN Hin.
  destruct (dict_index_spec names g 0 None HN) as [[Hn _]|(k & Hk & H)].
  - contradiction.
  - eauto.
Qed.

Lemma compute_groups_matrix_total : forall groups,
  exists m, compute_groups_matrix groups = Ok (m, pd_unique groups).
Proof.
  intros. unfold compute_groups_matrix.
  match goal with |- context[mapM ?f groups] =>
    assert (H : exists ys, mapM f groups = Ok ys) end.
  { apply mapM_Ok_iff. intros x Hx.
    destruct (dict_index_In (pd_unique groups) x) as (k & Hk & _).
    - apply pd_unique_NoDup.
    - apply pd_unique_In; auto.
    - rewrite Hk. eauto. }
  destruct H as [ys H]. rewrite H. simpl. eauto.
Qed.

Lemma compute_groups_matrix_entries : forall groups m names,
  compute_groups_matrix groups = Ok (m, names) ->
  names = pd_unique groups /\
  length m = length groups /\
  (forall i g, nth_error groups i = Some g ->
     exists r k, nth_error m i = Some r /\ nth_error names k = Some g /\
       r = update (repeat 0 (length names)) k 1).
Proof.
  unfold compute_groups_matrix; intros groups m names H.
  match type of H with context[mapM ?f groups] =>
    destruct (mapM f groups) eqn:E end; simpl in H; [|discriminate].
  inversion H; subst. split; auto. split; [eapply mapM_Ok_length; eauto|].
  intros i g Hg.
  destruct (mapM_Ok_nth _ _ _ E Hg) as (y & Hy & Hn).
  destruct (dict_index_In (pd_unique groups) g) as (k & Hk & Hk2).
  - apply pd_unique_NoDup.
  - apply pd_unique_In. eapply nth_error_In; eauto.
  - rewrite Hk in Hy. inversion Hy; subst. eauto.
Qed.

Lemma groups_matrix_membership : forall groups m names,
  compute_groups_matrix groups = Ok (m, names) ->
  length m = length groups /\
  (forall r, In r m -> length r = length names /\ forall v, In v r -> v = 0 \/ v = 1) /\
  (forall i k, entry m i k = Some 1 <->
     exists g, nth_error groups i = Some g /\ nth_error names k = Some g).
Proof.
  intros groups m names H.
  assert (HN : NoDup names).
  { destruct (compute_groups_matrix_entries _ _ _ H) as [-> _]. apply pd_unique_NoDup. }
  destruct (compute_groups_matrix_entries _ _ _ H) as (Hn & Hl & He).
  split; auto. split.
  - intros r Hr. apply In_nth_error in Hr. destruct Hr as [i Hi].
    destruct (nth_error_lt_Some groups (i:=i)) as [g Hg].
    { rewrite <- Hl. eapply nth_error_Some_lt; eauto. }
    destruct (He _ _ Hg) as (r' & k & Hr' & Hk & ->).
    rewrite Hi in Hr'. inversion Hr'; subst r. clear Hr'.
    split.
    + rewrite length_update, repeat_length. reflexivity.
    + intros v Hv. apply In_nth_error in Hv. destruct Hv as [j Hj].
      rewrite nth_error_update, nth_error_repeat in Hj.
      destruct ((j =? k) && _); [inversion Hj; auto|].
      destruct (j <? _); inversion Hj; auto.
  - intros i k. rewrite entry_Some. split.
    + intros (r & Hr & Hk).
      destruct (nth_error_lt_Some groups (i:=i)) as [g Hg].
      { rewrite <- Hl. eapply nth_error_Some_lt; eauto. }
      destruct (He _ _ Hg) as (r' & k' & Hr' & Hk' & ->).
      rewrite Hr in Hr'. inversion Hr'; subst r. clear Hr'.
      rewrite nth_error_update, nth_error_repeat in Hk.
      destruct (k =? k') eqn:E; simpl in Hk.
      * apply Nat.eqb_eq in E; subst. eauto.
      * destruct (k <? _); inversion Hk.
    + intros (g & Hg & Hk).
      destruct (He _ _ Hg) as (r' & k' & Hr' & Hk' & ->).
      assert (k = k') by (eapply NoDup_nth_error'; eauto). subst k'.
      eexists; split; eauto.
      rewrite nth_error_update, Nat.eqb_refl, repeat_length.
      assert (k < length names) by (eapply nth_error_Some_lt; eauto).
      apply Nat.ltb_lt in H0. rewrite H0. reflexivity.
Qed.

Lemma groups_matrix_row_col : forall groups m names,
  compute_groups_matrix groups = Ok (m, names) ->
  (forall i, i < length groups -> exists k, entry m i k = Some 1 /\
             forall k', entry m i k' = Some 1 -> k' = k) /\
  (forall k, k < length names -> exists i, entry m i k = Some 1).
Proof.
  intros groups m names H.
  destruct (groups_matrix_membership _ _ _ H) as (_ & _ & Hm).
  destruct (compute_groups_matrix_entries _ _ _ H) as (Hn & _ & He).
  assert (HN : NoDup names) by (subst; apply pd_unique_NoDup).
  split.
  - intros i Hi. destruct (nth_error_lt_Some groups Hi) as [g Hg].
    destruct (He _ _ Hg) as (r & k & _ & Hk & _).
    exists k. split.
    + apply Hm. eauto.
    + intros k' Hk'. apply Hm in Hk'. destruct Hk' as (g' & Hg' & Hk').
      rewrite Hg in Hg'. inversion Hg'; subst. eapply NoDup_nth_error'; eauto.
  - intros k Hk. destruct (nth_error_lt_Some names Hk) as [g Hg].
    assert (Hin : In g groups).
    { apply pd_unique_In. subst names. eapply nth_error_In; eauto. }
    apply In_nth_error in Hin. destruct Hin as [i Hi].
    exists i. apply Hm. eauto.
Qed.

(** ** Defaults *)

Lemma set_size_1 : forall l, set_size l = 1 <-> l <> [] /\ forall x y, In x l -> In y l -> x = y.
Proof.
  intros l. unfold set_size. split.
  - intros H. destruct (nodup string_dec l) as [|a [|b r]] eqn:E; simpl in H; try lia.
    split.
    + intros ->. simpl in E. discriminate.
    + assert (Ha : forall z, In z l -> z = a).
      { intros z Hz. apply (nodup_In string_dec) in Hz. rewrite E in Hz.
        destruct Hz as [->|[]]; auto. }
      intros x y Hx Hy. rewrite (Ha x), (Ha y); auto.
  - intros [Hl Hall].
    destruct (nodup string_dec l) as [|a [|b r]] eqn:E; auto.
    + destruct l as [|z l]; [congruence|].
      assert (In z (nodup string_dec (z :: l))) by (apply nodup_In; simpl; auto).
      rewrite E in H. destruct H.
    + assert (Ha : In a l) by (apply (nodup_In string_dec); rewrite E; simpl; auto).
      assert (Hb : In b l) by (apply (nodup_In string_dec); rewrite E; simpl; auto).
      assert (HN : NoDup (a :: b :: r)) by (rewrite <- E; apply NoDup_nodup).
      inversion HN; subst. exfalso. apply H1. left. apply Hall; auto.
Qed.

Lemma check_groups_iff : forall p g,
  check_groups p = Some g <->
  p_groups p = Some g /\ g <> p_names p /\ exists x y, In x g /\ In y g /\ x <> y.
Proof.
  intros p g. unfold check_groups, truthy_groups.
  destruct (p_groups p) as [[|a l]|]; split; intros H.
  - discriminate.
  - destruct H as (H & _ & x & y & Hx & _). inversion H; subst. destruct Hx.
  - destruct (list_eqb (a :: l) (p_names p)) eqn:E1; [discriminate|].
    destruct (set_size (a :: l) =? 1) eqn:E2; [discriminate|].
    inversion H; subst. split; auto. split.
    + intros Heq. apply list_eqb_eq in Heq. congruence.
    + apply Nat.eqb_neq in E2.
      assert (Hd : (exists y, In y (a :: l) /\ a <> y) \/ forall y, In y (a :: l) -> a = y).
      { clear. induction (a :: l) as [|z r IH].
        - right. intros y [].
        - destruct IH as [(y & Hy & Hn)|IH]; [left; exists y; simpl; auto|].
          destruct (string_dec a z) as [->|Hz].
          + right. intros y [->|Hy]; auto.
          + left. exists z. simpl; auto. }
      destruct Hd as [(y & Hy & Hn)|Hd].
      * exists a, y. simpl in *. auto.
      * exfalso. apply E2. apply set_size_1. split; [discriminate|].
        intros x y Hx Hy. rewrite <- (Hd x), <- (Hd y); auto.
  - destruct H as (H & Hne & x & y & Hx & Hy & Hxy). inversion H; subst.
    destruct (list_eqb (a :: l) (p_names p)) eqn:E1.
    { apply list_eqb_eq in E1. congruence. }
    destruct (set_size (a :: l) =? 1) eqn:E2; auto.
    apply Nat.eqb_eq, set_size_1 in E2. destruct E2 as [_ E2].
    exfalso. apply Hxy. apply E2; auto.
  - discriminate.
  - destruct H as (H & _). discriminate.
Qed.

Lemma define_groups_cases : forall p,
  (p_groups p = None \/ p_groups p = Some []) /\
    (exists p', define_problem_with_groups p = Ok p' /\ p_groups p' = Some (p_names p) /\
       p_names p' = p_names p /\ p_num_vars p' = p_num_vars p /\ p_bounds p' = p_bounds p /\
       p_dists p' = p_dists p /\ p_scaled p' = p_scaled p)
  \/ (exists g, p_groups p = Some g /\ g <> [] /\ length g = p_num_vars p /\
        define_problem_with_groups p = Ok p)
  \/ (exists g, p_groups p = Some g /\ g <> [] /\ length g <> p_num_vars p /\
        define_problem_with_groups p = Err ValueError).
Proof.
  intros p. unfold define_problem_with_groups, truthy_groups.
  destruct (p_groups p) as [[|a l]|].
  - left. split; auto. eexists; repeat split; eauto.
  - right. destruct (length (a :: l) =? p_num_vars p) eqn:E; simpl negb; cbv iota.
    + left. apply Nat.eqb_eq in E. exists (a :: l). repeat split; auto. discriminate.
    + right. apply Nat.eqb_neq in E. exists (a :: l). repeat split; auto. discriminate.
  - left. split; auto. eexists; repeat split; eauto.
Qed.

Lemma define_groups_idem : forall p p',
  length (p_names p) = p_num_vars p ->
  define_problem_with_groups p = Ok p' -> define_problem_with_groups p' = Ok p'.
Proof.
  intros p p' Hl H.
  destruct p as [nv nm bd gr di sc]; simpl in *.
  unfold define_problem_with_groups, truthy_groups in H; simpl in H.
  assert (G : forall gs, length gs = nv ->
     (gs = [] -> nm = []) ->
     define_problem_with_groups (mkProblem nv nm bd (Some gs) di sc) =
     Ok (mkProblem nv nm bd (Some gs) di sc)).
  { intros gs Hgs Hnil. unfold define_problem_with_groups, truthy_groups; simpl.
    destruct gs; [rewrite Hnil by auto; reflexivity|].
    rewrite Hgs, Nat.eqb_refl. reflexivity. }
  destruct gr as [[|a l]|].
  - inversion H; subst. apply G; auto.
  - destruct (length (a :: l) =? nv) eqn:E; cbn [negb] in H; inversion H; subst.
    apply G; [apply Nat.eqb_eq; auto | discriminate].
  - inversion H; subst. apply G; auto.
Qed.

(** ** Parameter files *)

Definition kept (rs : list csv_row) : list csv_row :=
  filter (fun r => negb (is_comment (r_name r))) rs.
Arguments kept : simpl never.

Lemma kept_cons : forall r rs,
  kept (r :: rs) = if is_comment (r_name r) then kept rs else r :: kept rs.
Proof. intros. unfold kept. simpl. destruct (is_comment (r_name r)); reflexivity. Qed.

Lemma read_rows_Ok : forall rs a a',
  read_rows a rs = Ok a' ->
  a_names a' = (a_names a ++ map r_name (kept rs))%list /\
  a_groups a' = (a_groups a ++ map row_group (kept rs))%list /\
  a_dists a' = (a_dists a ++ map row_dist (kept rs))%list /\
  a_num a' = a_num a + length (kept rs) /\
  exists bs, a_bounds a' = (a_bounds a ++ bs)%list /\ length bs = length (kept rs) /\
    forall i r, nth_error (kept rs) i = Some r ->
      exists lo up, r_lower r = Ok lo /\ r_upper r = Ok up /\
                    nth_error bs i = Some [lo; up].
Proof.
  induction rs as [|r rs IH]; simpl; intros a a' H.
  - inversion H; subst. change (kept []) with (@nil csv_row). simpl.
    rewrite !app_nil_r. repeat split; auto.
    exists []. rewrite app_nil_r. repeat split; auto.
    intros i r Hi. destruct i; discriminate.
  - unfold read_row in H.
    destruct (is_comment (r_name r)) eqn:E; simpl in H.
    + destruct (IH _ _ H) as (H1 & H2 & H3 & H4 & H5).
      rewrite kept_cons, E; simpl. auto.
    + destruct (r_lower r) eqn:El; simpl in H; [|discriminate].
      destruct (r_upper r) eqn:Eu; simpl in H; [|discriminate].
      destruct (IH _ _ H) as (H1 & H2 & H3 & H4 & bs & Hb & Hbl & Hbi); simpl in *.
      rewrite kept_cons, E; simpl.
      rewrite <- app_assoc in H1, H2, H3, Hb. simpl in *.
      repeat split; auto; [lia|].
      exists ([a0; a1] :: bs). repeat split; auto; [simpl; lia|].
      intros [|i] r' Hi; simpl in *.
      * inversion Hi; subst. eauto.
      * eauto.
Qed.

Lemma read_rows_Err : forall rs a e,
  read_rows a rs = Err e ->
  exists r, In r (kept rs) /\
    (r_lower r = Err e \/ (exists lo, r_lower r = Ok lo) /\ r_upper r = Err e).
Proof.
  induction rs as [|r rs IH]; simpl; intros a e H; [discriminate|].
  rewrite kept_cons.
  unfold read_row in H.
  destruct (is_comment (r_name r)) eqn:E; simpl in *.
  - eauto.
  - destruct (r_lower r) eqn:El; simpl in H.
    + destruct (r_upper r) eqn:Eu; simpl in H.
      * destruct (IH _ _ H) as (r' & Hr' & Hcase). eauto.
      * inversion H; subst. exists r. split; auto. right; split; eauto.
    + inversion H; subst. exists r. auto.
Qed.

Definition unreadable_number (r : csv_row) : Prop :=
  exists e, r_lower r = Err e \/ r_upper r = Err e.

Lemma read_rows_total : forall rs a,
  (forall r, In r (kept rs) -> ~ unreadable_number r) -> exists a', read_rows a rs = Ok a'.
Proof.
  intros rs a H. destruct (read_rows a rs) eqn:E; eauto.
  apply read_rows_Err in E. destruct E as (r & Hr & Hc).
  exfalso. apply (H r Hr). exists e. intuition.
Qed.

Lemma forallb_unif : forall l,
  forallb (fun d => String.eqb d "unif") l = true <-> forall d, In d l -> d = "unif"%string.
Proof.
  intros. rewrite forallb_forall. split; intros H d Hd.
  - apply String.eqb_eq; auto.
  - apply String.eqb_eq; auto.
Qed.

Lemma map_eq_iff : forall (rs : list csv_row),
  map row_group rs = map r_name rs <-> forall r, In r rs -> row_group r = r_name r.
Proof.
  induction rs; simpl; split; intros H; auto.
  - intros r [].
  - inversion H. intros r [->|Hr]; auto. apply IHrs; auto.
  - f_equal; auto. apply IHrs; auto.
Qed.

Theorem read_param_file_ok_lemma : forall rs p,
  read_param_file rs = Ok p ->
  p_names p = map r_name (kept rs) /\
  p_num_vars p = length (kept rs) /\
  length (p_bounds p) = length (kept rs) /\
  (forall i r, nth_error (kept rs) i = Some r ->
     exists lo up, r_lower r = Ok lo /\ r_upper r = Ok up /\
                   nth_error (p_bounds p) i = Some [lo; up]) /\
  (p_groups p = None <-> forall r, In r (kept rs) -> row_group r = r_name r) /\
  (forall g, p_groups p = Some g -> g = map row_group (kept rs)) /\
  (p_dists p = None <-> forall r, In r (kept rs) -> row_dist r = "unif"%string) /\
  (forall d, p_dists p = Some d -> d = map row_dist (kept rs)).
Proof.
  intros rs p H. unfold read_param_file in H.
  destruct (read_rows (mkAcc [] [] [] [] 0) rs) as [a|] eqn:E; simpl in H; [|discriminate].
  destruct (read_rows_Ok _ _ _ E) as (H1 & H2 & H3 & H4 & bs & H5 & H6 & H7).
  simpl in *.
  destruct (list_eqb (a_groups a) (a_names a)) eqn:Eg; simpl in H.
  - apply list_eqb_eq in Eg.
    inversion H; subst p; clear H; simpl.
    repeat split; auto.
    + congruence.
    + rewrite H5. auto.
    + intros _. apply map_eq_iff. congruence.
    + discriminate.
    + intros Hd. destruct (forallb _ (a_dists a)) eqn:Ed; [|discriminate].
      rewrite forallb_unif, H3 in Ed. intros r Hr. apply Ed. apply in_map; auto.
    + intros Hd. destruct (forallb _ (a_dists a)) eqn:Ed; auto.
      exfalso. assert (forallb (fun d => String.eqb d "unif") (a_dists a) = true); [|congruence].
      apply forallb_unif. rewrite H3. intros d Hin. apply in_map_iff in Hin.
      destruct Hin as (r & <- & Hr). auto.
    + intros d Hd. destruct (forallb _ (a_dists a)); inversion Hd; auto.
  - assert (Hne : a_groups a <> a_names a).
    { intros Hx. apply list_eqb_eq in Hx. congruence. }
    destruct (set_size (a_groups a) =? 1) eqn:Es; simpl in H; [discriminate|].
    inversion H; subst p; clear H; simpl.
    repeat split; auto.
    + congruence.
    + rewrite H5. auto.
    + discriminate.
    + intros Hr. apply map_eq_iff in Hr. congruence.
    + intros g Hg. inversion Hg; subst. auto.
    + intros Hd. destruct (forallb _ (a_dists a)) eqn:Ed; [|discriminate].
      rewrite forallb_unif, H3 in Ed. intros r Hr. apply Ed. apply in_map; auto.
    + intros Hd. destruct (forallb _ (a_dists a)) eqn:Ed; auto.
      exfalso. assert (forallb (fun d => String.eqb d "unif") (a_dists a) = true); [|congruence].
      apply forallb_unif. rewrite H3. intros d Hin. apply in_map_iff in Hin.
      destruct Hin as (r & <- & Hr). auto.
    + intros d Hd. destruct (forallb _ (a_dists a)); inversion Hd; auto.
Qed.

Theorem read_param_file_err_lemma : forall rs,
  (exists e, read_param_file rs = Err e) <->
  (exists r, In r (kept rs) /\ unreadable_number r) \/
  ((exists r, In r (kept rs) /\ row_group r <> r_name r) /\
   (forall r r', In r (kept rs) -> In r' (kept rs) -> row_group r = row_group r')).
Proof.
  intros rs. split.
  - intros [e H]. unfold read_param_file in H.
    destruct (read_rows (mkAcc [] [] [] [] 0) rs) as [a|e'] eqn:E; simpl in H.
    + destruct (read_rows_Ok _ _ _ E) as (H1 & H2 & H3 & H4 & _). simpl in *.
      destruct (list_eqb (a_groups a) (a_names a)) eqn:Eg; simpl in H; [discriminate|].
      destruct (set_size (a_groups a) =? 1) eqn:Es; simpl in H; [|discriminate].
      apply Nat.eqb_eq, set_size_1 in Es. destruct Es as [_ Es].
      right. split.
      * assert (Hd : (exists r, In r (kept rs) /\ row_group r <> r_name r) \/
                     (forall r, In r (kept rs) -> row_group r = r_name r)).
        { clear. induction (kept rs) as [|r l IH].
          - right; intros r [].
          - destruct IH as [(r' & Hr' & Hn)|IH]; [left; exists r'; simpl; auto|].
            destruct (string_dec (row_group r) (r_name r)).
            + right. intros r' [->|Hr']; auto.
            + left; exists r; simpl; auto. }
        destruct Hd as [Hd|Hd]; auto.
        apply map_eq_iff in Hd. rewrite <- H1, <- H2 in Hd.
        apply list_eqb_eq in Hd. congruence.
      * intros r r' Hr Hr'. apply Es; rewrite H2; apply in_map; auto.
    + apply read_rows_Err in E. destruct E as (r & Hr & Hc).
      left. exists r. split; auto. exists e'. intuition.
  - intros H.
    destruct (read_param_file rs) as [p|e] eqn:E; eauto.
    exfalso. destruct (read_param_file_ok_lemma _ _ E) as (_ & _ & _ & Hb & Hg & Hg2 & _).
    destruct H as [(r & Hr & e & He)|[(r & Hr & Hn) Hall]].
    + apply In_nth_error in Hr. destruct Hr as [i Hi].
      destruct (Hb _ _ Hi) as (lo & up & Hlo & Hup & _).
      destruct He; congruence.
    + unfold read_param_file in E.
      destruct (read_rows (mkAcc [] [] [] [] 0) rs) as [a|e'] eqn:Er; simpl in E; [|discriminate].
      destruct (read_rows_Ok _ _ _ Er) as (H1 & H2 & H3 & H4 & _). simpl in *.
      destruct (list_eqb (a_groups a) (a_names a)) eqn:Eg; simpl in E.
      * apply list_eqb_eq in Eg. rewrite H1, H2 in Eg.
        apply Hn. apply map_eq_iff with (rs := kept rs); auto.
      * destruct (set_size (a_groups a) =? 1) eqn:Es; simpl in E; [discriminate|].
        apply Nat.eqb_neq in Es. apply Es. apply set_size_1. rewrite H2. split.
        -- intros Hx. apply map_eq_nil in Hx. rewrite Hx in Hr. destruct Hr.
        -- intros x y Hx Hy. apply in_map_iff in Hx. apply in_map_iff in Hy.
           destruct Hx as (rx & <- & Hrx), Hy as (ry & <- & Hry). auto.
Qed.
