(** * Proofs about the Sobol'/Saltelli layout. *)
From Coq Require Import Reals String List Arith ZArith Bool Lia.
From Verif Require Import Base Arrays ModelGroups SpecGroups ProofsGroups ProofsGroups2 ModelScale
  Stats ModelSobol SpecSobol.
Import ListNotations.
Local Open Scope nat_scope.

Lemma first_at_fun : forall l x a b, first_at l x a -> first_at l x b -> a = b.
Proof.
  intros l x a b [Ha1 Ha2] [Hb1 Hb2].
  destruct (lt_eq_lt_dec a b) as [[H|H]|H]; auto.
  - exfalso. eapply Hb2; eauto.
  - exfalso. eapply Ha2; eauto.
Qed.

Lemma first_appearance_unique : forall ls ns ns',
  first_appearance ls ns -> first_appearance ls ns' -> ns = ns'.
Proof.
  intros ls ns ns' (N1 & I1 & O1) (N2 & I2 & O2). apply nth_error_ext'.
  intros i. induction i as [k IH] using lt_wf_ind.
  assert (Half : forall l l', NoDup l -> NoDup l' ->
            (forall x, In x l <-> In x ls) -> (forall x, In x l' <-> In x ls) ->
            (forall m, m < k -> nth_error l m = nth_error l' m) ->
            forall x, nth_error l k = Some x -> exists m, k <= m /\ nth_error l' m = Some x).
  { intros l l' Nl Nl' Il Il' IHk x Hx.
    assert (Hin : In x l') by (apply Il', Il; eapply nth_error_In; eauto).
    apply in_nth_error in Hin. destruct Hin as [m Hm]. exists m. split; auto.
    destruct (Nat.le_gt_cases k m); auto. exfalso.
    rewrite <- IHk in Hm by auto.
    assert (m = k) by (eapply (@NoDup_nth_error' _ l); eauto). lia. }
  destruct (nth_error ns k) as [x|] eqn:Ex; destruct (nth_error ns' k) as [y|] eqn:Ey; auto.
  - destruct (Half ns ns' N1 N2 I1 I2 IH x Ex) as (m & Hm1 & Hm2).
    destruct (Half ns' ns N2 N1 I2 I1 (fun m H => eq_sym (IH m H)) y Ey) as (m' & Hm1' & Hm2').
    destruct (Nat.eq_dec m k) as [->|Hne]; [congruence|].
    destruct (Nat.eq_dec m' k) as [->|Hne']; [congruence|]. exfalso.
    destruct (O2 k m y x) as (a & b & Hab & Fa & Fb); auto; [lia|].
    destruct (O1 k m' x y) as (c & d & Hcd & Fc & Fd); auto; [lia|].
    pose proof (first_at_fun _ _ _ _ Fa Fd). pose proof (first_at_fun _ _ _ _ Fb Fc). lia.
  - destruct (Half ns ns' N1 N2 I1 I2 IH x Ex) as (m & Hm1 & Hm2).
    apply nth_error_None in Ey. apply nth_error_Some_lt in Hm2. lia.
  - destruct (Half ns' ns N2 N1 I2 I1 (fun m H => eq_sym (IH m H)) y Ey) as (m & Hm1 & Hm2).
    apply nth_error_None in Ex. apply nth_error_Some_lt in Hm2. lia.
Qed.

Lemma first_appearance_pd_unique : forall ls, first_appearance ls (pd_unique ls).
Proof.
  intros ls. destruct (compute_groups_matrix_total ls) as [m Hm].
  destruct (matrix_names_lemma _ _ _ Hm) as (H1 & H2 & H3). split; [|split]; auto.
Qed.

Lemma grouped_iff : forall p g, check_groups p = Some g <-> grouped p g.
Proof. exact check_groups_iff. Qed.

Lemma ungrouped_iff : forall p, check_groups p = None <-> ungrouped p.
Proof.
  intros p. split.
  - intros H g Hg. apply grouped_iff in Hg. congruence.
  - intros H. destruct (check_groups p) as [g|] eqn:E; auto.
    exfalso. apply (H g). apply grouped_iff; auto.
Qed.

Lemma set_size_unique : forall l, set_size (pd_unique l) = length (pd_unique l).
Proof. intros. unfold set_size. rewrite nodup_fixed_point; auto. apply pd_unique_NoDup. Qed.

Lemma sampler_groups_ok : forall p, exists G names,
  sampler_groups p = Ok (G, names) /\ group_count p G /\
  (forall g, check_groups p = Some g -> names = pd_unique g) /\
  (forall g, check_groups p = Some g -> G = length (pd_unique g)).
Proof.
  intros p. unfold sampler_groups. destruct (check_groups p) as [g|] eqn:E.
  - destruct (compute_groups_matrix_total g) as [m Hm]. rewrite Hm. simpl.
    do 2 eexists. split; [reflexivity|]. rewrite set_size_unique. split; [|split].
    + left. exists g, (pd_unique g). split; [apply grouped_iff; auto|].
      split; [apply first_appearance_pd_unique | auto].
    + intros g' Hg'; congruence.
    + intros g' Hg'; congruence.
  - do 2 eexists. split; [reflexivity|]. split; [|split; discriminate].
    right. split; auto. apply ungrouped_iff; auto.
Qed.

Lemma group_count_fun : forall p G G', group_count p G -> group_count p G' -> G = G'.
Proof.
  intros p G G' [(g & ns & Hg & Hn & ->)|[Hu ->]] [(g' & ns' & Hg' & Hn' & ->)|[Hu' ->]]; auto.
  - assert (g = g') by (destruct Hg, Hg'; congruence). subst g'.
    f_equal. eapply first_appearance_unique; eauto.
  - exfalso. eapply Hu'; eauto.
  - exfalso. eapply Hu; eauto.
Qed.

Lemma takes_other_spec : forall p G names k j, labelled p ->
  sampler_groups p = Ok (G, names) -> k < G -> j < p_num_vars p ->
  exists t, takes_other (check_groups p) names k j = Ok t /\ (t = true <-> in_group p k j).
Proof.
  intros p G names k j HL HS Hk Hj.
  destruct (sampler_groups_ok p) as (G' & names' & E & HG & Hn & Hl).
  rewrite E in HS. injection HS as <- <-.
  unfold takes_other. destruct (check_groups p) as [g|] eqn:Eg.
  - specialize (Hn g eq_refl). specialize (Hl g eq_refl). subst names'.
    assert (Hgr : grouped p g) by (apply grouped_iff; auto).
    unfold get. destruct (nth_error_lt_Some (pd_unique g) (i := k)) as [a Ha]; [lia|].
    destruct (nth_error_lt_Some g (i := j)) as [b Hb]; [rewrite (HL g Hgr); auto|].
    rewrite Ha, Hb. simpl. eexists. split; [reflexivity|].
    rewrite String.eqb_eq. split.
    + intros ->. left. exists g, (pd_unique g), b.
      split; auto. split; [apply first_appearance_pd_unique|auto].
    + intros [(g' & ns & x & Hg' & Hns & Hx & Hxj)|[Hu _]].
      * assert (g' = g) by (destruct Hg', Hgr; congruence). subst g'.
        assert (ns = pd_unique g)
          by (eapply first_appearance_unique; eauto; apply first_appearance_pd_unique).
        subst ns. congruence.
      * exfalso. eapply Hu; eauto.
  - eexists. split; [reflexivity|]. rewrite Nat.eqb_eq. split.
    + intros ->. right. split; auto. apply ungrouped_iff; auto.
    + intros [(g' & ns & x & Hg' & _)|[_ ->]]; auto.
      apply grouped_iff in Hg'. congruence.
Qed.

(** ** The layout *)
Section Layout.
Context {A : Type}.

Definition ok_or (x : result (list A)) : list A := match x with Ok a => a | Err _ => [] end.

Lemma copy_row_ok : forall (b : list A) D off, D + off <= length b ->
  copy_row b D off = Ok (firstn D (skipn off b)).
Proof.
  intros b D off H. unfold copy_row.
  destruct (proj2 (mapM_Ok_iff (fun j => get b (j + off)) (seq 0 D))) as [ys Hys].
  { intros x Hx. apply in_seq in Hx. unfold get.
    destruct (nth_error_lt_Some b (i := x + off)) as [y Hy]; [lia|]. rewrite Hy. eauto. }
  rewrite Hys. f_equal. apply nth_error_ext'. intros i.
  rewrite nth_error_firstn, nth_error_skipn.
  destruct (Nat.ltb_spec i D) as [Hi|Hi].
  - destruct (mapM_Ok_nth _ _ i Hys (x := i)) as (y & Hy1 & Hy2).
    { rewrite nth_error_seq. destruct (Nat.ltb_spec i D); auto; lia. }
    rewrite Hy2. unfold get in Hy1. rewrite (Nat.add_comm off i).
    destruct (nth_error b (i + off)); congruence.
  - apply nth_error_None. rewrite (mapM_Ok_length _ _ Hys), seq_length. lia.
Qed.

Lemma cross_row_ok : forall p G names (a b : list A) k, labelled p ->
  sampler_groups p = Ok (G, names) -> k < G ->
  length a = p_num_vars p -> length b = p_num_vars p ->
  exists r1 r2,
    cross_row (a ++ b) (check_groups p) names (p_num_vars p) k (p_num_vars p) 0 = Ok r1 /\
    replaced (in_group p k) a b r1 /\
    cross_row (a ++ b) (check_groups p) names (p_num_vars p) k 0 (p_num_vars p) = Ok r2 /\
    replaced (in_group p k) b a r2.
Proof.
  intros p G names a b k HL HS Hk Ha Hb. set (D := p_num_vars p) in *.
  assert (Gen : forall on off x y,
    (forall j, j < D -> nth_error (a ++ b) (j + on) = nth_error y j) ->
    (forall j, j < D -> nth_error (a ++ b) (j + off) = nth_error x j) ->
    length x = D -> length y = D ->
    exists r, cross_row (a ++ b) (check_groups p) names D k on off = Ok r /\
              replaced (in_group p k) x y r).
  { intros on off x y Hon Hoff Hx Hy. unfold cross_row.
    match goal with |- context[mapM ?f ?l] => set (F := f); set (L := l) end.
    assert (HF : forall j, j < D -> exists t v, takes_other (check_groups p) names k j = Ok t /\
              (t = true <-> in_group p k j) /\ F j = Ok v /\
              nth_error (if t then y else x) j = Some v).
    { intros j Hj. destruct (takes_other_spec p G names k j HL HS Hk Hj) as (t & Ht & Hti).
      destruct (nth_error_lt_Some (if t then y else x) (i := j)) as [v Hv].
      { destruct t; lia. }
      exists t, v. repeat split; auto; try tauto.
      unfold F. rewrite Ht. simpl. unfold get.
      destruct t; [rewrite Hon by auto|rewrite Hoff by auto]; rewrite Hv; reflexivity. }
    destruct (proj2 (mapM_Ok_iff F L)) as [ys Hys].
    { intros j Hj. apply in_seq in Hj. destruct (HF j) as (t & v & _ & _ & H & _); [lia|eauto]. }
    exists ys. split; auto.
    assert (HLen : length ys = D) by (rewrite (mapM_Ok_length _ _ Hys); apply seq_length).
    split; [lia|]. intros j.
    destruct (Nat.lt_ge_cases j D) as [Hj|Hj].
    - destruct (mapM_Ok_nth _ _ j Hys (x := j)) as (w & Hw1 & Hw2).
      { unfold L. rewrite nth_error_seq. destruct (Nat.ltb_spec j D); auto; lia. }
      destruct (HF j Hj) as (t & v & Ht & Hti & Hv1 & Hv2).
      rewrite Hv1 in Hw1. injection Hw1 as <-. rewrite Hw2.
      split; intros Hin.
      + assert (t = true) by tauto. subst t. auto.
      + assert (t = false) by (destruct t; auto; exfalso; tauto). subst t. auto.
    - rewrite !(proj2 (nth_error_None _ j)) by lia. split; auto. }
  assert (H1 : forall j, j < D -> nth_error (a ++ b) (j + 0) = nth_error a j).
  { intros j Hj. rewrite Nat.add_0_r. apply nth_error_app1. lia. }
  assert (H2 : forall j, j < D -> nth_error (a ++ b) (j + D) = nth_error b j).
  { intros j Hj. rewrite nth_error_app2 by lia. f_equal. lia. }
  destruct (Gen D 0 a b) as (r1 & E1 & R1); auto.
  destruct (Gen 0 D b a) as (r2 & E2 & R2); auto.
  exists r1, r2. auto.
Qed.

Lemma foldM_write_map : forall X (g : X -> result (list A)) (ks : list X) (st : buffer A),
  (forall k, In k ks -> exists r, g k = Ok r) ->
  foldM (fun st k => do r <- g k ;; write_row st r) ks st =
  foldM write_row (map (fun k => ok_or (g k)) ks) st.
Proof.
  intros X g ks st H. rewrite foldM_map. apply foldM_ext. intros s x Hx.
  destruct (H x Hx) as [r ->]. reflexivity.
Qed.

Lemma foldM_concat : forall S X Y (f : S -> Y -> result S) (g : X -> list Y) l s,
  foldM (fun s x => foldM f (g x) s) l s = foldM f (concat (map g l)) s.
Proof.
  induction l; simpl; intros; auto. rewrite foldM_app.
  destruct (foldM f (g a) s); simpl; auto.
Qed.

(** The rows written for one base row. *)
Definition block_rows (names : list string) (p : problem) (G : nat) (second : bool) (b : list A)
  : list (list A) :=
  let D := p_num_vars p in
  (firstn D b :: map (fun k => ok_or (cross_row b (check_groups p) names D k D 0)) (seq 0 G)) ++
  (if second then map (fun k => ok_or (cross_row b (check_groups p) names D k 0 D)) (seq 0 G)
   else []) ++ [skipn D b].

Lemma split_row : forall (b : list A) D, length b = 2 * D ->
  exists u v, b = u ++ v /\ length u = D /\ length v = D /\ firstn D b = u /\ skipn D b = v.
Proof.
  intros b D H. exists (firstn D b), (skipn D b).
  rewrite firstn_skipn, firstn_length, skipn_length. repeat split; auto; lia.
Qed.

Lemma sample_block_rows : forall p G names second base i b st, labelled p ->
  sampler_groups p = Ok (G, names) -> nth_error base i = Some b -> length b = 2 * p_num_vars p ->
  sample_block base (check_groups p) names (p_num_vars p) G second st i =
  foldM write_row (block_rows names p G second b) st.
Proof.
  intros p G names second base i b st HL HS Hi Hb. set (D := p_num_vars p) in *.
  unfold sample_block, get. rewrite Hi. simpl bind.
  rewrite (copy_row_ok b D 0) by lia. rewrite (copy_row_ok b D D) by lia. simpl bind.
  destruct (split_row b D Hb) as (u & v & Eb & Hu & Hv & Ef & Es).
  assert (HC : forall k, In k (seq 0 G) ->
     (exists r, cross_row b (check_groups p) names D k D 0 = Ok r) /\
     (exists r, cross_row b (check_groups p) names D k 0 D = Ok r)).
  { intros k Hk. apply in_seq in Hk.
    destruct (cross_row_ok p G names u v k HL HS) as (r1 & r2 & H1 & _ & H2 & _); auto; [lia|].
    rewrite Eb. fold D in H1, H2. eauto. }
  unfold block_rows. fold D. rewrite foldM_app. cbn [foldM].
  replace (firstn D (skipn 0 b)) with (firstn D b) by reflexivity.
  destruct (write_row st (firstn D b)) as [st1|e]; simpl bind; [|reflexivity].
  rewrite (foldM_write_map _ (fun k => cross_row b (check_groups p) names D k D 0))
    by (intros; apply HC; auto).
  match goal with |- bind ?x _ = bind ?x _ => destruct x as [st2|e]; simpl bind; [|reflexivity] end.
  rewrite foldM_app.
  assert (Elast : firstn D (skipn D b) = skipn D b).
  { apply firstn_all2. rewrite skipn_length. lia. }
  rewrite Elast.
  destruct second.
  - rewrite (foldM_write_map _ (fun k => cross_row b (check_groups p) names D k 0 D))
      by (intros; apply HC; auto).
    match goal with |- bind ?x _ = bind ?x _ => destruct x as [st3|e]; simpl bind; [|reflexivity] end.
    cbn [foldM]. destruct (write_row st3 (skipn D b)); reflexivity.
  - cbn [foldM bind]. destruct (write_row st2 (skipn D b)); reflexivity.
Qed.

Lemma block_rows_length : forall names p G second b,
  length (block_rows names p G second b) = block_size G second.
Proof.
  intros. unfold block_rows, block_size. rewrite !app_length. cbn [length].
  rewrite map_length, seq_length. destruct second; simpl length.
  - rewrite map_length, seq_length. lia.
  - lia.
Qed.

Lemma block_rows_spec : forall p G names second (b : list A), labelled p ->
  sampler_groups p = Ok (G, names) -> length b = 2 * p_num_vars p ->
  Forall (fun r => length r = p_num_vars p) (block_rows names p G second b) /\
  forall u v, b = u ++ v -> length u = p_num_vars p -> length v = p_num_vars p ->
    saltelli_block p G second u v (nth_error (block_rows names p G second b)).
Proof.
  intros p G names second b HL HS Hb. set (D := p_num_vars p) in *.
  destruct (split_row b D Hb) as (u0 & v0 & Eb & Hu & Hv & Ef & Es).
  assert (HC : forall k, k < G -> exists r1 r2,
     cross_row b (check_groups p) names D k D 0 = Ok r1 /\ replaced (in_group p k) u0 v0 r1 /\
     cross_row b (check_groups p) names D k 0 D = Ok r2 /\ replaced (in_group p k) v0 u0 r2).
  { intros k Hk. rewrite Eb. apply (cross_row_ok p G names u0 v0 k HL HS); auto. }
  split.
  - unfold block_rows. fold D. apply Forall_app. split; [constructor|].
    + rewrite Ef; auto.
    + apply Forall_forall. intros r Hr. apply in_map_iff in Hr. destruct Hr as (k & <- & Hk).
      apply in_seq in Hk. destruct (HC k) as (r1 & r2 & E1 & [L1 _] & _); [lia|].
      rewrite E1. simpl. lia.
    + apply Forall_app. split; [|constructor; auto; rewrite Es; auto].
      destruct second; [|constructor].
      apply Forall_forall. intros r Hr. apply in_map_iff in Hr. destruct Hr as (k & <- & Hk).
      apply in_seq in Hk. destruct (HC k) as (r1 & r2 & _ & _ & E2 & [L2 _]); [lia|].
      rewrite E2. simpl. lia.
  - intros u v E Lu Lv.
    assert (u = u0 /\ v = v0) as [-> ->].
    { rewrite E in Eb. apply app_inj_tail_iff || idtac.
      assert (u = u0).
      { rewrite <- Ef, E, firstn_app, Lu, Nat.sub_diag. simpl. rewrite app_nil_r.
        symmetry. apply firstn_all2. lia. }
      subst u. apply app_inv_head in Eb. auto. }
    unfold block_rows. fold D. rewrite Ef, Es.
    repeat split.
    + rewrite nth_error_app2.
      * rewrite nth_error_app2.
        -- replace (_ - _ - _) with 0; [reflexivity|].
           cbn [length]. unfold block_size. rewrite map_length, seq_length.
           destruct second; simpl length; rewrite ?map_length, ?seq_length; lia.
        -- cbn [length]. unfold block_size. rewrite map_length, seq_length.
           destruct second; simpl length; rewrite ?map_length, ?seq_length; lia.
      * cbn [length]. unfold block_size. rewrite map_length, seq_length. destruct second; lia.
    + intros k Hk. destruct (HC k Hk) as (r1 & r2 & E1 & R1 & _). exists r1. split; auto.
      rewrite nth_error_app1 by (cbn [length]; rewrite map_length, seq_length; lia).
      simpl. rewrite nth_error_map', nth_error_seq. destruct (Nat.ltb_spec k G); [|lia].
      simpl. rewrite E1. reflexivity.
    + intros -> k Hk. destruct (HC k Hk) as (r1 & r2 & _ & _ & E2 & R2). exists r2. split; auto.
      rewrite nth_error_app2 by (cbn [length]; rewrite map_length, seq_length; lia).
      rewrite nth_error_app1 by (cbn [length]; rewrite !map_length, !seq_length; lia).
      cbn [length]. rewrite map_length, seq_length.
      replace (1 + G + k - S G) with k by lia.
      rewrite nth_error_map', nth_error_seq. destruct (Nat.ltb_spec k G); [|lia].
      simpl. rewrite E2. reflexivity.
Qed.

(** The whole sample: layout of every block. *)
Lemma cross_sample_layout : forall zero (base : list (list A)) idxs p second, labelled p ->
  (forall i, In i idxs -> exists b, nth_error base i = Some b /\ length b = 2 * p_num_vars p) ->
  exists rows G,
    cross_sample zero base idxs p second = Ok rows /\ group_count p G /\
    length rows = length idxs * block_size G second /\
    Forall (fun r => length r = p_num_vars p) rows /\
    forall i n a b, nth_error idxs i = Some n -> nth_error base n = Some (a ++ b) ->
      length a = p_num_vars p -> length b = p_num_vars p ->
      saltelli_block p G second a b
        (fun t => if t <? block_size G second then nth_error rows (i * block_size G second + t)
                  else None).
Proof.
  intros zero base idxs p second HL Hb.
  destruct (sampler_groups_ok p) as (G & names & HS & HG & _ & _).
  unfold cross_sample. rewrite HS. cbn [bind].
  set (blk := fun i => block_rows names p G second (match nth_error base i with Some b => b | None => [] end)).
  assert (E : foldM (sample_block base (check_groups p) names (p_num_vars p) G second) idxs
               (0, repeat (repeat zero (p_num_vars p)) ((if second then 2 * G + 2 else G + 2) * length idxs))
            = foldM write_row (concat (map blk idxs))
               (0, repeat (repeat zero (p_num_vars p)) ((if second then 2 * G + 2 else G + 2) * length idxs))).
  { rewrite <- foldM_concat. apply foldM_ext. intros s i Hi.
    destruct (Hb i Hi) as (b & E1 & E2). rewrite (sample_block_rows p G names second base i b); auto.
    unfold blk. rewrite E1. reflexivity. }
  assert (HF : Forall (fun b => length b = block_size G second) (map blk idxs)).
  { apply Forall_forall. intros x Hx. apply in_map_iff in Hx. destruct Hx as (i & <- & _).
    apply block_rows_length. }
  assert (HW : Forall (fun r => length r = p_num_vars p) (concat (map blk idxs))).
  { apply Forall_forall. intros r Hr. apply in_concat in Hr. destruct Hr as (x & Hx & Hr).
    apply in_map_iff in Hx. destruct Hx as (i & <- & Hi).
    destruct (Hb i Hi) as (b & E1 & E2). unfold blk in Hr. rewrite E1 in Hr.
    destruct (block_rows_spec p G names second b HL HS E2) as [F _].
    rewrite Forall_forall in F. auto. }
  assert (HLen : length (concat (map blk idxs)) = length idxs * block_size G second).
  { rewrite (length_concat_uniform HF), map_length. reflexivity. }
  exists (concat (map blk idxs)), G. split; [|split; [|split; [|split]]]; auto.
  - cbv zeta. rewrite E, (write_rows_all (w := p_num_vars p)); auto.
    rewrite HLen. unfold block_size. destruct second; lia.
  - intros i n a b Hi Hn Ha Hbl.
    assert (Hk : 0 < block_size G second) by (unfold block_size; destruct second; lia).
    assert (Erow : forall t, (if t <? block_size G second
               then nth_error (concat (map blk idxs)) (i * block_size G second + t) else None)
             = nth_error (block_rows names p G second (a ++ b)) t).
    { intros t. destruct (Nat.ltb_spec t (block_size G second)) as [Ht|Ht].
      - rewrite (concat_uniform_nth Hk _ HF).
        rewrite (Nat.add_comm (i * _)), Nat.div_add, Nat.mod_add by lia.
        rewrite Nat.div_small, Nat.mod_small by auto. simpl plus.
        rewrite nth_error_map', Hi. simpl. unfold blk. rewrite Hn. reflexivity.
      - symmetry. apply nth_error_None. rewrite block_rows_length. auto. }
    assert (Hlen : length (a ++ b) = 2 * p_num_vars p) by (rewrite app_length; lia).
    destruct (block_rows_spec p G names second (a ++ b) HL HS Hlen) as [_ Sb].
    specialize (Sb a b eq_refl Ha Hbl). destruct Sb as (S0 & S1 & S2 & S3).
    split; [|split; [|split]].
    + rewrite Erow; auto.
    + rewrite Erow; auto.
    + intros k Hk'. rewrite Erow. auto.
    + intros Hs k Hk'. rewrite Erow. auto.
Qed.
End Layout.
