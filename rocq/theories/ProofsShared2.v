(** * Sessions: matching, frames and the calls that break them. *)
From Coq Require Import Reals String List Arith Bool Lia.
From Verif Require Import Base Arrays ListFacts ModelGroups ModelScale ModelFF ModelMorris ModelHdmr ModelEhdmr ModelShared SpecShared ProofsFF ProofsGroups
  ProofsEhdmr2 ProofsSobol2 ProofsMorris3 ProofsShared.
Import ListNotations.
Local Open Scope nat_scope.

Local Arguments content : simpl never.

Lemma at_update : forall s i v a d r, i < length (s_heap s) -> content (mkState (update (s_heap s) i v) d r) a = if a =? i then v else content s a.
Proof. intros s i v a d r L. unfold content. cbn. rewrite nth_update. apply Nat.ltb_lt in L. rewrite L, andb_true_r. auto. Qed.
Lemma at_app : forall s new a d r, a < length (s_heap s) -> content (mkState (s_heap s ++ new) d r) a = content s a.
Proof. intros s new a d r L. unfold content. cbn. apply app_nth1; auto. Qed.

(** ** Frames *)
Lemma apart_effect : forall s c o s' j oj, sound s -> nth_error (s_dicts s) (target c) = Some o -> effect s o c s' -> target c <> j ->
  nth_error (s_dicts s) j = Some oj -> apart s j oj -> nth_error (s_dicts s') j = Some oj /\ view s' oj = view s oj /\ apart s' j oj /\
  content s' (o_names oj) = content s (o_names oj) /\ incl (s_reports s) (s_reports s').
Proof.
  intros s c o s' j oj S N E D J A. destruct (proj1 S _ _ N) as (B & Bg). destruct (proj1 S _ _ J) as (Bj & Bjg).
  destruct (A _ _ N D) as (A1 & A2).
  assert (G : forall d', nth_error (update (s_dicts s) (target c) d') j = Some oj).
  { intros d'. rewrite nth_error_update. replace (j =? target c) with false by (symmetry; apply Nat.eqb_neq; auto). auto. }
  assert (GA : forall h r d', o_names d' = o_names o \/ length (s_heap s) <= o_names d' -> apart (mkState h (update (s_dicts s) (target c) d') r) j oj).
  { intros h r d' H k ok Hk Dk. cbn in Hk. rewrite nth_error_update in Hk. destruct ((k =? target c) && _).
    - injection Hk as <-. destruct H as [->|H]; [auto|]. split; [lia|]. intros X. apply Bjg in X. lia.
    - apply (A _ _ Hk Dk). }
  assert (I : forall rs, incl (s_reports s) (s_reports s ++ rs)) by (intros rs x Hx; apply in_or_app; auto).
  destruct E as [new o' rs R F|n sc rs C FS L F|terms order rs C SP _ F|order rs C LN F].
  - split; [apply G|]. split; [|split; [apply GA; left; apply R|split; [apply at_app; auto|apply I]]].
    apply view_content; auto. intros a Ha. apply at_app; auto.
  - split; [apply G|]. split; [|split; [apply GA; left; auto|split; [|apply I]]].
    + unfold view. rewrite at_update by auto. replace (o_names oj =? o_names o) with false by (symmetry; apply Nat.eqb_neq; auto). f_equal.
      destruct (o_groups oj) as [a|] eqn:GJ; cbn; auto. rewrite at_update by auto. replace (a =? o_names o) with false; auto. symmetry. apply Nat.eqb_neq. congruence.
    + rewrite at_update by auto. replace (o_names oj =? o_names o) with false by (symmetry; apply Nat.eqb_neq; auto). auto.
  - split; [apply G|]. split; [|split; [apply GA; right; cbn; lia|split; [apply at_app; auto|apply I]]].
    apply view_content; auto. intros a Ha. apply at_app; auto.
  - split; [exact J|]. split; [|split; [exact A|split; [|apply I]]].
    + unfold view. rewrite at_update by auto. replace (o_names oj =? o_names o) with false by (symmetry; apply Nat.eqb_neq; auto). f_equal.
      destruct (o_groups oj) as [a|] eqn:GJ; cbn; auto. rewrite at_update by auto. replace (a =? o_names o) with false; auto. symmetry. apply Nat.eqb_neq. congruence.
    + rewrite at_update by auto. replace (o_names oj =? o_names o) with false by (symmetry; apply Nat.eqb_neq; auto). auto.
Qed.

Lemma apart_run : forall cs s j oj, sound s -> nth_error (s_dicts s) j = Some oj -> apart s j oj -> Forall (fun c => target c <> j) cs ->
  nth_error (s_dicts (run cs s)) j = Some oj /\ view (run cs s) oj = view s oj /\ content (run cs s) (o_names oj) = content s (o_names oj) /\
  incl (s_reports s) (s_reports (run cs s)).
Proof.
  induction cs as [|c cs IH]; intros s j oj S J A F; cbn; [repeat split; auto; apply incl_refl|]. inversion F; subst.
  destruct (nth_error (s_dicts s) (target c)) as [o|] eqn:N.
  - destruct (apart_effect s c o (fst (step s c)) j oj) as (J' & V & A' & C & I); auto using step_effect.
    destruct (IH (fst (step s c)) j oj) as (J2 & V2 & C2 & I2); auto using sound_step.
    fold (run cs (fst (step s c))). split; [exact J2|]. split; [congruence|]. split; [congruence|]. eapply incl_tran; eauto.
  - rewrite step_missing by auto. apply IH; auto.
Qed.

Lemma frame_table : forall s s' j oj r, nth_error (s_dicts s) j = Some oj -> nth_error (s_dicts s') j = Some oj -> view s' oj = view s oj ->
  content s' (o_names oj) = content s (o_names oj) -> r_labels r = At (o_names oj) \/ r_labels r = OfProblem j -> table s' r = table s r.
Proof.
  intros s s' j oj r J J' V C H. assert (L : labels_of s' r = labels_of s r).
  { unfold labels_of. destruct H as [->| ->]; auto. rewrite J, J', V. auto. }
  unfold table. rewrite L. auto.
Qed.

(** ** Names keep matching *)
Definition tidy (s : state) : Prop :=
  sound s /\ separate s /\ forall k o, nth_error (s_dicts s) k = Some o -> matched (view s o) /\ padding_safe s o.

Lemma padding_safe_frame : forall s s' o, view s' o = view s o -> padding_safe s o -> padding_safe s' o.
Proof.
  intros s s' o V P. unfold padding_safe in *. destruct (o_groups o) as [a|] eqn:G; auto.
  assert (E : option_map (content s') (o_groups o) = option_map (content s) (o_groups o)) by (change (p_groups (view s' o) = p_groups (view s o)); congruence).
  rewrite G in E. injection E as E. rewrite E. auto.
Qed.

Lemma not_truthy : forall p, truthy_groups p = None -> p_groups p = None \/ p_groups p = Some [].
Proof. intros p H. unfold truthy_groups in H. destruct (p_groups p) as [[|x l]|]; auto; discriminate. Qed.

Lemma own_tidy : forall s c o s', tidy s -> nth_error (s_dicts s) (target c) = Some o -> effect s o c s' -> ~ names_terms s c ->
  exists o', nth_error (s_dicts s') (target c) = Some o' /\ o_names o' = o_names o /\ (o_groups o' = o_groups o \/ o_groups o' = Some (o_names o)) /\
    o_spec o' = o_spec o /\ matched (view s' o') /\ padding_safe s' o'.
Proof.
  intros s c o s' (S & Sep & M) N E NT. destruct (proj1 S _ _ N) as (B & Bg). destruct (M _ _ N) as ((M1 & M2 & M3) & P). cbn in M1, M2, M3.
  assert (G : forall d', nth_error (update (s_dicts s) (target c) d') (target c) = Some d').
  { intros d'. rewrite nth_error_update, Nat.eqb_refl. assert (L : target c < length (s_dicts s)) by (apply nth_error_Some; congruence). apply Nat.ltb_lt in L. rewrite L. auto. }
  destruct E as [new o' rs R F|n sc rs C FS L F|terms order rs C SP _ F|order rs C LN F]; cbn [s_dicts].
  - exists o'. split; [apply G|]. destruct R as (P1 & P2 & P3 & P4 & P5 & P6). split; auto. split; [destruct P6 as [|[]]; auto|]. split; auto.
    split.
    + unfold matched, view. cbn. rewrite P1, P2, P3, at_app by auto. split; auto. split; auto. intros g Hg. destruct P6 as [P6|(_ & P6)]; rewrite P6 in Hg; cbn in Hg.
      * apply M3. rewrite <- Hg. destruct (o_groups o) as [a|]; cbn; auto. rewrite at_app; auto.
      * injection Hg as <-. rewrite at_app by auto. auto.
    + unfold padding_safe in *. rewrite P1, P2. destruct P6 as [P6|(_ & P6)]; rewrite P6; auto. destruct (o_groups o) as [a|] eqn:GO; auto. rewrite at_app; auto.
  - eexists. split; [apply G|]. cbn. split; auto. split; auto. split; auto. split.
    + unfold matched, view. cbn. rewrite at_update, Nat.eqb_refl by auto. rewrite !app_length, map_length, seq_length, repeat_length, M1, M2.
      split; [lia|]. split; [lia|]. intros g Hg. unfold padding_safe in P. destruct (o_groups o) as [a|] eqn:GO; [|discriminate]. cbn in Hg. injection Hg as <-.
      rewrite at_update by auto. destruct (Nat.eqb_spec a (o_names o)).
      * right. rewrite app_length, map_length, seq_length, M1. lia.
      * destruct P as [P|[P|P]]; [congruence|auto|]. apply (ff_size_pow _ n) in P; auto. lia.
    + unfold padding_safe. cbn. destruct (o_groups o) as [a|]; auto. right; right. eapply ff_size_power; eauto.
  - exfalso. apply NT. destruct c; try contradiction. cbn. exists o. auto.
  - exists o. split; auto. destruct c; try contradiction. subst. cbn in NT. rewrite extended_first by lia.
    assert (V : forall d r, view (mkState (update (s_heap s) (o_names o) (content s (o_names o))) d r) o = view s o).
    { intros d r. apply view_content; auto. intros a Ha. rewrite at_update by auto. destruct (Nat.eqb_spec a (o_names o)); subst; auto. }
    split; auto. split; auto. split; auto. rewrite V. split; [apply (M _ _ N)|]. apply (padding_safe_frame s); auto.
Qed.

Lemma effect_other : forall s o c s' j, effect s o c s' -> j <> target c -> nth_error (s_dicts s') j = nth_error (s_dicts s) j.
Proof.
  intros s o c s' j E D. destruct E; cbn; auto; rewrite nth_error_update; replace (j =? target c) with false by (symmetry; apply Nat.eqb_neq; auto); auto.
Qed.

Lemma tidy_step : forall s c, tidy s -> ~ names_terms s c -> tidy (fst (step s c)).
Proof.
  intros s c T NT. destruct (nth_error (s_dicts s) (target c)) as [o|] eqn:N; [|rewrite step_missing; auto].
  pose proof T as (S & Sep & M). pose proof (step_effect s c o S N) as E. destruct (own_tidy s c o _ T N E NT) as (o' & N' & Q1 & Q2 & Q3 & Q4).
  split; [apply sound_step; auto|]. set (s' := fst (step s c)) in *. split.
  - intros j oj J k ok K D. destruct (Nat.eq_dec j (target c)) as [->|Dj].
    + replace oj with o' in * by congruence. rewrite (effect_other s o c s' k E ltac:(auto)) in K.
      destruct (Sep _ _ N k ok K D) as (S1 & S2). rewrite Q1. split; auto. destruct Q2 as [Q2|Q2]; rewrite Q2; auto. congruence.
    + rewrite (effect_other s o c s' j E Dj) in J. destruct (Nat.eq_dec k (target c)) as [->|Dk].
      * replace ok with o' by congruence. rewrite Q1. apply (Sep _ _ J _ _ N); auto.
      * rewrite (effect_other s o c s' k E Dk) in K. apply (Sep _ _ J _ _ K); auto.
  - intros j oj J. destruct (Nat.eq_dec j (target c)) as [->|Dj].
    + replace oj with o' in * by congruence. auto.
    + rewrite (effect_other s o c s' j E Dj) in J.
      destruct (apart_effect s c o s' j oj S N E ltac:(auto) J (Sep _ _ J)) as (_ & V & _). rewrite V. split; [apply (M _ _ J)|].
      apply (padding_safe_frame s); auto. apply (M _ _ J).
Qed.

Lemma spec_kept : forall s c o s' j oj', nth_error (s_dicts s) (target c) = Some o -> effect s o c s' -> nth_error (s_dicts s') j = Some oj' ->
  exists oj, nth_error (s_dicts s) j = Some oj /\ o_spec oj' = o_spec oj.
Proof.
  intros s c o s' j oj' N E J. destruct (Nat.eq_dec j (target c)) as [->|D].
  - exists o. split; auto. assert (L : target c < length (s_dicts s)) by (apply nth_error_Some; congruence). apply Nat.ltb_lt in L.
    destruct E as [new o' rs R F|n sc rs C FS L' F|terms order rs C SP _ F|order rs C LN F]; cbn in J; try (rewrite nth_error_update, Nat.eqb_refl, L in J; injection J as <-; auto); [apply R|congruence].
  - rewrite (effect_other s o c s' j E D) in J. eauto.
Qed.

Lemma names_terms_back : forall s c c', sound s -> names_terms (fst (step s c)) c' -> names_terms s c'.
Proof.
  intros s c c' S H. destruct (nth_error (s_dicts s) (target c)) as [o|] eqn:N; [|rewrite step_missing in H; auto].
  destruct c'; cbn in *; auto. destruct H as (o' & J & SP). destruct (spec_kept s c o _ k o' N (step_effect s c o S N) J) as (oj & J' & E). exists oj. split; congruence.
Qed.

Lemma tidy_run : forall cs s, tidy s -> Forall (fun c => ~ names_terms s c) cs -> tidy (run cs s).
Proof.
  induction cs as [|c cs IH]; intros s T F; cbn; auto. inversion F; subst. apply IH; [apply tidy_step; auto|].
  rewrite Forall_forall in *. intros c' I H. apply (F c'); [right; auto|]. eapply names_terms_back; eauto. apply T.
Qed.

(** ** The value-level models *)
Lemma set_nth : forall A (l : list A) k x y, nth_error l k = Some x -> nth_error (update l k y) k = Some y.
Proof. intros A l k x y N. rewrite nth_error_update, Nat.eqb_refl. assert (L : k < length l) by (apply nth_error_Some; congruence). apply Nat.ltb_lt in L. rewrite L. auto. Qed.

(** The state after padding, if there is something to pad. *)
Lemma pad_step : forall s k o n rest, nth_error (s_dicts s) k = Some o -> ff_size (o_num o) = Ok n -> o_num o < n ->
  exists sc, fst (step s (FfSample k rest)) = mkState (update (s_heap s) (o_names o) (content s (o_names o) ++ map dummy_name (seq 0 (n - o_num o))))
        (update (s_dicts s) k (mkDict n (o_names o) (o_bounds o ++ repeat [0; 1]%R (n - o_num o)) (o_groups o) (o_dists o) sc (o_spec o))) (s_reports s).
Proof.
  intros s k o n rest N F L. unfold step. cbn [target]. rewrite N. cbn [step_dict]. unfold pad. rewrite F. cbn -[Nat.ltb].
  replace (0 <? n - o_num o) with true by (symmetry; apply Nat.ltb_lt; lia). destruct rest; cbn.
  - exists (o_scaled o). reflexivity.
  - exists true. unfold mark, set_dict. cbn. rewrite update_twice. reflexivity.
Qed.

Lemma scale_unmarked : forall nq tq m p X p' out, scale_samples nq tq m p = (X, p', out) -> unmarked p' = unmarked p.
Proof.
  intros nq tq m p X p' out H. unfold scale_samples in H. destruct (p_dists p) as [ds|] eqn:D.
  - destruct (negb _); [injection H; intros; subst; auto|]. destruct (nonuniform_scale _ _ _ _ _); injection H; intros; subst; unfold unmarked; cbn; congruence.
  - destruct (scale_inplace m (p_bounds p)) as (m' & [u|e]); injection H; intros; subst; unfold unmarked; cbn; congruence.
Qed.

Lemma ff_sample_problem : forall nq tq p p1, extend_bounds p = Ok p1 -> unmarked (fst (ff_sample nq tq p)) = unmarked p1.
Proof.
  intros nq tq p p1 E. unfold ff_sample, generate_contrast. assert (F : exists k, find_smallest (p_num_vars p) = Some k).
  { unfold extend_bounds, ff_size in E. destruct (find_smallest (p_num_vars p)); [eauto|discriminate]. }
  destruct F as (k & ->). rewrite E. destruct (scale_samples _ _ _ p1) as ((X & p') & out) eqn:H. cbn. eapply scale_unmarked; eauto.
Qed.

Lemma ff_view : forall nq tq s k o rest s' o', sound s -> nth_error (s_dicts s) k = Some o -> fst (step s (FfSample k rest)) = s' -> nth_error (s_dicts s') k = Some o' ->
  unmarked (view s' o') = (if match o_groups o with Some a => a =? o_names o | None => false end then grouped_by_name else fun p => p) (unmarked (fst (ff_sample nq tq (view s o)))).
Proof.
  intros nq tq s k o rest s' o' S N <- N'. destruct (proj1 S _ _ N) as (B & Bg). destruct (ff_size (o_num o)) as [n|e] eqn:F.
  - destruct (Nat.ltb_spec (o_num o) n).
    + assert (E : extend_bounds (view s o) = Ok (mkProblem n (content s (o_names o) ++ map dummy_name (seq 0 (n - o_num o))) (o_bounds o ++ repeat [0; 1]%R (n - o_num o))
         (option_map (content s) (o_groups o)) (o_dists o) (o_scaled o))).
      { unfold extend_bounds. cbn [view p_num_vars p_names p_bounds p_groups p_dists p_scaled]. rewrite F. cbn -[Nat.ltb].
        replace (0 <? n - o_num o) with true by (symmetry; apply Nat.ltb_lt; lia). auto. }
      rewrite (ff_sample_problem nq tq _ _ E). destruct (pad_step s k o n rest N F H) as (sc & E'). rewrite E' in *. cbn in N'. rewrite (set_nth _ _ _ _ _ N) in N'. injection N' as <-.
      unfold view. cbn. rewrite at_update, Nat.eqb_refl by auto. destruct (o_groups o) as [a|]; cbn; auto. rewrite at_update by auto. destruct (a =? o_names o); auto.
    + assert (E : extend_bounds (view s o) = Ok (view s o)).
      { unfold extend_bounds. cbn [view p_num_vars]. rewrite F. cbn -[Nat.ltb]. replace (0 <? n - o_num o) with false by (symmetry; apply Nat.ltb_ge; lia). auto. }
      rewrite (ff_sample_problem nq tq _ _ E).
      assert (V : unmarked (view (fst (step s (FfSample k rest))) o') = unmarked (view s o)).
      { revert N'. unfold step. cbn [target]. rewrite N. cbn [step_dict]. unfold pad. rewrite F. cbn -[Nat.ltb]. replace (0 <? n - o_num o) with false by (symmetry; apply Nat.ltb_ge; lia).
        destruct rest; cbn; intros N'; [congruence|]. rewrite (set_nth _ _ _ _ _ N) in N'. injection N' as <-. auto. }
      rewrite V. destruct (o_groups o) as [a|] eqn:G; auto. destruct (Nat.eqb_spec a (o_names o)); auto. unfold unmarked, grouped_by_name, view. cbn. rewrite G. cbn. congruence.
  - assert (V : view (fst (step s (FfSample k rest))) o' = view s o).
    { revert N'. unfold step. cbn [target]. rewrite N. cbn [step_dict]. unfold pad. rewrite F. cbn. intros N'. congruence. }
    rewrite V. assert (E : fst (ff_sample nq tq (view s o)) = view s o).
    { unfold ff_sample, generate_contrast. cbn [view p_num_vars]. unfold ff_size in F. destruct (find_smallest (o_num o)); [discriminate|]. auto. }
    rewrite E. destruct (o_groups o) as [a|] eqn:G; auto. destruct (Nat.eqb_spec a (o_names o)); auto. unfold unmarked, grouped_by_name, view. cbn. rewrite G. cbn. congruence.
Qed.

Lemma morris_view : forall s k o rest, nth_error (s_dicts s) k = Some o ->
  match define_problem_with_groups (view s o) with
  | Err e => step s (MorrisSample k rest) = (s, Some e) /\ step s (MorrisAnalyze k rest) = (s, Some e)
  | Ok p => (exists o', nth_error (s_dicts (fst (step s (MorrisSample k rest)))) k = Some o' /\ unmarked (view (fst (step s (MorrisSample k rest))) o') = unmarked p) /\
            (sound s -> exists o', nth_error (s_dicts (fst (step s (MorrisAnalyze k rest)))) k = Some o' /\ view (fst (step s (MorrisAnalyze k rest))) o' = p)
  end.
Proof.
  intros s k o rest N. unfold define_problem_with_groups, step. cbn [target]. rewrite N. cbn [step_dict]. unfold group_default. cbn [view p_num_vars]. fold (view s o).
  destruct (truthy_groups (view s o)) as [g|] eqn:T.
  - destruct (negb (length g =? o_num o)); auto. rewrite N. split.
    + destruct rest; cbn; [eauto|]. rewrite (set_nth _ _ _ _ _ N). eexists; split; eauto.
    + intros S. destruct (proj1 S _ _ N) as (B & Bg). destruct rest; cbn; [eauto|]. exists o. split; auto. apply view_content; auto. intros a Ha. apply at_app; auto.
  - cbn. rewrite (set_nth _ _ _ _ _ N). split.
    + destruct rest; cbn; [rewrite (set_nth _ _ _ _ _ N); eexists; split; eauto|]. rewrite update_twice, (set_nth _ _ _ _ _ N). eexists; split; eauto.
    + intros S. destruct (proj1 S _ _ N) as (B & Bg). destruct rest; cbn; rewrite (set_nth _ _ _ _ _ N); eexists; (split; [reflexivity|]); unfold view; cbn; auto.
      unfold content. cbn. rewrite !app_nth1 by auto. auto.
Qed.

(** ** What breaks *)
Lemma table_Ok : forall s r l, table s r = Ok l -> l = labels_of s r /\ length (labels_of s r) = r_size r.
Proof. intros s r l H. unfold table in H. destruct (Nat.eqb_spec (length (labels_of s r)) (r_size r)); [|discriminate]. injection H as <-. auto. Qed.
Lemma table_Err : forall s r, length (labels_of s r) <> r_size r -> table s r = Err ValueError.
Proof. intros s r H. unfold table. destruct (Nat.eqb_spec (length (labels_of s r)) (r_size r)); [contradiction|auto]. Qed.

Lemma pd_unique_more : forall l m x, In x m -> ~ In x l -> length (pd_unique l) < length (pd_unique (l ++ m)).
Proof.
  intros l m x I NI. assert (H : length (x :: pd_unique l) <= length (pd_unique (l ++ m))).
  { apply NoDup_incl_length.
    - constructor; [|apply pd_unique_NoDup]. rewrite pd_unique_In. auto.
    - intros y [<-|Hy]; apply pd_unique_In, in_or_app; auto. left. apply pd_unique_In; auto. }
  cbn in H. lia.
Qed.

Lemma extract_ungrouped : forall s o, ungrouped o -> fst (extract_group_names (view s o)) = pd_unique (content s (o_names o)).
Proof.
  intros s o [G|G]; unfold extract_group_names, truthy_groups, view; cbn; rewrite G; cbn; auto. destruct (content s (o_names o)); auto.
Qed.

Lemma padded_tables : forall s k o rest r l, sound s -> nth_error (s_dicts s) k = Some o -> o_num o <= 512 -> ~ power_of_two (o_num o) ->
  In r (s_reports s) -> table s r = Ok l ->
  r_labels r = At (o_names o) \/ (r_labels r = OfProblem k /\ ungrouped o /\ forall j, ~ In (dummy_name j) (content s (o_names o))) ->
  table (fst (step s (FfSample k rest))) r = Err ValueError.
Proof.
  intros s k o rest r l S N L NP I T H. destruct (proj1 S _ _ N) as (B & _). destruct (ff_size_pads _ L NP) as (n & F & P).
  destruct (pad_step s k o n rest N F P) as (sc & E). rewrite E. apply table_Err. apply table_Ok in T. destruct T as (_ & T). rewrite <- T. unfold labels_of.
  destruct H as [->|(-> & U & D)].
  - rewrite at_update, Nat.eqb_refl, app_length, map_length, seq_length by auto. lia.
  - cbn [s_dicts]. rewrite N, (set_nth _ _ _ _ _ N). rewrite !extract_ungrouped by (destruct U as [U|U]; [left|right]; auto). cbn [o_names].
    rewrite at_update, Nat.eqb_refl by auto.
    pose proof (pd_unique_more (content s (o_names o)) (map dummy_name (seq 0 (n - o_num o))) (dummy_name 0)) as X.
    assert (In (dummy_name 0) (map dummy_name (seq 0 (n - o_num o)))) by (apply in_map, in_seq; lia). specialize (X H (D 0)). lia.
Qed.

Lemma comb_pos : forall d, 2 <= d -> 0 < comb d 2.
Proof.
  intros d L. pose proof (comb_length nat 2 (seq 0 d)) as E. rewrite seq_length in E. rewrite <- E.
  destruct d as [|[|d]]; [lia|lia|]. cbn. lia.
Qed.

Lemma extended_longer : forall d order names, 2 <= d -> 2 <= order -> length names < length (extended_names (mkCore d order true 0 0) names).
Proof.
  intros d order names D O. unfold extended_names, c_nc2. cbn [c_order c_d]. replace (1 <? order) with true by (symmetry; apply Nat.ltb_lt; auto).
  rewrite !app_length, map_length, seq_length. pose proof (comb_pos d D). lia.
Qed.

Lemma ehdmr_step : forall s k o order fit, nth_error (s_dicts s) k = Some o -> length (content s (o_names o)) = o_num o -> length (o_bounds o) = o_num o -> 2 <= o_num o ->
  exists rs, fst (step s (Ehdmr k order None fit)) = mkState (update (s_heap s) (o_names o) (extended_names (mkCore (o_num o) order true 0 0) (content s (o_names o))))
    (s_dicts s) (s_reports s ++ rs).
Proof.
  intros s k o order fit N L1 L2 D. unfold step. cbn [target]. rewrite N. cbn [step_dict]. rewrite L1, L2, Nat.eqb_refl. cbn -[Nat.ltb Nat.eqb].
  replace (o_num o =? 1) with false by (symmetry; apply Nat.eqb_neq; lia). destruct fit; [exists []; rewrite app_nil_r; auto|].
  match goal with |- context[if ?b then _ else if ?b' then _ else _] => destruct b; [|destruct b'] end; try (exists []; rewrite app_nil_r; reflexivity).
  eexists; reflexivity.
Qed.

Lemma ehdmr_tables : forall s k o order fit r l, sound s -> nth_error (s_dicts s) k = Some o -> length (content s (o_names o)) = o_num o -> length (o_bounds o) = o_num o ->
  2 <= o_num o -> 2 <= order -> In r (s_reports s) -> r_labels r = At (o_names o) -> table s r = Ok l ->
  table (fst (step s (Ehdmr k order None fit))) r = Err ValueError.
Proof.
  intros s k o order fit r l S N L1 L2 D O I A T. destruct (proj1 S _ _ N) as (B & _). destruct (ehdmr_step s k o order fit N L1 L2 D) as (rs & E). rewrite E.
  apply table_Err. apply table_Ok in T. destruct T as (_ & T). rewrite <- T. unfold labels_of. rewrite A. rewrite at_update, Nat.eqb_refl by auto.
  pose proof (extended_longer (o_num o) order (content s (o_names o)) D O). lia.
Qed.

Lemma morris_refuses : forall s k o rest g, nth_error (s_dicts s) k = Some o -> truthy_groups (view s o) = Some g -> length g <> o_num o ->
  step s (MorrisSample k rest) = (s, Some ValueError) /\ step s (MorrisAnalyze k rest) = (s, Some ValueError).
Proof.
  intros s k o rest g N T L. unfold step. cbn [target]. rewrite N. cbn [step_dict]. unfold group_default. rewrite T.
  apply Nat.eqb_neq in L. rewrite L. auto.
Qed.

Lemma by_name_fails : forall s k o, nth_error (s_dicts s) k = Some o -> length (content s (o_names o)) <> o_num o ->
  exists s' r, step s (ByName k None) = (s', None) /\ s_reports s' = s_reports s ++ [r] /\ table s' r = Err ValueError.
Proof.
  intros s k o N L. unfold step. cbn [target]. rewrite N. cbn. eexists _, _. split; [reflexivity|]. split; [reflexivity|]. apply table_Err. exact L.
Qed.

Lemma explicit_breaks : forall s k o a rest rest', sound s -> nth_error (s_dicts s) k = Some o -> o_num o <= 512 -> ~ power_of_two (o_num o) ->
  o_groups o = Some a -> a <> o_names o -> content s a <> [] -> length (content s a) = o_num o ->
  let s1 := fst (step s (FfSample k rest)) in
  step s1 (MorrisSample k rest') = (s1, Some ValueError) /\ step s1 (MorrisAnalyze k rest') = (s1, Some ValueError).
Proof.
  intros s k o a rest rest' S N L NP G D NE LG s1. destruct (proj1 S _ _ N) as (B & _). destruct (ff_size_pads _ L NP) as (n & F & P).
  destruct (pad_step s k o n rest N F P) as (sc & E). unfold s1. rewrite E. clear s1.
  eapply morris_refuses with (g := content s a).
  - cbn [s_dicts]. apply (set_nth _ _ _ _ _ N).
  - unfold truthy_groups, view. cbn. rewrite G. cbn. rewrite at_update by auto. apply Nat.eqb_neq in D. rewrite D. destruct (content s a); congruence.
  - cbn. lia.
Qed.

Lemma hdmr_terms_Ok : forall names d order, length names = d -> exists t, hdmr_terms names d order = Ok t /\ length t = hdmr_n d order /\ exists tail, t = names ++ tail.
Proof.
  intros names d order L. unfold hdmr_terms, hdmr_n.
  assert (G1 : mapM (get names) (seq 0 d) = Ok names).
  { subst d. assert (X : forall l pre, names = pre ++ l -> mapM (get names) (seq (length pre) (length l)) = Ok l).
    { induction l as [|x l IH]; intros pre E; auto. cbn [length seq mapM].
      replace (get names (length pre)) with (Ok x) by (unfold get; rewrite E, nth_error_app2, Nat.sub_diag by auto; auto). cbn.
      specialize (IH (pre ++ [x])). rewrite app_length, Nat.add_1_r in IH. rewrite IH; auto. rewrite <- app_assoc. auto. }
    apply (X names []). auto. }
  assert (G2 : forall cs : list (list nat), (forall c, In c cs -> forall x, In x c -> x < d) ->
     exists l, mapM (fun c => do ns <- mapM (get names) c ;; Ok (String.concat "/" ns)) cs = Ok l /\ length l = length cs).
  { induction cs as [|c cs IH]; intros H; [exists []; auto|]. destruct IH as (l & E & Ll); [intros; eapply H; [right|]; eauto|].
    assert (Y : exists ns, mapM (get names) c = Ok ns).
    { assert (Hc : forall x, In x c -> x < d) by (apply H; left; auto). clear - Hc L. induction c as [|x c IHc]; [exists []; auto|].
      destruct IHc as (ns & En); [intros; apply Hc; right; auto|]. assert (Hx : x < length names) by (rewrite L; apply Hc; left; auto).
      apply nth_error_Some in Hx. cbn. unfold get at 1. destruct (nth_error names x) as [y|]; [|congruence]. cbn. rewrite En. cbn. eauto. }
    destruct Y as (ns & En). cbn. rewrite En. cbn. rewrite E. cbn. eexists; split; [reflexivity|]. cbn. auto. }
  rewrite G1. cbn -[mapM].
  destruct (G2 (hdmr_c2 d order)) as (l2 & E2 & Ln2).
  { unfold hdmr_c2. destruct (1 <? order); [|intros c []]. intros c Hc x Hx. apply combinations_seq in Hc. apply Hc in Hx. lia. }
  rewrite E2. cbn -[mapM]. destruct (G2 (hdmr_c3 d order)) as (l3 & E3 & Ln3).
  { unfold hdmr_c3. destruct (order =? 3); [|intros c []]. intros c Hc x Hx. apply combinations_seq in Hc. apply Hc in Hx. lia. }
  rewrite E3. cbn. eexists; split; [reflexivity|]. split; [rewrite !app_length; lia|eauto].
Qed.

Lemma spec_breaks : forall s k o order, sound s -> nth_error (s_dicts s) k = Some o -> o_spec o = true -> length (content s (o_names o)) = o_num o -> 2 <= o_num o -> 2 <= order ->
  let s1 := fst (step s (Hdmr k order None)) in
  exists o1, nth_error (s_dicts s1) k = Some o1 /\ p_num_vars (view s1 o1) = o_num o /\ o_num o < length (p_names (view s1 o1)) /\
  exists s2 r, step s1 (ByName k None) = (s2, None) /\ s_reports s2 = s_reports s1 ++ [r] /\ table s2 r = Err ValueError.
Proof.
  intros s k o order S N SP L D O s1. destruct (hdmr_terms_Ok (content s (o_names o)) (o_num o) order L) as (t & T & Lt & _).
  assert (E : s1 = mkState (s_heap s ++ [t]) (update (s_dicts s) k (mkDict (o_num o) (length (s_heap s)) (o_bounds o) (o_groups o) (o_dists o) (o_scaled o) (o_spec o)))
     (s_reports s ++ [mkReport (At (length (s_heap s))) (hdmr_n (o_num o) order)])).
  { unfold s1, step. cbn [target]. rewrite N. cbn [step_dict]. rewrite T. unfold add_list. rewrite SP. reflexivity. }
  assert (Ln : o_num o < length t).
  { rewrite Lt. unfold hdmr_n, hdmr_c2. replace (1 <? order) with true by (symmetry; apply Nat.ltb_lt; auto). rewrite comb_length, seq_length. pose proof (comb_pos _ D). lia. }
  assert (C : content s1 (length (s_heap s)) = t) by (rewrite E; unfold content; cbn; rewrite app_nth2, Nat.sub_diag by auto; auto).
  assert (N1 : nth_error (s_dicts s1) k = Some (mkDict (o_num o) (length (s_heap s)) (o_bounds o) (o_groups o) (o_dists o) (o_scaled o) (o_spec o))) by (rewrite E; apply (set_nth _ _ _ _ _ N)).
  eexists. split; [exact N1|]. cbn [view p_num_vars p_names o_num o_names]. rewrite C. split; auto. split; auto.
  eapply by_name_fails; [exact N1|]. cbn [o_names o_num]. rewrite C. lia.
Qed.

Lemma alias_breaks : forall s k o order fit rest, sound s -> nth_error (s_dicts s) k = Some o -> o_groups o = Some (o_names o) ->
  length (content s (o_names o)) = o_num o -> length (o_bounds o) = o_num o -> 2 <= o_num o -> 2 <= order ->
  let s1 := fst (step s (Ehdmr k order None fit)) in
  step s1 (MorrisSample k rest) = (s1, Some ValueError) /\ step s1 (MorrisAnalyze k rest) = (s1, Some ValueError).
Proof.
  intros s k o order fit rest S N G L1 L2 D O s1. destruct (proj1 S _ _ N) as (B & _). destruct (ehdmr_step s k o order fit N L1 L2 D) as (rs & E). unfold s1. rewrite E. clear s1.
  pose proof (extended_longer (o_num o) order (content s (o_names o)) D O) as X.
  apply (morris_refuses _ k o rest (extended_names (mkCore (o_num o) order true 0 0) (content s (o_names o)))); [exact N| |lia].
  unfold truthy_groups, view. cbn. rewrite G. cbn [option_map]. rewrite at_update, Nat.eqb_refl by auto. destruct (extended_names _ _); [cbn in X; lia|reflexivity].
Qed.

Lemma shared_breaks : forall s j k oj ok rest, sound s -> nth_error (s_dicts s) j = Some oj -> nth_error (s_dicts s) k = Some ok -> j <> k -> o_names oj = o_names ok ->
  length (content s (o_names oj)) = o_num oj -> o_num ok <= 512 -> ~ power_of_two (o_num ok) ->
  let s1 := fst (step s (FfSample k rest)) in
  nth_error (s_dicts s1) j = Some oj /\ o_num oj < length (p_names (view s1 oj)) /\
  exists s2 r, step s1 (ByName j None) = (s2, None) /\ s_reports s2 = s_reports s1 ++ [r] /\ table s2 r = Err ValueError.
Proof.
  intros s j k oj ok rest S J K D A M L NP s1. destruct (proj1 S _ _ K) as (B & _). destruct (ff_size_pads _ L NP) as (n & F & P).
  destruct (pad_step s k ok n rest K F P) as (sc & E). 
  assert (J1 : nth_error (s_dicts s1) j = Some oj).
  { unfold s1. rewrite E. cbn. rewrite nth_error_update. replace (j =? k) with false by (symmetry; apply Nat.eqb_neq; auto). auto. }
  assert (C : o_num oj < length (content s1 (o_names oj))).
  { unfold s1. rewrite E, A. rewrite at_update, Nat.eqb_refl, app_length, map_length, seq_length by auto. rewrite <- A, M. lia. }
  split; auto. split; [exact C|]. eapply by_name_fails; eauto. lia.
Qed.
