(** * What each call changes, and what follows for sessions. *)
From Coq Require Import Reals String List Arith Bool Lia.
From Verif Require Import Base Arrays ModelGroups ModelFF ModelHdmr ModelEhdmr ModelShared SpecShared ProofsFF ProofsGroups ProofsEhdmr2 ProofsSobol2.
Import ListNotations.
Local Open Scope nat_scope.

(** ** Lists *)
Lemma update_same : forall A (l : list A) k x, nth_error l k = Some x -> update l k x = l.
Proof. induction l; destruct k; intros x H; simpl in *; try discriminate; [injection H as ->; auto|rewrite IHl; auto]. Qed.
Lemma update_twice : forall A (l : list A) k x y, update (update l k x) k y = update l k y.
Proof. induction l; destruct k; intros; simpl; auto. rewrite IHl; auto. Qed.
Lemma nth_update : forall A (l : list A) i v a d, nth a (update l i v) d = if (a =? i) && (i <? length l) then v else nth a l d.
Proof.
  intros. destruct (nth_error (update l i v) a) eqn:E.
  - rewrite (nth_error_nth _ _ _ E). rewrite nth_error_update in E. destruct ((a =? i) && (i <? length l)); [congruence|].
    symmetry. apply nth_error_nth; auto.
  - pose proof (proj1 (nth_error_None _ _) E) as L. rewrite nth_overflow by auto. rewrite nth_error_update in E.
    destruct ((a =? i) && (i <? length l)); [discriminate|]. rewrite length_update in L. rewrite nth_overflow; auto.
Qed.

Lemma ff_size_pow : forall m n, power_of_two m -> ff_size m = Ok n -> n = m.
Proof.
  intros m n (x & ->) H. unfold ff_size in H. destruct (le_lt_dec 10 x).
  - destruct (find_smallest_spec (2 ^ x)) as (_ & F). rewrite F in H; [discriminate|].
    assert (2 ^ 10 <= 2 ^ x) by (apply Nat.pow_le_mono_r; lia). simpl (2 ^ 10) in *. lia.
  - rewrite find_smallest_pow in H by auto. congruence.
Qed.
Lemma ff_size_power : forall m n, ff_size m = Ok n -> power_of_two n.
Proof. intros m n H. unfold ff_size in H. destruct (find_smallest m) as [x|]; [|discriminate]. injection H as <-. exists x; auto. Qed.
Lemma ff_size_pads : forall m, m <= 512 -> ~ power_of_two m -> exists n, ff_size m = Ok n /\ m < n.
Proof.
  intros m L NP. destruct (find_smallest_spec m) as (F & _). destruct (F L) as (k & E & _ & G & _). exists (2 ^ k).
  unfold ff_size. rewrite E. split; auto. destruct (Nat.eq_dec m (2 ^ k)); [|lia]. exfalso; apply NP; exists k; auto.
Qed.


(** ** The effect of a call *)
Definition regroup (s : state) (o o' : dict) : Prop :=
  o_num o' = o_num o /\ o_names o' = o_names o /\ o_bounds o' = o_bounds o /\ o_dists o' = o_dists o /\ o_spec o' = o_spec o /\
  (o_groups o' = o_groups o \/ truthy_groups (view s o) = None /\ o_groups o' = Some (o_names o)).

Definition fresh_reports (h : nat) (k : nat) (rs : list report) : Prop :=
  forall r, In r rs -> match r_labels r with At a => a < h | OfProblem j => j = k end.

Inductive effect (s : state) (o : dict) (c : call) : state -> Prop :=
  | e_keep : forall new o' rs, regroup s o o' -> fresh_reports (length (s_heap s ++ new)) (target c) rs ->
      effect s o c (mkState (s_heap s ++ new) (update (s_dicts s) (target c) o') (s_reports s ++ rs))
  | e_pad : forall n sc rs, (match c with FfSample _ _ | FfAnalyze _ _ => True | _ => False end) ->
      ff_size (o_num o) = Ok n -> o_num o < n -> fresh_reports (length (s_heap s)) (target c) rs ->
      effect s o c (mkState (update (s_heap s) (o_names o) (content s (o_names o) ++ map dummy_name (seq 0 (n - o_num o))))
        (update (s_dicts s) (target c) (mkDict n (o_names o) (o_bounds o ++ repeat [0; 1]%R (n - o_num o)) (o_groups o) (o_dists o) sc (o_spec o)))
        (s_reports s ++ rs))
  | e_spec : forall terms order rs, (match c with Hdmr _ r _ => order = r | _ => False end) -> o_spec o = true ->
      hdmr_terms (content s (o_names o)) (o_num o) order = Ok terms -> fresh_reports (S (length (s_heap s))) (target c) rs ->
      effect s o c (mkState (s_heap s ++ [terms])
        (update (s_dicts s) (target c) (mkDict (o_num o) (length (s_heap s)) (o_bounds o) (o_groups o) (o_dists o) (o_scaled o) (o_spec o)))
        (s_reports s ++ rs))
  | e_ehdmr : forall order rs, (match c with Ehdmr _ r _ _ => order = r | _ => False end) ->
      length (content s (o_names o)) = o_num o -> fresh_reports (length (s_heap s)) (target c) rs ->
      effect s o c (mkState (update (s_heap s) (o_names o) (extended_names (mkCore (o_num o) order true 0 0) (content s (o_names o))))
        (s_dicts s) (s_reports s ++ rs)).

Lemma regroup_refl : forall s o, regroup s o o.
Proof. intros; repeat split; auto. Qed.
Lemma regroup_scaled : forall s o o' sc, regroup s o o' -> regroup s o (mkDict (o_num o') (o_names o') (o_bounds o') (o_groups o') (o_dists o') sc (o_spec o')).
Proof. intros s o o' sc (A & B & C & D & E & F). repeat split; auto. Qed.

Lemma fresh_nil : forall h k, fresh_reports h k [].
Proof. intros h k r []. Qed.

Lemma keep_nothing : forall s o c, nth_error (s_dicts s) (target c) = Some o -> effect s o c s.
Proof.
  intros s o c N. pose proof (e_keep s o c [] o [] (regroup_refl s o) (fresh_nil _ _)) as E.
  rewrite !app_nil_r, update_same in E by auto. destruct s; exact E.
Qed.
Lemma keep_dict : forall s o o' c rs, regroup s o o' -> fresh_reports (length (s_heap s)) (target c) rs ->
  effect s o c (mkState (s_heap s) (update (s_dicts s) (target c) o') (s_reports s ++ rs)).
Proof. intros s o o' c rs G F. pose proof (e_keep s o c [] o' rs G) as E. rewrite app_nil_r in E. apply E, F. Qed.
Lemma keep_dict0 : forall s o o' c, regroup s o o' ->
  effect s o c (mkState (s_heap s) (update (s_dicts s) (target c) o') (s_reports s)).
Proof. intros s o o' c G. pose proof (keep_dict s o o' c [] G (fresh_nil _ _)) as E. rewrite app_nil_r in E. exact E. Qed.
Lemma keep_report : forall s o c rs, nth_error (s_dicts s) (target c) = Some o -> fresh_reports (length (s_heap s)) (target c) rs ->
  effect s o c (mkState (s_heap s) (s_dicts s) (s_reports s ++ rs)).
Proof. intros s o c rs N F. pose proof (keep_dict s o o c rs (regroup_refl s o) F) as E. rewrite update_same in E by auto. exact E. Qed.

Lemma fresh_one : forall h k a m, a < h -> fresh_reports h k [mkReport (At a) m].
Proof. intros h k a m L r [<-|[]]. exact L. Qed.

Lemma keep_new : forall s o c l m, nth_error (s_dicts s) (target c) = Some o ->
  effect s o c (mkState (s_heap s ++ [l]) (s_dicts s) (s_reports s ++ [mkReport (At (length (s_heap s))) m])).
Proof.
  intros s o c l m N. pose proof (e_keep s o c [l] o [mkReport (At (length (s_heap s))) m] (regroup_refl s o)) as E.
  rewrite update_same in E by auto. apply E. apply fresh_one. rewrite app_length. cbn. lia.
Qed.

Lemma group_default_regroup : forall s k o s1, nth_error (s_dicts s) k = Some o -> group_default s k o = Ok s1 ->
  exists o1, regroup s o o1 /\ s1 = mkState (s_heap s) (update (s_dicts s) k o1) (s_reports s) /\ nth_error (s_dicts s1) k = Some o1.
Proof.
  intros s k o s1 N H. unfold group_default in H. destruct (truthy_groups (view s o)) eqn:T.
  - destruct (negb _); [discriminate|]. injection H as <-. exists o. rewrite update_same by auto. split; [apply regroup_refl|]. split; [destruct s|]; auto.
  - injection H as <-. eexists. split; [|split; [reflexivity|]].
    + repeat split; cbn; auto.
    + unfold set_dict. cbn. rewrite nth_error_update, Nat.eqb_refl.
      assert (L : k < length (s_dicts s)) by (apply nth_error_Some; congruence). apply Nat.ltb_lt in L. rewrite L. reflexivity.
Qed.

Lemma step_effect : forall s c o, sound s -> nth_error (s_dicts s) (target c) = Some o -> effect s o c (fst (step s c)).
Proof.
  intros s c o S N. assert (B : o_names o < length (s_heap s)) by exact (proj1 (proj1 S _ _ N)).
  pose proof (keep_nothing s o c N) as K0. unfold step. rewrite N.
  destruct c as [k rest|k rest|k rest|k rest|k rest|k rest|k rest|k rest|k rest|k order rest|k order args fit]; cbn [target step_dict] in *.
  - destruct rest; cbn; auto. apply (keep_dict0 s o _ (PlainSample k None)). apply (regroup_scaled s o o true), regroup_refl.
  - destruct (group_default s k o) as [s1|e] eqn:G; auto. destruct (group_default_regroup s k o s1 N G) as (o1 & R1 & E1 & N1). rewrite N1.
    destruct rest; cbn.
    + subst s1. apply (keep_dict0 s o _ (MorrisSample k (Some e))); auto.
    + subst s1. unfold mark, set_dict. cbn. rewrite update_twice. apply (keep_dict0 s o _ (MorrisSample k None)). apply regroup_scaled; auto.
  - unfold pad. destruct (ff_size (o_num o)) as [n|e] eqn:F; cbn -[Nat.ltb]; auto. destruct (0 <? n - o_num o) eqn:P.
    + apply Nat.ltb_lt in P. destruct rest; cbn.
      * pose proof (e_pad s o (FfSample k (Some e)) n (o_scaled o) [] I F ltac:(lia) (fresh_nil _ _)) as E. rewrite app_nil_r in E. exact E.
      * unfold mark, set_dict. cbn. rewrite update_twice.
        pose proof (e_pad s o (FfSample k None) n true [] I F ltac:(lia) (fresh_nil _ _)) as E. rewrite app_nil_r in E. exact E.
    + destruct rest; cbn; auto. apply (keep_dict0 s o _ (FfSample k None)). apply (regroup_scaled s o o true), regroup_refl.
  - destruct rest; cbn; auto. apply (keep_report s o (ByName k None)); auto. apply fresh_one; auto.
  - destruct rest; cbn; auto. apply (keep_report s o (Discrepancy k None)); auto. apply fresh_one; auto.
  - destruct rest; cbn; auto. unfold add_report. cbn.
    apply (keep_new s o (Pawn k None)); auto.
  - destruct (group_default s k o) as [s1|e] eqn:G; auto. destruct (group_default_regroup s k o s1 N G) as (o1 & R1 & E1 & N1).
    destruct rest; cbn.
    + subst s1. apply (keep_dict0 s o _ (MorrisAnalyze k (Some e))); auto.
    + subst s1. unfold add_report. cbn. apply (e_keep s o (MorrisAnalyze k None)); auto. apply fresh_one. rewrite app_length; cbn; lia.
  - destruct rest; cbn; auto. apply (keep_report s o (SobolAnalyze k None)); auto. intros r [<-|[]]. reflexivity.
  - unfold pad. destruct (ff_size (o_num o)) as [n|e] eqn:F; cbn -[Nat.ltb]; auto. destruct (0 <? n - o_num o) eqn:P.
    + apply Nat.ltb_lt in P. destruct rest; cbn.
      * pose proof (e_pad s o (FfAnalyze k (Some e)) n (o_scaled o) [] I F ltac:(lia) (fresh_nil _ _)) as E. rewrite app_nil_r in E. exact E.
      * apply (e_pad s o (FfAnalyze k None) n (o_scaled o) _ I F ltac:(lia)). apply fresh_one; auto.
    + destruct rest; cbn; auto. apply (keep_report s o (FfAnalyze k None)); auto. apply fresh_one; auto.
  - destruct rest; auto. destruct (hdmr_terms _ _ _) as [terms|e] eqn:T; auto. unfold add_list, add_report. cbn.
    destruct (o_spec o) eqn:SP; cbn.
    + replace true with (o_spec o) at 1 by auto. apply (e_spec s o (Hdmr k order None) terms order); auto. apply fresh_one. lia.
    + apply (keep_new s o (Hdmr k order None)); auto.
  - destruct (length (content s (o_names o)) =? o_num o) eqn:L; cbn -[Nat.ltb]; auto. apply Nat.eqb_eq in L.
    destruct (length (o_bounds o) =? o_num o); cbn -[Nat.ltb]; auto. destruct (o_num o =? 1); auto. destruct args; auto.
    assert (E0 : forall fit, effect s o (Ehdmr k order None fit) (set_list s (o_names o) (extended_names (mkCore (o_num o) order true 0 0) (content s (o_names o))))).
    { intros f. pose proof (e_ehdmr s o (Ehdmr k order None f) order [] eq_refl L (fresh_nil _ _)) as E. rewrite app_nil_r in E. exact E. }
    destruct fit; auto. destruct ((order =? 1) && (0 <? o_num o)); cbn -[Nat.ltb]; auto. destruct ((order =? 3) && (0 <? o_num o)); cbn -[Nat.ltb]; auto.
    apply (e_ehdmr s o (Ehdmr k order None None) order); auto. apply fresh_one; auto.
Qed.

Lemma step_missing : forall s c, nth_error (s_dicts s) (target c) = None -> fst (step s c) = s.
Proof. intros s c N. unfold step. rewrite N. auto. Qed.

(** ** Soundness is kept *)
Lemma In_fresh : forall s s' k rs r, length (s_heap s) <= length (s_heap s') -> length (s_dicts s') = length (s_dicts s) -> k < length (s_dicts s) ->
  sound s -> fresh_reports (length (s_heap s')) k rs -> In r (s_reports s ++ rs) ->
  match r_labels r with At a => a < length (s_heap s') | OfProblem j => j < length (s_dicts s') end.
Proof.
  intros s s' k rs r L1 L2 Lk (_ & SR) F I. apply in_app_or in I. destruct I as [I|I].
  - apply SR in I. destruct (r_labels r); lia.
  - apply F in I. destruct (r_labels r); [auto|subst; lia].
Qed.

Lemma sound_effect : forall s o c s', sound s -> nth_error (s_dicts s) (target c) = Some o -> effect s o c s' -> sound s'.
Proof.
  intros s o c s' S N E. pose proof (proj1 S _ _ N) as (B & Bg).
  assert (Lk : target c < length (s_dicts s)) by (apply nth_error_Some; congruence).
  assert (G : forall d' , (forall a, o_groups d' = Some a -> a < length (s_heap s')) -> o_names d' < length (s_heap s') -> length (s_heap s) <= length (s_heap s') ->
     forall k x, nth_error (update (s_dicts s) (target c) d') k = Some x -> o_names x < length (s_heap s') /\ forall a, o_groups x = Some a -> a < length (s_heap s')).
  { intros d' H1 H2 H3 k x Hx. rewrite nth_error_update in Hx. destruct ((k =? target c) && _).
    - injection Hx as <-. auto.
    - apply (proj1 S) in Hx. destruct Hx as (X1 & X2). split; [lia|]. intros a Ha. apply X2 in Ha. lia. }
  destruct E as [new o' rs R F|n sc rs _ _ _ F|terms order rs _ _ _ F|order rs _ _ F]; (split; [|intros r I; eapply In_fresh; try exact I; try exact S; cbn; rewrite ?app_length, ?length_update in *; cbn; try lia; try exact Lk; try exact F]); cbn in *.
  - destruct R as (_ & R2 & _ & _ & _ & R6). apply G; [| rewrite R2|]; rewrite ?app_length in *; try lia. intros a Ha. destruct R6 as [R6|(_ & R6)].
    + rewrite R6 in Ha. apply Bg in Ha. lia.
    + rewrite R6 in Ha. injection Ha as <-. lia.
  - apply G; cbn; rewrite ?length_update; auto.
  - apply G; cbn; rewrite ?app_length; cbn; try lia. intros a Ha. apply Bg in Ha. lia.
  - rewrite Nat.add_1_r; auto.
  - intros k x Hx. rewrite length_update. apply (proj1 S _ _ Hx).
Qed.

Lemma sound_step : forall s c, sound s -> sound (fst (step s c)).
Proof.
  intros s c S. destruct (nth_error (s_dicts s) (target c)) as [o|] eqn:N.
  - eapply sound_effect; eauto using step_effect.
  - rewrite step_missing; auto.
Qed.
Lemma sound_run : forall cs s, sound s -> sound (run cs s).
Proof. induction cs; intros s S; cbn; auto. apply IHcs, sound_step, S. Qed.

(** ** Histories of harmless calls *)
Definition keeps (s s' : state) : Prop :=
  length (s_heap s) <= length (s_heap s') /\ (forall a, a < length (s_heap s) -> content s' a = content s a) /\
  length (s_dicts s') = length (s_dicts s) /\
  (forall k o, nth_error (s_dicts s) k = Some o -> exists o', nth_error (s_dicts s') k = Some o' /\ regroup s o o') /\
  exists rs, s_reports s' = s_reports s ++ rs.

Lemma view_content : forall s s' o, (forall a, a < length (s_heap s) -> content s' a = content s a) -> o_names o < length (s_heap s) ->
  (forall a, o_groups o = Some a -> a < length (s_heap s)) -> view s' o = view s o.
Proof.
  intros s s' o H B Bg. unfold view. rewrite H by auto. f_equal. destruct (o_groups o) as [a|]; cbn; auto. rewrite H; auto.
Qed.

Lemma keeps_refl : forall s, keeps s s.
Proof. intros s. split; [auto|]. split; [auto|]. split; auto. split; [intros k o H; exists o; split; auto using regroup_refl|]. exists []. rewrite app_nil_r; auto. Qed.

Lemma keeps_trans : forall s t u, sound s -> keeps s t -> keeps t u -> keeps s u.
Proof.
  intros s t u S (A1 & A2 & A3 & A4 & rs1 & A5) (B1 & B2 & B3 & B4 & rs2 & B5). split; [lia|]. split; [|split; [lia|split]].
  - intros a Ha. rewrite B2 by lia. auto.
  - intros k o H. destruct (A4 _ _ H) as (o1 & H1 & R1). destruct (B4 _ _ H1) as (o2 & H2 & R2). exists o2; split; auto.
    destruct R1 as (P1 & P2 & P3 & P4 & P5 & P6), R2 as (Q1 & Q2 & Q3 & Q4 & Q5 & Q6). repeat split; try congruence.
    destruct P6 as [P6|(P6 & P7)]; destruct Q6 as [Q6|(Q6 & Q7)].
    + left; congruence.
    + right. split; [|congruence]. destruct (proj1 S _ _ H) as (B & Bg).
      rewrite <- (view_content s t o A2 B Bg). revert Q6. unfold truthy_groups, view. cbn. rewrite P6. auto.
    + right. split; [auto|congruence].
    + right. split; [auto|congruence].
  - exists (rs1 ++ rs2). rewrite B5, A5, app_assoc. auto.
Qed.

Lemma extended_first : forall d order names, order <= 1 -> extended_names (mkCore d order true 0 0) names = names.
Proof.
  intros d order names L. unfold extended_names. cbn [c_order]. replace (1 <? order) with false by (symmetry; apply Nat.ltb_ge; auto).
  replace (order =? 3) with false by (symmetry; apply Nat.eqb_neq; lia). rewrite app_nil_r; auto.
Qed.

Lemma content_app : forall h d r d' r' new a, a < length h -> content (mkState (h ++ new) d r) a = content (mkState h d' r') a.
Proof. intros. unfold content. cbn. apply app_nth1; auto. Qed.
Lemma content_update : forall h d r d' r' i v a, i < length h -> content (mkState (update h i v) d r) a = if a =? i then v else content (mkState h d' r') a.
Proof. intros h d r d' r' i v a L. unfold content. cbn. rewrite nth_update. apply Nat.ltb_lt in L. rewrite L, andb_true_r. auto. Qed.

Lemma harmless_keeps : forall s c, sound s -> harmless s c -> keeps s (fst (step s c)).
Proof.
  intros s c S H. destruct (nth_error (s_dicts s) (target c)) as [o|] eqn:N; [|rewrite step_missing; auto using keeps_refl].
  specialize (H _ N). pose proof (step_effect s c o S N) as E. destruct (proj1 S _ _ N) as (B & Bg).
  destruct E as [new o' rs R F|n sc rs C FS L F|terms order rs C SP _ F|order rs C LN F].
  - split; [|split; [|split; [|split]]]; cbn.
    + rewrite app_length; lia.
    + intros a Ha. unfold content. cbn. apply app_nth1; auto.
    + apply length_update.
    + intros k x Hx. rewrite nth_error_update. destruct ((k =? target c) && (target c <? length (s_dicts s))) eqn:T.
      * apply andb_prop in T. destruct T as (T & _). apply Nat.eqb_eq in T. subst k. replace x with o by congruence. eauto.
      * exists x; split; auto using regroup_refl.
    + eauto.
  - exfalso. assert (power_of_two (o_num o)) by (destruct c; try contradiction; exact H). apply (ff_size_pow _ n) in H0; auto. lia.
  - exfalso. destruct c; try contradiction. congruence.
  - destruct c; try contradiction. subst. rewrite extended_first by auto. split; [|split; [|split; [|split]]]; cbn; auto.
    + rewrite length_update; lia.
    + intros a Ha. unfold content. cbn. rewrite nth_update. destruct (Nat.eqb_spec a (o_names o)); cbn; auto. subst. match goal with |- (if ?b then _ else _) = _ => destruct b end; auto.
    + intros k' x Hx. exists x; split; auto using regroup_refl.
    + eauto.
Qed.

Lemma harmless_kept : forall s s' c, keeps s s' -> sound s -> harmless s c -> harmless s' c.
Proof.
  intros s s' c (K1 & K2 & K3 & K4 & _) S H o' N'.
  destruct (nth_error (s_dicts s) (target c)) as [o|] eqn:N.
  - destruct (K4 _ _ N) as (x & Hx & R). replace x with o' in R by congruence. specialize (H _ N). destruct R as (R1 & R2 & R3 & R4 & R5 & _).
    destruct c; auto; congruence.
  - exfalso. apply nth_error_None in N. assert (target c < length (s_dicts s')) by (apply nth_error_Some; congruence). lia.
Qed.

Lemma run_keeps : forall cs s, sound s -> Forall (harmless s) cs -> keeps s (run cs s).
Proof.
  induction cs as [|c cs IH]; intros s S H; cbn; [apply keeps_refl|]. inversion H; subst.
  pose proof (harmless_keeps s c S ltac:(assumption)) as K. apply (keeps_trans s (fst (step s c))); auto. apply IH; [apply sound_step, S|].
  apply Forall_forall. intros c' I. apply (harmless_kept s); auto. rewrite Forall_forall in *; auto.
Qed.

Lemma regroup_view : forall s s' o o', keeps s s' -> o_names o < length (s_heap s) -> (forall a, o_groups o = Some a -> a < length (s_heap s)) ->
  regroup s o o' -> same_problem (view s o) (view s' o').
Proof.
  intros s s' o o' (K1 & K2 & _) B Bg (P1 & P2 & P3 & P4 & P5 & P6). unfold same_problem, view. cbn.
  rewrite P1, P2, P3, P4, K2 by auto. repeat split; auto. destruct P6 as [P6|(P6 & P7)].
  - left. rewrite P6. destruct (o_groups o) as [a|]; cbn; auto. rewrite K2; auto.
  - right. rewrite P7. cbn. rewrite K2 by auto. split; auto. unfold truthy_groups, view in P6. cbn in P6. destruct (option_map (content s) (o_groups o)) as [[|x g]|]; auto; discriminate.
Qed.

Lemma same_labels : forall p q, same_problem p q -> fst (extract_group_names p) = fst (extract_group_names q).
Proof.
  intros p q (_ & N & _ & _ & [G|(G & G')]); unfold extract_group_names, truthy_groups; cbn.
  - rewrite G, N. auto.
  - rewrite G'. replace (match p_groups p with Some (g :: gs) => Some (g :: gs) | _ => None end) with (@None (list string)) by (destruct G as [G|G]; rewrite G; auto).
    rewrite N. destruct (p_names q); auto.
Qed.

Lemma keeps_table : forall s s' r, sound s -> keeps s s' -> In r (s_reports s) -> table s' r = table s r.
Proof.
  intros s s' r S K I. assert (L : labels_of s' r = labels_of s r).
  { pose proof (proj2 S _ I) as B. unfold labels_of. destruct (r_labels r) as [a|k].
    - apply K, B.
    - apply nth_error_Some in B. destruct (nth_error (s_dicts s) k) as [o|] eqn:N; [|congruence]. destruct (proj1 S _ _ N) as (B1 & B2).
      pose proof K as (_ & _ & _ & K4 & _). destruct (K4 _ _ N) as (o' & N' & R). rewrite N'. symmetry. apply same_labels. apply regroup_view; auto. }
  unfold table. rewrite L. auto.
Qed.
