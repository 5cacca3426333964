(** * The Morris analysis in double precision: results. *)
From Coq Require Import Reals String List Arith ZArith Bool Lia Lra Permutation.
From Flocq Require Import Core.
From Verif Require Import Base Arrays ListFacts ModelGroups ModelScale ProofsScale SpecGroups ProofsGroups Stats ModelFast ModelMorris ModelMorrisAnalyze SpecMorris ProofsMorris1 ProofsMorris3 ProofsMorris7
  ModelDouble ModelDouble2 ModelDouble4 ModelDouble5 SpecDouble3 ProofsDouble ProofsDouble5 ProofsDouble10 ProofsDouble12 ProofsDouble15 ProofsDouble16.
From Verif Require ProofsSobol4.
Import ListNotations.
Local Open Scope R_scope.

Lemma nth_metric : forall f g k, nth_error (map f (seq 0 g)) k = Some (f k) \/ nth_error (map f (seq 0 g)) k = @None fval /\ (g <= k)%nat.
Proof.
  intros f g k. destruct (Nat.lt_ge_cases k g) as [L|L]; [left; rewrite nth_error_map', nth_error_seq, (proj2 (Nat.ltb_lt _ _) L); auto|right]. split; auto.
  apply nth_error_None. rewrite map_length, seq_length. auto.
Qed.
Lemma nth_map_none : forall A (f : A -> fval) l j, nth j (map f l) None = match nth_error l j with Some a => f a | None => None end.
Proof. induction l as [|a l IH]; intros [|j]; cbn; auto. Qed.

Lemma fsd1_pos : forall arr l v, fsd1_fl arr l = Some v -> 0 <= v.
Proof. intros arr l v. unfold fsd1_fl. destruct (all_some l); [apply std1_pos|discriminate]. Qed.

Lemma conf_pos : forall S nq cl idxs ee v, 0 <= nq (fl (/ 2 + fl (cl / 2))) -> conf_fl S nq cl idxs ee = Some v -> 0 <= v.
Proof.
  intros S nq cl idxs ee v Z. unfold conf_fl. destruct (fsd1_fl _ _) as [s|] eqn:E; [|discriminate]. apply fsd1_pos in E. cbn [fmul_fl]. intros H. injection H as <-. apply fl_pos. nra.
Qed.

Lemma bounds : forall S nq p X Y cl scaled levels resample out, snd (morris_analyze_fl S nq p X Y cl scaled levels resample) = Ok out -> 0 <= nq (fl (/ 2 + fl (cl / 2))) ->
  (forall k, (k < length (m_names out))%nat ->
    exists a b, nth_error (m_mu out) k = Some a /\ nth_error (m_mu_star out) k = Some b /\ (a = None <-> b = None) /\ (forall x y, a = Some x -> b = Some y -> Rabs x <= y)) /\
  (forall v, In (Some v) (m_sigma out) \/ In (Some v) (m_conf out) -> 0 <= v).
Proof.
  intros S nq p X Y cl scaled levels resample out H Z. destruct (parts _ _ _ _ _ _ _ _ _ _ H) as (EE & groups & conf & L & C & E). cbv zeta in E. destruct E as (-> & -> & -> & ->). split.
  - intros k K. unfold grouped_metric_fl.
    match goal with |- exists a b, nth_error (map ?f _) k = _ /\ nth_error (map ?g _) k = _ /\ _ => destruct (nth_metric f (length (m_names out)) k) as [->|[_ B]]; [|lia];
      destruct (nth_metric g (length (m_names out)) k) as [->|[_ B]]; [|lia] end.
    eexists _, _. split; [reflexivity|]. split; [reflexivity|].
    match goal with |- (?a = None <-> ?b = None) /\ _ => assert (D : dom a b) end.
    { apply grouped_dom. intros j _. rewrite !nth_map_none. destruct (nth_error EE j) as [ee|]; [apply mean_dom|exact I]. }
    destruct (grouped_fl _ _ _ _) as [x|], (grouped_fl _ _ _ _) as [y|]; cbn [dom] in D; try contradiction; split; try (split; congruence); intros u v HU HV; congruence.
  - intros v [V|V]; apply in_map_iff in V; destruct V as (k & V & _).
    + destruct (_ =? 1)%nat; [|discriminate]. apply grouped_pos in V; auto. intros j x _. rewrite nth_map_none. destruct (nth_error EE j); [apply fsd1_pos|discriminate].
    + apply grouped_pos in V; auto. intros j x _ Hx. destruct (nth_error conf j) as [c|] eqn:Ec.
      * rewrite (nth_error_nth _ _ _ Ec) in Hx. subst c. destruct (C j _ Ec) as (ee & idxs & E). symmetry in E. eapply conf_pos; eauto.
      * apply nth_error_None in Ec. rewrite nth_overflow in Hx by auto. discriminate.
Qed.

(** ** The entries for proper shapes *)
Definition col_fl (S : sums) G X Y levels scaled N j : list fval := map (fun i => effect_fl S (G + 1) X Y (delta_fl levels) scaled i j) (seq 0 N).

Lemma shaped : forall S nq p ls G N X Y cl scaled levels resample, labels_of p ls -> distinct_count ls G -> length ls = p_num_vars p -> cols X = p_num_vars p -> (0 < p_num_vars p)%nat ->
  levels <> 1%nat -> 0 < cl < 1 -> length (rows X) = length Y -> length Y = (N * (G + 1))%nat -> (0 < N)%nat ->
  exists p1 m, compute_groups_matrix ls = Ok (m, pd_unique ls) /\ G = length (pd_unique ls) /\ length m = length ls /\
  let w := s_within S in
  let EE := map (col_fl S G (rows X) Y levels scaled N) (seq 0 (p_num_vars p)) in
  morris_analyze_fl S nq p X Y cl scaled levels resample =
  (p1, Ok (mkMorris (pd_unique ls) (grouped_metric_fl w (map (fmean_fl (s_over S)) EE) m G) (grouped_metric_fl w (map (fun ee => fmean_fl (s_over S) (map fabs ee)) EE) m G)
    (grouped_sigma_fl w (map (fsd1_fl (s_over S)) EE) m G)
    (grouped_metric_fl w (map (fun j => conf_fl S nq cl (resample j) (col_fl S G (rows X) Y levels scaled N j)) (seq 0 (p_num_vars p))) m G))).
Proof.
  intros S nq p ls G N X Y cl scaled levels resample Hls HG Hn Hc Hp Hl Hcl HXY HY HT. apply distinct_count_unique in HG.
  assert (HGr : exists p1, define_problem_with_groups p = Ok p1 /\ p_groups p1 = Some ls /\ p_num_vars p1 = p_num_vars p).
  { destruct (define_groups_cases p) as [[Hg (p' & E & H1 & H2 & H3 & H4 & H5 & H6)]|[(g & Hg & Hne & HL & E)|(g & Hg & Hne & HL & E)]].
    - exists p'. destruct Hls as [(g & gs & Hgg & ->)|[_ ->]]; [destruct Hg; congruence|]. repeat split; auto.
    - exists p. destruct Hls as [(g' & gs & Hgg & ->)|[[Hgg|Hgg] ->]]; [|congruence|congruence]. repeat split; auto.
    - exfalso. destruct Hls as [(g' & gs & Hgg & ->)|[[Hgg|Hgg] ->]]; [|congruence|congruence]. rewrite Hgg in Hg. injection Hg as <-. congruence. }
  destruct HGr as (p1 & E1 & Eg & Ev). destruct (compute_groups_matrix_total ls) as [m Em]. destruct (groups_matrix_membership _ _ _ Em) as (HLm & _ & _).
  exists p1, m. split; auto. split; auto. split; auto. cbv zeta. destruct (analyze_size N G HT) as [S1 S2].
  unfold morris_analyze_fl. rewrite E1, Eg. unfold compute_delta. destruct (Nat.eqb_spec levels 1) as [Q|_]; [congruence|]. cbn [bind]. rewrite Em. cbn [bind].
  rewrite <- HG, HY, S1, S2. destruct (Nat.eqb_spec N 0) as [Z|_]; [lia|].
  unfold elementary_effects_fl. rewrite HXY, HY, S1, Nat.eqb_refl. cbn [negb]. rewrite Nat.eqb_refl. cbn [negb bind].
  rewrite (proj2 (Rltb_true 0 cl)), (proj2 (Rltb_true cl 1)) by lra. cbn [negb andb].
  change (tab (cols X) N (fun j i => effect_fl S (G + 1) (rows X) Y (delta_fl levels) scaled i j)) with (map (col_fl S G (rows X) Y levels scaled N) (seq 0 (cols X))).
  rewrite Hc. set (EE := map (col_fl S G (rows X) Y levels scaled N) (seq 0 (p_num_vars p))).
  rewrite (@mapM_ext nat fval _ (fun j => Ok (conf_fl S nq cl (resample j) (col_fl S G (rows X) Y levels scaled N j)))).
  2:{ intros j Hj. apply in_seq in Hj. unfold get, EE. rewrite nth_error_map', nth_error_seq, (proj2 (Nat.ltb_lt _ _)) by lia. reflexivity. }
  rewrite mapM_Ok_map. cbn [bind]. rewrite HLm, Hn, Ev, Nat.eqb_refl. reflexivity.
Qed.

Lemma nth_seq_map : forall (f : nat -> fval) n j, (j < n)%nat -> nth j (map f (seq 0 n)) None = f j.
Proof. intros f n j H. rewrite nth_map_none, nth_error_seq, (proj2 (Nat.ltb_lt _ _) H). reflexivity. Qed.

(** ** Monotone and flat parameters *)
Lemma abs_col : forall l : list fval, (forall x, In (Some x) l -> 0 <= x) -> map fabs l = l.
Proof.
  induction l as [|[x|] l IH]; intros H; cbn; auto; rewrite IH by (intros y Hy; apply H; right; auto); auto.
  rewrite Rabs_pos_eq; auto. apply H. left. auto.
Qed.
Lemma abs_col_neg : forall l : list fval, (forall x, In (Some x) l -> x <= 0) -> map fabs l = map (times (-1)) l.
Proof.
  induction l as [|[x|] l IH]; intros H; cbn; auto; rewrite IH by (intros y Hy; apply H; right; auto); auto.
  assert (x <= 0) by (apply H; left; auto). do 2 f_equal. unfold Rabs. destruct (Rcase_abs x); lra.
Qed.
Lemma all_some_times : forall c (l : list fval), all_some (map (times c) l) = option_map (map (Rmult c)) (all_some l).
Proof. induction l as [|[x|] l IH]; cbn; auto. rewrite IH. destruct (all_some l); reflexivity. Qed.
Lemma map_opp : forall l, map (Rmult (-1)) l = ProofsSobol4.opp l.
Proof. intros l. unfold ProofsSobol4.opp. apply map_ext. intros x. ring. Qed.
Lemma fmean_opp : forall arr l, fmean_fl arr (map (times (-1)) l) = times (-1) (fmean_fl arr l).
Proof. intros arr l. unfold fmean_fl. rewrite all_some_times. destruct (all_some l) as [r|]; cbn [option_map]; auto. rewrite map_opp, mean_fl_opp. unfold times. cbn. f_equal. ring. Qed.
Lemma fabs_opp : forall v, fabs (times (-1) v) = fabs v.
Proof. intros [x|]; cbn; auto. f_equal. replace (-1 * x) with (- x) by ring. apply Rabs_Ropp. Qed.
Lemma fsd1_opp : forall arr l, fsd1_fl arr (map (times (-1)) l) = fsd1_fl arr l.
Proof.
  intros arr l. unfold fsd1_fl. rewrite all_some_times. destruct (all_some l) as [r|]; cbn [option_map]; auto. rewrite map_opp. unfold std1_fl. rewrite opp_length, mean_fl_opp, squares_opp.
  unfold sum_fl. unfold squares_fl. rewrite !map_length. reflexivity.
Qed.

Lemma in_col : forall S G X Y levels scaled N j x, In (Some x) (col_fl S G X Y levels scaled N j) -> exists i, (i < N)%nat /\ effect_fl S (G + 1) X Y (delta_fl levels) scaled i j = Some x.
Proof. intros S G X Y levels scaled N j x H. apply in_map_iff in H. destruct H as (i & E & I). apply in_seq in I. exists i. split; [lia|auto]. Qed.

Section Trends.
Variables (S : sums) (nq : R -> R) (p : problem) (ls : list string) (G N : nat) (X : mat R) (Y : list R) (cl : R) (scaled : bool) (levels : nat) (resample : nat -> list (list nat)) (out : morris_out) (k : nat) (x : string).
Hypothesis Hls : labels_of p ls.
Hypothesis HG : distinct_count ls G.
Hypothesis Hn : length ls = p_num_vars p.
Hypothesis Hc : cols X = p_num_vars p.
Hypothesis Hp : (0 < p_num_vars p)%nat.
Hypothesis Hl : levels <> 1%nat.
Hypothesis Hcl : 0 < cl < 1.
Hypothesis HX : length (rows X) = length Y.
Hypothesis HY : length Y = (N * (G + 1))%nat.
Hypothesis HT : (0 < N)%nat.
Hypothesis Ho : snd (morris_analyze_fl S nq p X Y cl scaled levels resample) = Ok out.
Hypothesis Hk : nth_error (m_names out) k = Some x.
Hypothesis A : arrangement (s_einsum S).
Hypothesis DY : forall y, In y Y -> double y.
Hypothesis OM : forall j, nth_error ls j = Some x -> one_move (G + 1) (rows X) j.

Lemma trend : exists m, length m = length ls /\ members_of ls x (members m k) /\ (k < G)%nat /\
  let w := s_within S in
  let c := col_fl S G (rows X) Y levels scaled N in
  nth_error (m_mu out) k = Some (grouped_fl w (map (fun j => fmean_fl (s_over S) (c j)) (seq 0 (p_num_vars p))) m k) /\
  nth_error (m_mu_star out) k = Some (grouped_fl w (map (fun j => fmean_fl (s_over S) (map fabs (c j))) (seq 0 (p_num_vars p))) m k) /\
  (nth_error (m_sigma out) k = Some None \/ nth_error (m_sigma out) k = Some (grouped_fl w (map (fun j => fsd1_fl (s_over S) (c j)) (seq 0 (p_num_vars p))) m k)) /\
  nth_error (m_conf out) k = Some (grouped_fl w (map (fun j => conf_fl S nq cl (resample j) (c j)) (seq 0 (p_num_vars p))) m k).
Proof.
  destruct (shaped S nq p ls G N X Y cl scaled levels resample) as (p1 & m & Em & EG & Lm & E); auto. cbv zeta in E. rewrite E in Ho. cbn [snd] in Ho. injection Ho as <-. cbn [m_names] in Hk.
  exists m. split; auto. split; [eapply members_spec; eauto|]. assert (K : (k < G)%nat) by (rewrite EG; apply nth_error_Some; congruence). split; auto. cbv zeta. cbn [m_mu m_mu_star m_sigma m_conf].
  unfold grouped_metric_fl, grouped_sigma_fl. rewrite !nth_error_map', nth_error_seq, (proj2 (Nat.ltb_lt _ _) K). cbn [option_map Nat.add]. rewrite !map_map. repeat split.
  destruct (_ =? 1)%nat; auto.
Qed.

Lemma member_facts : forall m j, length m = length ls -> members_of ls x (members m k) -> In j (members m k) -> nth_error ls j = Some x /\ (j < p_num_vars p)%nat.
Proof. intros m j L [_ M] J. apply M in J. split; auto. rewrite <- Hn. apply nth_error_Some. congruence. Qed.

Lemma rising : (forall j, nth_error ls j = Some x -> rises N (G + 1) (rows X) Y j) -> nth_error (m_mu out) k = nth_error (m_mu_star out) k.
Proof.
  intros H. destruct trend as (m & L & M & K & -> & -> & _). f_equal. apply grouped_ext. intros j J. destruct (member_facts m j L M J) as [J1 J2].
  rewrite !nth_seq_map by auto. rewrite abs_col; auto. intros v V. apply in_col in V. destruct V as (i & I & V). apply effect_sign in V; auto. apply V. apply (difference_rises S (G + 1) N); auto. lia.
Qed.
Lemma falling : (forall j, nth_error ls j = Some x -> falls N (G + 1) (rows X) Y j) -> nth_error (m_mu_star out) k = option_map (times (-1)) (nth_error (m_mu out) k).
Proof.
  intros H. destruct trend as (m & L & M & K & -> & -> & _). cbn [option_map]. f_equal. apply grouped_opp. intros j J. destruct (member_facts m j L M J) as [J1 J2].
  rewrite !nth_seq_map by auto. rewrite abs_col_neg, fmean_opp; auto. intros v V. apply in_col in V. destruct V as (i & I & V). apply effect_sign in V; auto. apply V. apply (difference_falls S (G + 1) N); auto. lia.
Qed.

Lemma in_nth_fabs : forall (l : list fval) idx v, In (Some v) (map (fun t => fabs (nth t l None)) idx) -> exists u, In (Some u) l /\ v = Rabs u.
Proof.
  intros l idx v H. apply in_map_iff in H. destruct H as (t & E & _). destruct (nth_in_or_default t l None) as [I|D]; [|rewrite D in E; discriminate].
  destruct (nth t l None) as [u|] eqn:Eu; [|discriminate]. injection E as <-. exists u. split; auto.
Qed.
Lemma fmean_zero : forall arr (l : list fval) v, (forall u, In (Some u) l -> u = 0) -> fmean_fl arr l = Some v -> v = 0.
Proof.
  intros arr l v H. unfold fmean_fl. destruct (all_some l) as [r|] eqn:E; [|discriminate]. cbn. intros V. injection V as <-. apply mean_zero. intros u U. apply H. eapply all_some_in; eauto.
Qed.
Lemma fsd1_zero : forall arr (l : list fval) v, (forall u, In (Some u) l -> u = 0) -> fsd1_fl arr l = Some v -> v = 0.
Proof. intros arr l v H. unfold fsd1_fl. destruct (all_some l) as [r|] eqn:E; [|discriminate]. apply std1_zero. intros u U. apply H. eapply all_some_in; eauto. Qed.

Lemma flat_zero : (forall j, nth_error ls j = Some x -> flat N (G + 1) (rows X) Y j) ->
  forall v, nth_error (m_mu out) k = Some (Some v) \/ nth_error (m_mu_star out) k = Some (Some v) \/ nth_error (m_sigma out) k = Some (Some v) \/ nth_error (m_conf out) k = Some (Some v) -> v = 0.
Proof.
  intros H v. destruct trend as (m & L & M & K & -> & -> & SG & ->).
  assert (Z : forall j u, In j (members m k) -> In (Some u) (col_fl S G (rows X) Y levels scaled N j) -> u = 0).
  { intros j u J U. destruct (member_facts m j L M J) as [J1 J2]. apply in_col in U. destruct U as (i & I & U). apply effect_sign in U; auto.
    rewrite (difference_flat S (G + 1) N) in U by (auto; lia). destruct U as [U1 U2]. specialize (U1 (Rle_refl 0)). specialize (U2 (Rle_refl 0)). lra. }
  intros [V|[V|[V|V]]].
  - injection V as V. apply grouped_zero in V; auto. intros j u J. rewrite nth_seq_map by (eapply member_facts; eauto). apply fmean_zero. eauto.
  - injection V as V. apply grouped_zero in V; auto. intros j u J. rewrite nth_seq_map by (eapply member_facts; eauto). apply fmean_zero. intros w W. apply in_map_iff in W.
    destruct W as ([y|] & E & I); [|discriminate]. injection E as <-. rewrite (Z j y J I). apply Rabs_R0.
  - destruct SG as [SG|SG]; rewrite SG in V; [discriminate|]. injection V as V. apply grouped_zero in V; auto. intros j u J. rewrite nth_seq_map by (eapply member_facts; eauto). apply fsd1_zero. eauto.
  - injection V as V. apply grouped_zero in V; auto. intros j u J. rewrite nth_seq_map by (eapply member_facts; eauto). unfold conf_fl.
    destruct (fsd1_fl _ _) as [s|] eqn:E; [|discriminate]. apply fsd1_zero in E.
    + subst s. cbn [fmul_fl]. intros Q. injection Q as <-. rewrite Rmult_0_r. apply fl_0.
    + intros w W. apply in_map_iff in W. destruct W as (idx & W & _). apply fmean_zero in W; auto. intros y Hy. apply in_nth_fabs in Hy. destruct Hy as (y' & I & ->). rewrite (Z j y' J I). apply Rabs_R0.
Qed.
End Trends.

(** ** Outputs of the other sign *)
Lemma picked_opp : forall size X Y up i j, picked size X (map Ropp Y) up i j = ProofsSobol4.opp (picked size X Y up i j).
Proof.
  intros size X Y up i j. unfold picked, ProofsSobol4.opp. rewrite map_map. apply map_ext. intros k. cbv zeta. destruct (if up then _ else _); [|ring]. unfold y_at. rewrite <- (map_nth Ropp), Ropp_0. reflexivity.
Qed.
Lemma difference_opp : forall S size X Y i j, difference_fl S size X (map Ropp Y) i j = - difference_fl S size X Y i j.
Proof. intros S size X Y i j. unfold difference_fl, reorganize_fl. rewrite !picked_opp, !tsum_opp, <- fl_opp. f_equal. ring. Qed.
Lemma std_opp : forall arr l, std_fl arr (ProofsSobol4.opp l) = std_fl arr l.
Proof. intros arr l. unfold std_fl. rewrite var_fl_opp. reflexivity. Qed.
Lemma fdiv_opp : forall x y, fdiv_fl (- x) y = times (-1) (fdiv_fl x y).
Proof. intros x y. unfold fdiv_fl, times. destruct (Reqb y 0); cbn; auto. f_equal. replace (- x / y) with (- (x / y)) by (unfold Rdiv; ring). rewrite fl_opp. ring. Qed.
Lemma effect_opp : forall S size X Y delta scaled i j, effect_fl S size X (map Ropp Y) delta scaled i j = times (-1) (effect_fl S size X Y delta scaled i j).
Proof.
  intros S size X Y delta scaled i j. unfold effect_fl. destruct scaled; [|rewrite difference_opp; apply fdiv_opp]. unfold scaled_effect_fl. rewrite difference_opp, fdiv_opp.
  replace (ys_of size (map Ropp Y) i) with (ProofsSobol4.opp (ys_of size Y i)).
  - rewrite std_opp. destruct (fdiv_fl _ _) as [q|]; cbn; auto. f_equal. match goal with |- fl (-1 * q * ?a) = _ => replace (-1 * q * a) with (- (q * a)) by ring; rewrite fl_opp; ring end.
  - unfold ProofsSobol4.opp, ys_of. rewrite map_map. apply map_ext. intros k. unfold y_at. rewrite <- (map_nth Ropp), Ropp_0. reflexivity.
Qed.

Definition flip (o : morris_out) : morris_out := mkMorris (m_names o) (map (times (-1)) (m_mu o)) (m_mu_star o) (m_sigma o) (m_conf o).
Definition map_ok {A B} (f : A -> B) (r : result A) : result B := match r with Ok a => Ok (f a) | Err e => Err e end.

Lemma conf_opp : forall S nq cl idxs ee, conf_fl S nq cl idxs (map (times (-1)) ee) = conf_fl S nq cl idxs ee.
Proof.
  intros S nq cl idxs ee. unfold conf_fl. do 2 f_equal. apply map_ext. intros idx. f_equal. apply map_ext. intros t. change (@None R) with (times (-1) None) at 1. rewrite map_nth. apply fabs_opp.
Qed.
Lemma map_abs_opp : forall l, map fabs (map (times (-1)) l) = map fabs l.
Proof. intros l. rewrite map_map. apply map_ext. apply fabs_opp. Qed.
Lemma sign_flip : forall S nq p X Y cl scaled levels resample,
  snd (morris_analyze_fl S nq p X (map Ropp Y) cl scaled levels resample) = map_ok flip (snd (morris_analyze_fl S nq p X Y cl scaled levels resample)).
Proof.
  intros S nq p X Y cl scaled levels resample. unfold morris_analyze_fl. destruct (define_problem_with_groups p) as [p1|e]; auto. cbn [snd]. destruct (compute_delta levels); auto. cbn [bind].
  destruct (compute_groups_matrix _) as [[groups names]|e]; auto. cbn [bind]. rewrite map_length. destruct (_ =? 0)%nat; auto. unfold elementary_effects_fl. rewrite map_length.
  set (size := (length Y / (length Y / (length names + 1)))%nat). destruct (negb _); auto. destruct (negb _); auto. cbn [bind]. destruct (negb _); auto.
  set (T := (length (rows X) / size)%nat). set (EE := tab (cols X) T (fun j i => effect_fl S size (rows X) Y (delta_fl levels) scaled i j)).
  assert (E : tab (cols X) T (fun j i => effect_fl S size (rows X) (map Ropp Y) (delta_fl levels) scaled i j) = map (map (times (-1))) EE).
  { unfold EE, tab. rewrite map_map. apply map_ext. intros j. rewrite map_map. apply map_ext. intros i. apply effect_opp. }
  rewrite E. rewrite (@mapM_ext nat fval (fun j => do ee <- get (map (map (times (-1))) EE) j;; Ok (conf_fl S nq cl (resample j) ee)) (fun j => do ee <- get EE j;; Ok (conf_fl S nq cl (resample j) ee))).
  2:{ intros j _. unfold get. rewrite nth_error_map'. destruct (nth_error EE j) as [ee|]; auto. cbn [option_map bind]. rewrite conf_opp. reflexivity. }
  destruct (mapM _ _) as [conf|e]; auto. cbn [bind]. destruct (negb _); auto. cbn [map_ok]. unfold flip. cbn [m_names m_mu m_mu_star m_sigma m_conf].
  unfold grouped_metric_fl, grouped_sigma_fl. do 2 f_equal.
  - rewrite (map_map (grouped_fl _ _ _) (times (-1))). apply map_ext. intros k. apply grouped_opp. intros j _. rewrite !nth_map_none, nth_error_map'. destruct (nth_error EE j); auto. cbn [option_map]. apply fmean_opp.
  - apply map_ext. intros k. f_equal. rewrite map_map. apply map_ext. intros l. rewrite map_abs_opp. reflexivity.
  - apply map_ext. intros k. destruct (_ =? 1)%nat; auto. f_equal. rewrite map_map. apply map_ext. intros l. apply fsd1_opp.
Qed.
