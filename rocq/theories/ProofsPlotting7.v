(** * Proofs: plots of Morris and of HDMR results. *)
From Coq Require Import Reals String List Arith Lia Lra Bool Permutation.
From Verif Require Import Base Arrays ListFacts ModelGroups ModelScale Stats SpecGroups ModelMorrisAnalyze SpecMorris ModelPlotting SpecPlotting ProofsGroups ProofsPlotting ProofsPlotting2.
Import ListNotations.
Local Open Scope nat_scope.

(** ** Morris *)
Lemma mapM_get_perm : forall (A : Type) (l : list A) idx, (forall j, In j idx -> j < length l) -> exists r, mapM (get l) idx = Ok r /\ length r = length idx /\
  forall i j, nth_error idx i = Some j -> exists x, nth_error l j = Some x /\ nth_error r i = Some x.
Proof.
  intros A l idx. induction idx as [|j idx IH]; intros H; [exists []; repeat split; intros [|i] j E; discriminate|].
  destruct IH as (r & E & L & N); [intros k I; apply H; right; exact I|]. destruct (nth_error_lt_Some l (i := j)) as [x Hx]; [apply H; left; reflexivity|].
  exists (x :: r). cbn [mapM]. unfold get at 1. rewrite Hx. cbn [bind]. rewrite E. cbn [bind length]. split; [reflexivity|]. split; [lia|].
  intros [|i] k EK; cbn in *; [injection EK as <-; eauto|apply N; exact EK].
Qed.

(** One bar per name; position [i] holds name, mean absolute effect and confidence interval of the parameter at place [i] of the sorted order. *)
Theorem bars_sorted : forall argsort o sortby key, In (sortby, key) [("mu_star", m_mu_star o); ("mu_star_conf", m_conf o); ("sigma", m_sigma o); ("mu", m_mu o)]%string ->
  m_names o <> [] -> length (m_mu_star o) = length (m_names o) -> length (m_conf o) = length (m_names o) -> (forall x, In x (m_conf o) -> not_negative x) ->
  Permutation (argsort key) (seq 0 (length (m_names o))) ->
  exists bs, horizontal_bars argsort o sortby = Ok bs /\ length bs = length (m_names o) /\
    forall i j, nth_error (argsort key) i = Some j -> exists n m c, nth_error bs i = Some (i, n, m, c) /\
      nth_error (m_names o) j = Some n /\ nth_error (m_mu_star o) j = Some m /\ nth_error (m_conf o) j = Some c.
Proof.
  intros argsort o sortby key HK NE L1 L2 HQ HP.
  assert (EK : horizontal_bars argsort o sortby =
    (do ns <- mapM (get (m_names o)) (argsort key) ;; do ms <- mapM (get (m_mu_star o)) (argsort key) ;; do cs <- mapM (get (m_conf o)) (argsort key) ;;
     if length ms =? 0 then Err ValueError else if existsb negative cs then Err ValueError else Ok (combine (combine (combine (seq 0 (length ms)) ns) ms) cs))).
  { destruct HK as [E|[E|[E|[E|[]]]]]; injection E as <- <-; reflexivity. }
  assert (B : forall j, In j (argsort key) -> j < length (m_names o)) by (intros j I; apply (Permutation_in _ HP), in_seq in I; lia).
  assert (LA : length (argsort key) = length (m_names o)) by (rewrite (Permutation_length HP), seq_length; reflexivity).
  destruct (mapM_get_perm _ (m_names o) _ B) as (ns & E1 & N1 & P1).
  destruct (mapM_get_perm _ (m_mu_star o) (argsort key)) as (ms & E2 & N2 & P2); [intros j I; rewrite L1; auto|].
  destruct (mapM_get_perm _ (m_conf o) (argsort key)) as (cs & E3 & N3 & P3); [intros j I; rewrite L2; auto|].
  rewrite EK, E1. cbn [bind]. rewrite E2. cbn [bind]. rewrite E3. cbn [bind].
  assert (LN : length (m_names o) <> 0) by (destruct (m_names o); [congruence|discriminate]).
  destruct (Nat.eqb_spec (length ms) 0); [lia|].
  assert (Q : existsb negative cs = false).
  { apply quiet. intros x I. apply HQ. apply In_nth_error in I as [i Hi]. destruct (nth_error_lt_Some (argsort key) (i := i)) as [j Hj]; [rewrite <- N3; apply nth_error_Some; congruence|].
    destruct (P3 _ _ Hj) as (y & Y1 & Y2). assert (x = y) by congruence. subst y. apply (nth_error_In _ _ Y1). }
  rewrite Q. eexists. split; [reflexivity|]. split; [rewrite !combine_length, seq_length; lia|].
  intros i j E. destruct (P1 _ _ E) as (nm & A1 & A2). destruct (P2 _ _ E) as (m & B1 & B2). destruct (P3 _ _ E) as (c & C1 & C2). exists nm, m, c. split; [|auto].
  assert (H : forall (A B : Type) (l : list A) (l' : list B) i x y, nth_error l i = Some x -> nth_error l' i = Some y -> nth_error (combine l l') i = Some (x, y)).
  { clear. induction l as [|a l IH]; intros [|b l'] [|i] x y E1 E2; cbn in *; try discriminate; [congruence|]. apply IH; assumption. }
  apply H; [|exact C2]. apply H; [|exact B2]. apply H; [|exact A2]. rewrite nth_error_seq. assert (i < length ms) by (apply nth_error_Some; congruence).
  destruct (Nat.ltb_spec i (length ms)); [reflexivity|lia].
Qed.

(** When every group has several members, every vertical coordinate is nan, although confidence intervals are available. *)
Theorem covariance_blank : forall nq conf_level resample ls N E out, summarises nq conf_level resample ls N E out ->
  (forall x js, In x ls -> members_of ls x js -> 2 <= length js) ->
  covariance_points (Some (m_sigma out)) (m_mu_star out) (m_conf out) = (map (fun m => (m, None)) (m_mu_star out), Sigma).
Proof.
  intros nq cl rs ls N E out (FA & L1 & L2 & L3 & L4 & H) HG. unfold covariance_points. f_equal.
  assert (A : forall s, In s (m_sigma out) -> s = None).
  { intros s I. apply In_nth_error in I as [k Hk]. destruct (nth_error_lt_Some (m_names out) (i := k)) as [x Hx]; [rewrite <- L3; apply nth_error_Some; congruence|].
    assert (IX : In x ls) by (apply FA, (nth_error_In _ _ Hx)).
    pose (js := filter (fun j => match nth_error ls j with Some y => String.eqb x y | None => false end) (seq 0 (length ls))).
    assert (M : members_of ls x js).
    { split; [apply NoDup_filter, seq_NoDup|]. intros j. unfold js. rewrite filter_In, in_seq. split.
      - intros [_ K]. destruct (nth_error ls j) as [y|]; [|discriminate]. apply String.eqb_eq in K. congruence.
      - intros K. rewrite K, String.eqb_refl. split; [|reflexivity]. assert (j < length ls) by (apply nth_error_Some; congruence). lia. }
    specialize (HG x js IX M). destruct (H k x js Hx M) as (_ & _ & _ & S & _). rewrite S in Hk by lia. congruence. }
  assert (LL : length (m_sigma out) = length (m_mu_star out)) by congruence. clear - A LL. revert LL A. generalize (m_sigma out) (m_mu_star out).
  intros l. induction l as [|s l IH]; intros [|m l'] LL A; try discriminate; [reflexivity|]. cbn [combine map]. f_equal; [|apply IH; [cbn in LL; lia|intros x I; apply A; right; exact I]].
  f_equal. apply A. left. reflexivity.
Qed.

Lemma subplot_digits : forall d v, d <= 9 -> v <= 8 -> subplot_code (101 + d * 10 + v) = if (1 <=? d) && (v + 1 <=? d) then Ok (1, d, v + 1) else Err ValueError.
Proof.
  intros d v HD HV. do 10 (destruct d as [|d]; [do 9 (destruct v as [|v]; [reflexivity|]); lia|]). lia.
Qed.

(** The histograms exist exactly for two to nine parameters. *)
Theorem histograms_few : forall X num_vars names, cols X = num_vars -> length names = num_vars -> 2 <= num_vars <= 9 ->
  exists out, sample_histograms X num_vars names = Ok out /\ length out = num_vars /\
    forall v, v < num_vars -> exists n, nth_error names v = Some n /\ nth_error out v = Some ((1, num_vars, v + 1), map (fun r => nth v r 0%R) (rows X), n).
Proof.
  intros X nv names HC HN HR. unfold sample_histograms. destruct (Nat.leb_spec (cols X) 1); [lia|].
  assert (EQ : forall v, In v (seq 0 nv) ->
    (do s <- subplot_code (101 + nv * 10 + v) ;; do xs <- (if v <? cols X then Ok (map (fun r => nth v r 0%R) (rows X)) else Err IndexError) ;; do n <- get names v ;; Ok (s, xs, n))
    = Ok ((1, nv, v + 1), map (fun r => nth v r 0%R) (rows X), nth v names ""%string)).
  { intros v I. apply in_seq in I. rewrite subplot_digits by lia. destruct (Nat.leb_spec 1 nv); [|lia]. destruct (Nat.leb_spec (v + 1) nv); [|lia]. cbn [andb bind].
    destruct (Nat.ltb_spec v (cols X)); [|lia]. cbn [bind]. unfold get. rewrite (nth_error_nth' names ""%string) by lia. reflexivity. }
  rewrite (mapM_ext _ _ _ EQ), mapM_Ok_map. eexists. split; [reflexivity|]. split; [rewrite map_length, seq_length; reflexivity|].
  intros v Hv. exists (nth v names ""%string). split; [apply nth_error_nth'; lia|]. rewrite nth_error_map', nth_error_seq. destruct (Nat.ltb_spec v nv); [reflexivity|lia].
Qed.

Theorem histograms_many : forall X num_vars names, cols X = num_vars -> length names = num_vars ->
  (num_vars = 1 -> sample_histograms X num_vars names = Err IndexError) /\ (10 <= num_vars -> sample_histograms X num_vars names = Err ValueError).
Proof.
  intros X nv names HC HN. unfold sample_histograms. split; intros H; [rewrite HC, H; reflexivity|].
  destruct (Nat.leb_spec (cols X) 1); [lia|].
  assert (F : forall n s, 9 <= s + n - 1 -> s <= 9 -> s + n <= nv -> n = 0 \/ mapM (fun v => do s <- subplot_code (101 + nv * 10 + v) ;; do xs <- (if v <? cols X then Ok (map (fun r => nth v r 0%R) (rows X)) else Err IndexError) ;; do n <- get names v ;; Ok (s, xs, n)) (seq s n) = Err ValueError).
  { induction n as [|n IH]; intros s A1 A2 A3; [left; reflexivity|]. right. cbn [seq mapM].
    destruct (subplot_code (101 + nv * 10 + s)) as [c|e] eqn:EC.
    - cbn [bind]. destruct (Nat.ltb_spec s (cols X)); [|lia]. cbn [bind]. unfold get at 1. rewrite (nth_error_nth' names ""%string) by lia. cbn [bind].
      destruct (Nat.eq_dec s 9) as [->|NS].
      + exfalso. unfold subplot_code in EC. destruct ((101 + nv * 10 + 9 <? 100) || (1000 <=? 101 + nv * 10 + 9)); [discriminate|].
        replace (101 + nv * 10 + 9) with ((11 + nv) * 10) in EC by lia. rewrite Nat.mod_mul in EC by lia. cbn [Nat.eqb] in EC. rewrite !orb_true_r in EC. discriminate.
      + destruct (IH (S s)) as [K|K]; try lia. rewrite K. reflexivity.
    - unfold subplot_code in EC. destruct (_ || _); [cbn; congruence|]. destruct (_ || _ || _ || _) in EC; [cbn; congruence|discriminate]. }
  destruct (F nv 0) as [K|K]; try lia. exact K.
Qed.

(** ** HDMR *)
Lemma trial_run : forall n i f it out, i mod 10 <> 0 -> (i mod 10) + n <= 10 -> it + n <= 11 ->
  foldM trial_step (seq i n) (Some (f, it), out) = Ok (Some (f, it + n), out ++ map (fun k => (f, it + k, i + k)) (seq 0 n)).
Proof.
  induction n as [|n IH]; intros i f it out H0 H1 H2; [cbn; rewrite app_nil_r, Nat.add_0_r; reflexivity|].
  cbn [seq foldM]. unfold trial_step at 1. assert (Hi : i <> 0) by (intros ->; apply H0; reflexivity).
  destruct (Nat.eqb_spec (i mod 10) 0); [lia|]. destruct (Nat.eqb_spec i 0); [lia|]. cbn [orb]. destruct (Nat.ltb_spec 10 it); [lia|]. cbn [bind].
  destruct n as [|n].
  - cbn. rewrite !Nat.add_0_r, Nat.add_1_r. reflexivity.
  - assert (HM : S i mod 10 = S (i mod 10)).
    { rewrite (Nat.div_mod i 10) at 1 by lia. rewrite <- Nat.add_succ_r, Nat.mul_comm, Nat.add_comm, Nat.mod_add by lia. apply Nat.mod_small. lia. }
    rewrite IH by lia. replace (S it + S n) with (it + S (S n)) by lia. f_equal. f_equal. rewrite <- app_assoc. f_equal. cbn [app].
    change (seq 0 (S (S n))) with (0 :: seq 1 (S n)). cbn [map]. rewrite !Nat.add_0_r. f_equal. rewrite <- (seq_shift (S n) 0), map_map. apply map_ext. intros k. f_equal; [f_equal|]; lia.
Qed.

Lemma trial_first : forall i, i mod 10 = 0 -> trial_step (None, []) i = Ok (Some (0, 2), [(0, 1, i)]).
Proof. intros i H. unfold trial_step. rewrite H. reflexivity. Qed.

(** The panels: at most ten trials, the last ones, each shown once, all in one figure. *)
Theorem trials_shown : forall K, 1 <= K -> K <= 10 \/ K mod 10 = 0 -> trial_panels K = Ok (map (fun k => (0, 1 + k, K - Nat.min K 10 + k)) (seq 0 (Nat.min K 10))).
Proof.
  intros K H1 H2. unfold trial_panels.
  assert (HS : (K - 10) mod 10 = 0).
  { destruct H2 as [H2|H2]; [replace (K - 10) with 0 by lia; reflexivity|]. destruct (le_lt_dec 10 K); [|replace (K - 10) with 0 by lia; reflexivity].
    replace K with ((K - 10) + 1 * 10) in H2 by lia. rewrite Nat.mod_add in H2 by lia. exact H2. }
  replace (K - (K - 10)) with (Nat.min K 10) by lia. replace (K - Nat.min K 10) with (K - 10) by lia.
  destruct (Nat.min K 10) as [|n] eqn:EM; [lia|]. cbn [seq foldM]. rewrite (trial_first _ HS). cbn [bind].
  assert (R : foldM trial_step (seq (S (K - 10)) n) (Some (0, 2), [(0, 1, K - 10)]) = Ok (Some (0, 2 + n), [(0, 1, K - 10)] ++ map (fun k => (0, 2 + k, S (K - 10) + k)) (seq 0 n))).
  { destruct n as [|n]; [reflexivity|]. assert (HM : S (K - 10) mod 10 = 1).
    { rewrite (Nat.div_mod (K - 10) 10) by lia. rewrite HS, Nat.add_0_r, <- Nat.add_1_r, Nat.add_comm, Nat.mul_comm, Nat.mod_add by lia. reflexivity. }
    apply trial_run; lia. }
  rewrite R. cbn [bind fst snd map]. rewrite !Nat.add_0_r. f_equal. cbn [app]. f_equal. rewrite <- (seq_shift n 0), map_map. apply map_ext. intros k. replace (S (K - 10) + k) with (K - 10 + S k) by lia; reflexivity.
Qed.

Theorem trials_unbound : forall K, 10 < K -> K mod 10 <> 0 -> trial_panels K = Err UnboundLocalError.
Proof.
  intros K H1 H2. unfold trial_panels. replace (K - (K - 10)) with 10 by lia. change (seq (K - 10) 10) with (K - 10 :: seq (S (K - 10)) 9). cbn [foldM]. unfold trial_step at 1.
  assert (HS : (K - 10) mod 10 <> 0) by (replace K with ((K - 10) + 1 * 10) in H2 by lia; rewrite Nat.mod_add in H2 by lia; exact H2).
  destruct (Nat.eqb_spec ((K - 10) mod 10) 0); [lia|]. destruct (Nat.eqb_spec (K - 10) 0); [lia|]. reflexivity.
Qed.

(** Every parameter once, three to a figure, under its own name. *)
Lemma regression_run : forall names n i st out, i + n <= length names -> (match st with Some (f, it) => i mod 3 <> 0 -> f = i / 3 /\ it = i mod 3 + 1 | None => i = 0 end) ->
  (match st with Some (f, _) => i mod 3 = 0 -> S f = i / 3 | None => True end) ->
  exists st', foldM (regression_step names) (seq i n) (st, out) = Ok (st', out ++ map (fun k => (k / 3, k mod 3 + 1, k, nth k names ""%string)) (seq i n)).
Proof.
  intros names. induction n as [|n IH]; intros i st out HL H1 H2; [exists st; cbn; rewrite app_nil_r; reflexivity|].
  cbn [seq foldM map].
  assert (E : regression_step names (st, out) i = Ok (Some (i / 3, i mod 3 + 2), out ++ [(i / 3, i mod 3 + 1, i, nth i names ""%string)])).
  { unfold regression_step. unfold get. rewrite (nth_error_nth' names ""%string) by lia. pose proof (Nat.mod_upper_bound i 3 ltac:(lia)) as MB.
    destruct (Nat.eqb_spec (i mod 3) 0) as [E0|E0]; cbn [orb bind].
    - rewrite E0. cbn [Nat.ltb Nat.leb]. destruct st as [[f it]|]; [rewrite (H2 E0)|rewrite H1]; reflexivity.
    - destruct (Nat.eqb_spec i 0) as [->|N0]; [exfalso; apply E0; reflexivity|]. destruct st as [[f it]|]; [|congruence]. destruct (H1 E0) as [-> ->].
      destruct (Nat.ltb_spec 3 (i mod 3 + 1)); [lia|]. replace (S (i mod 3 + 1)) with (i mod 3 + 2) by lia. reflexivity. }
  rewrite E. cbn [bind].
  assert (MB : i mod 3 < 3) by (apply Nat.mod_upper_bound; lia). pose proof (Nat.div_mod i 3 ltac:(lia)) as DM.
  assert (SM : (i mod 3 < 2 /\ S i mod 3 = S (i mod 3) /\ S i / 3 = i / 3) \/ (i mod 3 = 2 /\ S i mod 3 = 0 /\ S i / 3 = S (i / 3))).
  { destruct (le_lt_dec 2 (i mod 3)); [right|left]; (split; [lia|]).
    - assert (X : S i = 3 * S (i / 3)) by lia. rewrite X. rewrite Nat.mul_comm, Nat.mod_mul, Nat.div_mul by lia. auto.
    - assert (X : S i = 3 * (i / 3) + S (i mod 3)) by lia. split; [symmetry; apply (Nat.mod_unique _ _ (i / 3)); lia|symmetry; apply (Nat.div_unique _ _ _ (S (i mod 3))); lia]. }
  destruct (IH (S i) (Some (i / 3, i mod 3 + 2)) (out ++ [(i / 3, i mod 3 + 1, i, nth i names ""%string)])) as [st' E']; [lia|intros; lia|intros; lia|].
  exists st'. rewrite E'. rewrite <- app_assoc. reflexivity.
Qed.
Theorem regressions_shown : forall names d, d <= length names -> regression_panels names d = Ok (map (fun k => (k / 3, k mod 3 + 1, k, nth k names ""%string)) (seq 0 d)).
Proof.
  intros names d H. unfold regression_panels. destruct (regression_run names d 0 None [] ltac:(lia) eq_refl I) as [st E]. rewrite E. reflexivity.
Qed.

Lemma forallb_false_ex : forall A (f : A -> bool) l, forallb f l = false -> exists x, In x l /\ f x = false.
Proof.
  intros A f. induction l as [|a l IH]; intros H; [discriminate|]. cbn in H. destruct (f a) eqn:E.
  - destruct (IH H) as (x & I & F). exists x. split; [right; exact I|exact F].
  - exists a. split; [left; reflexivity|exact E].
Qed.
