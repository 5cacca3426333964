(** * The Morris analysis in double precision: signs, zeros, monotone models. *)
From Coq Require Import Reals String List Arith ZArith Bool Lia Lra Permutation.
From Flocq Require Import Core.
From Verif Require Import Base Arrays ListFacts ModelGroups ModelScale ProofsScale SpecGroups ProofsGroups Stats ModelFast ModelMorris ModelMorrisAnalyze SpecMorris ProofsMorris1 ProofsMorris3 ProofsMorris7
  ModelDouble ModelDouble2 ModelDouble4 ModelDouble5 SpecDouble3 ProofsDouble ProofsDouble5 ProofsDouble10 ProofsDouble12 ProofsDouble15.
From Verif Require ProofsSobol4.
Import ListNotations.
Local Open Scope R_scope.

(** ** Signs of effects *)
Lemma delta_nonneg : forall levels, levels <> 1%nat -> 0 <= delta_fl levels.
Proof.
  intros levels H. unfold delta_fl. destruct levels as [|[|n]]; [|congruence|].
  - cbn [INR]. unfold Rdiv. rewrite Rmult_0_l, fl_0. lra.
  - apply fl_pos. assert (P : 0 < INR (S (S n)) - 1) by (rewrite S_INR; pose proof (pos_INR n); pose proof (lt_0_INR (S n) ltac:(lia)); lra).
    assert (Q : 0 <= fl (2 * (INR (S (S n)) - 1))) by (apply fl_pos; lra). destruct Q as [Q|Q].
    + unfold Rdiv. apply Rmult_le_pos; [apply pos_INR|]. left. apply Rinv_0_lt_compat. auto.
    + rewrite <- Q. unfold Rdiv. rewrite Rinv_0. lra.
Qed.

Section Signs.
Variables (S : sums) (size N : nat) (X : list (list R)) (Y : list R) (j : nat).
Hypothesis A : arrangement (s_einsum S).
Hypothesis P : (0 < size)%nat.
Hypothesis DY : forall y, In y Y -> double y.
Hypothesis O : one_move size X j.

Lemma difference_rises : forall i, (i < N)%nat -> rises N size X Y j -> 0 <= difference_fl S size X Y i j.
Proof.
  intros i I H. destruct (difference_cases S size X Y i j A P DY O) as [->|(q & Q & [[C ->]|[C ->]])]; [lra| |]; apply fl_pos; destruct (H i q I Q) as [H1 H2]; cbv beta zeta in *.
  - specialize (H1 C). lra.
  - specialize (H2 C). lra.
Qed.
Lemma difference_falls : forall i, (i < N)%nat -> falls N size X Y j -> difference_fl S size X Y i j <= 0.
Proof.
  assert (NO : forall r, nth r (map Ropp Y) 0 = - nth r Y 0) by (intros r; rewrite <- (map_nth Ropp), Ropp_0; reflexivity).
  intros i I H. destruct (difference_cases S size X Y i j A P DY O) as [->|(q & Q & [[C ->]|[C ->]])]; [lra| |]; apply fl_le; try apply double_0; destruct (H i q I Q) as [H1 H2]; cbv beta zeta in *; rewrite !NO in *.
  - specialize (H1 C). lra.
  - specialize (H2 C). lra.
Qed.
Lemma difference_flat : forall i, (i < N)%nat -> flat N size X Y j -> difference_fl S size X Y i j = 0.
Proof.
  intros i I H. destruct (difference_cases S size X Y i j A P DY O) as [->|(q & Q & [[C ->]|[C ->]])]; [auto| |]; rewrite (H i q I Q) by lra; (replace (nth (i * size + q) Y 0 - nth (i * size + q) Y 0) with 0 by ring); apply fl_0.
Qed.
End Signs.

Lemma fl_neg : forall x, x <= 0 -> fl x <= 0.
Proof. intros x H. apply fl_le; [apply double_0|auto]. Qed.
Lemma maxmin : forall l, minl l <= maxl l.
Proof. intros [|x l]; [cbn; lra|]. destruct (maxl_spec (x :: l)) as [_ H]; [discriminate|]. apply H. destruct (minl_spec (x :: l)); [discriminate|auto]. Qed.

(** What the sign of the difference says about the effect. *)
Lemma effect_sign : forall (S : sums) size X Y levels scaled i j v, levels <> 1%nat -> effect_fl S size X Y (delta_fl levels) scaled i j = Some v ->
  (0 <= difference_fl S size X Y i j -> 0 <= v) /\ (difference_fl S size X Y i j <= 0 -> v <= 0).
Proof.
  intros S size X Y levels scaled i j v L H. assert (D : forall x y w, 0 <= y -> fdiv_fl x y = Some w -> (0 <= x -> 0 <= w) /\ (x <= 0 -> w <= 0)).
  { intros x y w Hy E. unfold fdiv_fl in E. destruct (Reqb y 0) eqn:R; [discriminate|]. apply Reqb_false in R. injection E as <-.
    assert (I : 0 < / y) by (apply Rinv_0_lt_compat; lra). unfold Rdiv. split; intros Hx; [apply fl_pos|apply fl_neg]; nra. }
  unfold effect_fl in H. destruct scaled; [|eapply D; eauto; apply delta_nonneg; auto]. unfold scaled_effect_fl in H.
  destruct (fdiv_fl _ _) as [q|] eqn:E in H; [|discriminate]. apply D in E; [|apply fl_pos; pose proof (maxmin (xs_of size X i j)); lra].
  cbn [fmul_fl] in H. injection H as <-. destruct E as [E1 E2].
  assert (Q : 0 <= (if Reqb (std_fl (s_along S) (ys_of size Y i)) 0 then 0 else fl (std_fl (s_along S) (xs_of size X i j) / std_fl (s_along S) (ys_of size Y i)))).
  { destruct (Reqb (std_fl (s_along S) (ys_of size Y i)) 0) eqn:R; [lra|]. apply Reqb_false in R. apply fl_pos.
    assert (P : forall l, 0 <= std_fl (s_along S) l) by (intros l; apply fl_pos, sqrt_pos). unfold Rdiv. apply Rmult_le_pos; auto. left. apply Rinv_0_lt_compat. specialize (P (ys_of size Y i)). lra. }
  split; intros H; [apply fl_pos; specialize (E1 H); nra|apply fl_neg; specialize (E2 H); nra].
Qed.

(** ** Lists with nan *)
Lemma all_some_abs : forall l : list fval, all_some (map fabs l) = option_map (map Rabs) (all_some l).
Proof. induction l as [|[x|] l IH]; cbn; auto. rewrite IH. destruct (all_some l); reflexivity. Qed.
Lemma all_some_in : forall (l : list fval) r x, all_some l = Some r -> In x r -> In (Some x) l.
Proof. intros l r x H I. apply all_some_inv in H. subst l. apply in_map. auto. Qed.
Lemma all_some_none : forall (l l' : list fval), Forall2 (fun a b => a = None <-> b = None) l l' -> (all_some l = None <-> all_some l' = None).
Proof.
  induction 1 as [|a b l l' H F IH]; [cbn; tauto|]. cbn. destruct a as [a|], b as [b|]; try (destruct H; split; intros; auto; exfalso; intuition discriminate).
  destruct (all_some l), (all_some l'); split; intros Z; try discriminate; auto; exfalso; destruct IH as [I1 I2]; [specialize (I2 eq_refl)|specialize (I1 eq_refl)]; discriminate.
Qed.

(** |a| <= b, or nan twice. *)
Definition dom (a b : fval) : Prop := match a, b with Some x, Some y => Rabs x <= y | None, None => True | _, _ => False end.

Lemma mean_dom : forall arr l, dom (fmean_fl arr l) (fmean_fl arr (map fabs l)).
Proof.
  intros arr l. unfold fmean_fl. rewrite all_some_abs. destruct (all_some l) as [r|]; cbn; auto. unfold mean_fl, sum_fl. rewrite map_length.
  assert (T : Rabs (tsum (arr (length r)) r) <= tsum (arr (length r)) (map Rabs r)).
  { apply tsum_dom. intros i. replace (nth i (map Rabs r) 0) with (Rabs (nth i r 0)); [lra|]. rewrite <- (map_nth Rabs), Rabs_R0. reflexivity. }
  set (s := tsum (arr (length r)) r) in *. set (s' := tsum (arr (length r)) (map Rabs r)) in *. set (n := INR (length r)).
  assert (I : 0 <= / n) by (unfold n; destruct (length r); [cbn; rewrite Rinv_0; lra|left; apply Rinv_0_lt_compat, lt_0_INR; lia]).
  assert (U : fl (s / n) <= fl (s' / n)) by (apply fl_mono; unfold Rdiv; apply Rmult_le_compat_r; auto; pose proof (Rle_abs s); lra).
  assert (V : - fl (s / n) <= fl (s' / n)). { rewrite <- fl_opp. apply fl_mono. unfold Rdiv. rewrite Ropp_mult_distr_l. apply Rmult_le_compat_r; auto. pose proof (Rle_abs (- s)). rewrite Rabs_Ropp in *. lra. }
  unfold Rabs. destruct (Rcase_abs _); lra.
Qed.

(** ** Averages over groups *)
Lemma filled_nth : forall (m : list fval) js n i, nth i (map (fun j => if existsb (Nat.eqb j) js then match nth j m None with Some x => x | None => 0 end else 0) (seq 0 n)) 0 =
  if (i <? n)%nat && existsb (Nat.eqb i) js then match nth i m None with Some x => x | None => 0 end else 0.
Proof.
  intros m js n i. set (f := fun j => if existsb (Nat.eqb j) js then match nth j m None with Some x => x | None => 0 end else 0).
  destruct (Nat.ltb_spec i n) as [L|L].
  - rewrite (nth_indep _ 0 (f 0%nat)) by (rewrite map_length, seq_length; auto). rewrite map_nth, seq_nth by auto. reflexivity.
  - rewrite nth_overflow by (rewrite map_length, seq_length; auto). reflexivity.
Qed.
Lemma existsb_in : forall i js, existsb (Nat.eqb i) js = true -> In i js.
Proof. intros i js H. apply existsb_exists in H. destruct H as (x & I & E). apply Nat.eqb_eq in E. subst. auto. Qed.

Lemma grouped_dom : forall arr m m' groups k, (forall j, In j (members groups k) -> dom (nth j m None) (nth j m' None)) -> dom (grouped_fl arr m groups k) (grouped_fl arr m' groups k).
Proof.
  intros arr m m' groups k H. unfold grouped_fl. set (js := members groups k) in *.
  assert (NN : all_some (map (fun j => nth j m None) js) = None <-> all_some (map (fun j => nth j m' None) js) = None).
  { apply all_some_none. clear -H. induction js as [|j js IH]; cbn; constructor; [|apply IH; intros j' H'; apply H; right; auto].
    specialize (H j (or_introl eq_refl)). unfold dom in H. destruct (nth j m None), (nth j m' None); split; intros; try contradiction; congruence. }
  destruct (all_some (map (fun j => nth j m None) js)), (all_some (map (fun j => nth j m' None) js)); try (destruct NN as [N1 N2]; exfalso; intuition discriminate); [|exact I].
  cbn [dom]. set (s := tsum _ _). set (s' := tsum _ _).
  assert (T : Rabs s <= s').
  { apply tsum_dom. intros i. rewrite !filled_nth. destruct (_ && existsb (Nat.eqb i) js) eqn:E; [|rewrite Rabs_R0; lra].
    apply andb_prop in E. destruct E as [_ E]. apply existsb_in in E. specialize (H i E). unfold dom in H. destruct (nth i m None), (nth i m' None); try contradiction; [auto|rewrite Rabs_R0; lra]. }
  set (n := INR (length js)). assert (J : 0 <= / n) by (unfold n; destruct (length js); [cbn; rewrite Rinv_0; lra|left; apply Rinv_0_lt_compat, lt_0_INR; lia]).
  assert (U : fl (s / n) <= fl (s' / n)) by (apply fl_mono; unfold Rdiv; apply Rmult_le_compat_r; auto; pose proof (Rle_abs s); lra).
  assert (V : - fl (s / n) <= fl (s' / n)). { rewrite <- fl_opp. apply fl_mono. unfold Rdiv. rewrite Ropp_mult_distr_l. apply Rmult_le_compat_r; auto. pose proof (Rle_abs (- s)). rewrite Rabs_Ropp in *. lra. }
  unfold Rabs. destruct (Rcase_abs _); lra.
Qed.
(** Numbers with a sign or 0 are dominated by themselves or by 0. *)
Lemma grouped_pos : forall arr m groups k v, (forall j x, In j (members groups k) -> nth j m None = Some x -> 0 <= x) -> grouped_fl arr m groups k = Some v -> 0 <= v.
Proof.
  intros arr m groups k v H E. pose proof (grouped_dom arr m m groups k) as D. rewrite E in D. cbn [dom] in D. eapply Rle_trans; [apply Rabs_pos|apply D].
  intros j J. specialize (H j). unfold dom. destruct (nth j m None) as [x|]; auto. rewrite Rabs_pos_eq by auto. lra.
Qed.
Lemma grouped_zero : forall arr m groups k v, (forall j x, In j (members groups k) -> nth j m None = Some x -> x = 0) -> grouped_fl arr m groups k = Some v -> v = 0.
Proof.
  intros arr m groups k v H. unfold grouped_fl. destruct (all_some _); [|discriminate]. intros E. injection E as <-.
  rewrite tsum_zeros; [unfold Rdiv; rewrite Rmult_0_l; apply fl_0|]. intros i _. rewrite filled_nth. destruct (_ && existsb (Nat.eqb i) _) eqn:E; auto.
  apply andb_prop in E. destruct E as [_ E]. apply existsb_in in E. specialize (H i). destruct (nth i m None); auto.
Qed.
Lemma grouped_opp : forall arr m m' groups k, (forall j, In j (members groups k) -> nth j m' None = times (-1) (nth j m None)) -> grouped_fl arr m' groups k = times (-1) (grouped_fl arr m groups k).
Proof.
  intros arr m m' groups k H. unfold grouped_fl. set (js := members groups k) in *.
  assert (E : all_some (map (fun j => nth j m' None) js) = option_map (map (Rmult (-1))) (all_some (map (fun j => nth j m None) js))).
  { clear -H. induction js as [|j js IH]; cbn; auto. rewrite IH by (intros j' H'; apply H; right; auto). rewrite (H j (or_introl eq_refl)).
    destruct (nth j m None); cbn; auto. destruct (all_some (map (fun j => nth j m None) js)); reflexivity. }
  rewrite E. destruct (all_some (map (fun j => nth j m None) js)) as [r|]; unfold times; cbn [option_map]; auto. f_equal.
  replace (map (fun j => if existsb (Nat.eqb j) js then match nth j m' None with Some x => x | None => 0 end else 0) (seq 0 (length groups)))
    with (ProofsSobol4.opp (map (fun j => if existsb (Nat.eqb j) js then match nth j m None with Some x => x | None => 0 end else 0) (seq 0 (length groups)))).
  - rewrite tsum_opp. replace (- tsum (arr (length groups)) (map (fun j => if existsb (Nat.eqb j) js then match nth j m None with Some x => x | None => 0 end else 0) (seq 0 (length groups))) / INR (length js))
      with (- (tsum (arr (length groups)) (map (fun j => if existsb (Nat.eqb j) js then match nth j m None with Some x => x | None => 0 end else 0) (seq 0 (length groups))) / INR (length js))) by (unfold Rdiv; ring).
    rewrite fl_opp. ring.
  - unfold ProofsSobol4.opp. rewrite map_map. apply map_ext. intros j. destruct (existsb (Nat.eqb j) js) eqn:X; [|ring]. rewrite (H j (existsb_in _ _ X)). destruct (nth j m None); cbn; ring.
Qed.
Lemma grouped_ext : forall arr m m' groups k, (forall j, In j (members groups k) -> nth j m None = nth j m' None) -> grouped_fl arr m groups k = grouped_fl arr m' groups k.
Proof.
  intros arr m m' groups k H. unfold grouped_fl. set (js := members groups k) in *. rewrite (map_ext_in (fun j => nth j m None) (fun j => nth j m' None)) by auto.
  destruct (all_some _); auto. do 4 f_equal. apply map_ext. intros j. destruct (existsb (Nat.eqb j) js) eqn:X; auto. rewrite (H j (existsb_in _ _ X)). reflexivity.
Qed.

(** ** The whole analysis *)
Lemma parts : forall S nq p X Y cl scaled levels resample out, snd (morris_analyze_fl S nq p X Y cl scaled levels resample) = Ok out ->
  exists EE groups conf, levels <> 1%nat /\ (forall j c, nth_error conf j = Some c -> exists ee idxs, c = conf_fl S nq cl idxs ee) /\
    let w := s_within S in
    let g := length (m_names out) in
    m_mu out = grouped_metric_fl w (map (fmean_fl (s_over S)) EE) groups g /\
    m_mu_star out = grouped_metric_fl w (map (fun ee => fmean_fl (s_over S) (map fabs ee)) EE) groups g /\
    m_sigma out = grouped_sigma_fl w (map (fsd1_fl (s_over S)) EE) groups g /\ m_conf out = grouped_metric_fl w conf groups g.
Proof.
  intros S nq p X Y cl scaled levels resample out H. unfold morris_analyze_fl in H. destruct (define_problem_with_groups p) as [p1|e]; [|discriminate]. cbn [snd] in H.
  unfold compute_delta in H. destruct (Nat.eqb_spec levels 1) as [E|E]; [discriminate|]. cbn [bind] in H.
  destruct (compute_groups_matrix _) as [[groups names]|e]; [|discriminate]. cbn [bind] in H. destruct (_ =? 0)%nat; [discriminate|].
  destruct (elementary_effects_fl _ _ _ _ _ _ _) as [EE|e]; [|discriminate]. cbn [bind] in H. destruct (negb _); [discriminate|].
  destruct (mapM _ _) as [conf|e] eqn:EC; [|discriminate]. cbn [bind] in H. destruct (negb _); [discriminate|]. injection H as <-.
  exists EE, groups, conf. split; auto. split; [|repeat split; reflexivity].
  intros j c Hc. assert (Lj : (j < length (seq 0 (p_num_vars p1)))%nat) by (rewrite <- (mapM_Ok_length _ _ EC); eapply nth_error_Some; congruence).
  destruct (nth_error (seq 0 (p_num_vars p1)) j) as [a|] eqn:Ea; [|apply nth_error_None in Ea; lia].
  destruct (mapM_Ok_nth _ _ _ EC Ea) as (y & Fy & Hy). rewrite Hc in Hy. injection Hy as <-. destruct (get EE a) as [ee|e]; [|discriminate]. injection Fy as <-. eauto.
Qed.
