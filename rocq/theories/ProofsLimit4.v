(** * The Sobol' estimates of continuous models converge. *)
From Coq Require Import Reals String List Arith Bool Lia Lra Psatz.
From Verif Require Import Base Arrays ModelGroups ModelScale Stats ModelSobol SpecGroups SpecSobol SpecIntegral ProofsIntegral SpecExpect SpecExpect2 ProofsExpect
  ProofsExpect2 ProofsExpect3 ProofsSobol SpecLimit ProofsPoincare ProofsPoincare2 ProofsLimit ProofsLimit2 ProofsLimit3.
Import ListNotations.
Local Open Scope R_scope.

Lemma mean_lin : forall A (f g : A -> R) c l, mean (map (fun x => f x + c * g x) l) = mean (map f l) + c * mean (map g l).
Proof. intros. unfold mean. rewrite !map_length, Rsum_map_plus, Rsum_map_scal. unfold Rdiv. ring. Qed.
Lemma mean_ext : forall A (f g : A -> R) l, (forall x, In x l -> f x = g x) -> mean (map f l) = mean (map g l).
Proof. intros A f g l H. f_equal. apply map_ext_in. auto. Qed.

Lemma mean_bound : forall l M, 0 <= M -> (forall x, In x l -> Rabs x <= M) -> Rabs (mean l) <= M.
Proof.
  intros l M M0 H. destruct l as [|a l0]. { unfold mean. simpl. unfold Rdiv. rewrite Rmult_0_l, Rabs_R0. auto. }
  set (l := a :: l0) in *. assert (0 < INR (length l)) by (apply lt_0_INR; simpl; lia).
  unfold mean, Rdiv. rewrite Rabs_mult, (Rabs_right (/ INR (length l))) by (apply Rle_ge, Rlt_le, Rinv_0_lt_compat; auto).
  apply (Rmult_le_reg_r (INR (length l))); auto. rewrite Rmult_assoc, Rinv_l, Rmult_1_r by lra.
  eapply Rle_trans; [apply Rsum_abs|]. rewrite Rmult_comm, <- (Rsum_const R M l). apply (Rsum_le R Rabs (fun _ => M)). auto.
Qed.

Lemma cv_bounded_zero : forall c u M, (forall n, Rabs (c n) <= M) -> Un_cv u 0 -> Un_cv (fun n => c n * u n) 0.
Proof.
  intros c u M B H eps He. assert (M0 : 0 <= M) by (eapply Rle_trans; [apply Rabs_pos|apply (B O)]).
  destruct (H (eps / (M + 1))) as (n0 & H0); [apply Rdiv_lt_0_compat; lra|]. exists n0. intros n Hn. specialize (H0 n Hn). unfold R_dist in *.
  rewrite Rminus_0_r in *. rewrite Rabs_mult. apply Rle_lt_trans with (M * Rabs (u n)); [apply Rmult_le_compat_r; auto; apply Rabs_pos|].
  apply Rle_lt_trans with (M * (eps / (M + 1))); [apply Rmult_le_compat_l; lra|].
  apply (Rmult_lt_reg_r (M + 1)); [lra|]. replace (M * (eps / (M + 1)) * (M + 1)) with (M * eps) by (field; lra). nra.
Qed.

Section Consistency.
Variables (zero : R) (p : problem) (G : nat) (second : bool) (f : list R -> R) (u : nat -> nat -> bool) (b : box) (base : nat -> list (list R)).
Hypothesis HL : labelled p.
Hypothesis HG : group_count p G.
Hypothesis HU : forall k j, u k j = true <-> in_group p k j.
Hypothesis HB : length b = p_num_vars p.
Hypothesis HP : proper b.
Hypothesis HC : continuous_on b f.
Hypothesis HF : fills (b ++ b) base.
Let N n := length (base n).
Let Y n := outputs zero p second f (N n) (base n).
Let ds := grid 1 b.

Lemma base_pos : forall n, (0 < N n)%nat.
Proof. intros n. unfold N. destruct HF as (H & _). destruct (H n) as (H0 & _). destruct (base n); [congruence|simpl; lia]. Qed.
Lemma base_inside : forall n x, In x (base n) -> inside (b ++ b) x.
Proof. intros n x Hx. destruct HF as (H & _). destruct (H n) as (_ & H1). rewrite Forall_forall in H1. auto. Qed.
Lemma base_length : forall n, Forall (fun x => length x = (2 * p_num_vars p)%nat) (base n).
Proof. intros n. apply Forall_forall. intros x Hx. apply base_inside in Hx. apply inside_length in Hx. rewrite Hx, app_length. lia. Qed.
Lemma ds_length : length ds = p_num_vars p.
Proof. unfold ds. rewrite grid_length. auto. Qed.
Lemma base_shaped : forall n, shaped (N n) (ds ++ ds) (base n).
Proof. intros n. split; [reflexivity|]. generalize (base_length n). apply Forall_impl. intros x E. rewrite E, app_length, ds_length. lia. Qed.

Lemma HU' : forall k j, (k < G)%nat -> (j < p_num_vars p)%nat -> (u k j = true <-> in_group p k j).
Proof. intros. apply HU. Qed.

Let bo := block_out p G second f u.
Lemma points_cv : forall (T : (nat -> R) -> R) K v, (forall g h, (forall o, (o < block_size G second)%nat -> g o = h o) -> T g = T h) ->
  (forall z, inside (b ++ b) z -> T (bo z) = pairwise b K z) -> jointly b K -> average (b ++ b) (pairwise b K) v ->
  Un_cv (fun n => mean (map (fun i => T (out (Y n) G second i)) (seq 0 (N n)))) v.
Proof.
  intros T K v E H J A. destruct HF as (_ & C). apply (Un_cv_ext (fun n => mean (map (pairwise b K) (base n)))).
  - intros n. unfold Y. rewrite (term_points zero p G second f u ds HL HG HU' ds_length (N n) T (base n) (base_shaped n) E). apply mean_ext. intros x Hx. symmetry. apply H. eapply base_inside. eauto.
  - apply C; auto. apply pair_continuous. auto.
Qed.

Lemma bo_first : forall z, bo z 0 = pairwise b (fun x _ => f x) z.
Proof. intros z. unfold pairwise. rewrite HB. reflexivity. Qed.
Lemma bo_last : forall z, bo z (block_size G second - 1) = pairwise b (fun _ y => f y) z.
Proof. intros z. unfold pairwise. rewrite HB. apply (bo_b p G second f u ds ds_length). Qed.
Lemma bo_mid : forall z k, (k < G)%nat -> bo z (1 + k) = pairwise b (fun x y => f (mix (u k) y x)) z.
Proof. intros z k K. unfold pairwise. rewrite HB. apply (bo_ab p G second f u ds ds_length); auto. Qed.
Lemma bo_mid2 : forall z k, second = true -> (k < G)%nat -> bo z (1 + G + k) = pairwise b (fun x y => f (mix (u k) x y)) z.
Proof. intros z k T K. unfold pairwise. rewrite HB. apply (bo_ba p G second f u ds ds_length); auto. Qed.
Let SF := step_facts p G second f u ds ds_length.

Lemma J1 : forall k, jointly b (fun x y => f (mix (u k) y x)).
Proof. intros k. apply (jointly_swap b (fun y x => f (mix (u k) y x))), jointly_mix. auto. Qed.

(** The mean of all outputs stays bounded. *)
Lemma mean_Y_bounded : exists M, forall n, Rabs (mean (Y n)) <= M.
Proof.
  destruct (continuous_bounded b f HP HC) as (M & M0 & B). exists M. intros n. unfold Y.
  rewrite (mean_points zero p G second f u ds HL HG HU' ds_length (N n) (base n) (base_pos n) (base_shaped n)).
  apply mean_bound; [lra|]. intros y Hy. apply in_map_iff in Hy. destruct Hy as (z & <- & Hz). apply base_inside in Hz.
  assert (SL : length (map (bo z) (seq 0 (block_size G second))) = block_size G second) by (rewrite map_length, seq_length; reflexivity).
  unfold block_mean. replace (Rsum (map (block_out p G second f u z) (seq 0 (block_size G second))) / INR (block_size G second)) with (mean (map (bo z) (seq 0 (block_size G second))))
    by (unfold mean; rewrite SL; reflexivity).
  apply mean_bound; [lra|]. intros y Hy. apply in_map_iff in Hy. destruct Hy as (o & <- & _).
  assert (I1 : inside b (firstn (p_num_vars p) z)) by (rewrite <- HB; eapply inside_first; eauto).
  assert (I2 : inside b (skipn (p_num_vars p) z)) by (rewrite <- HB; eapply inside_second; eauto).
  unfold bo, block_out. destruct (o =? 0)%nat; [auto|]. destruct (o <=? G)%nat; [apply B, mix_inside; auto|]. destruct (o =? block_size G second - 1)%nat; [auto|]. apply B, mix_inside; auto.
Qed.

Lemma first_cv : forall c k v M, (forall n, Rabs (c n) <= M) -> (k < G)%nat -> closed_share b f (u k) v -> Un_cv (fun n => first_term (Y n) G second (N n) (c n) k) v.
Proof.
  intros c k v M BC K H. destruct SF as (S0 & S1 & S2 & _).
  apply (Un_cv_ext (fun n => mean (map (fun i => (fun g => g (block_size G second - 1)%nat * (g (1 + k)%nat - g 0%nat)) (out (Y n) G second i)) (seq 0 (N n)))
      + (- c n) * mean (map (fun i => (fun g => g (1 + k)%nat - g 0%nat) (out (Y n) G second i)) (seq 0 (N n))))).
  - intros n. rewrite <- (mean_lin nat). unfold first_term. apply mean_ext. intros i _. ring.
  - replace v with (v + 0) by ring. apply CV_plus.
    + apply (points_cv (fun g => g (block_size G second - 1)%nat * (g (1 + k)%nat - g 0%nat)) (fun x y => f y * (f (mix (u k) y x) - f x))).
      * intros g h E. rewrite !E by auto. reflexivity.
      * intros z _. rewrite bo_last, bo_mid, bo_first by auto. reflexivity.
      * apply jointly_mult; auto; [apply jointly_snd; auto|]. apply jointly_minus; [apply J1|apply jointly_fst; auto].
      * apply pair_first; auto.
    + apply (cv_bounded_zero (fun n => - c n) _ M); [intros n; rewrite Rabs_Ropp; auto|].
      apply (points_cv (fun g => g (1 + k)%nat - g 0%nat) (fun x y => f (mix (u k) y x) - f x)).
      * intros g h E. rewrite !E by auto. reflexivity.
      * intros z _. rewrite bo_mid, bo_first by auto. reflexivity.
      * apply jointly_minus; [apply J1|apply jointly_fst; auto].
      * apply (pair_zero b f HP HC).
Qed.

Lemma total_term_cv : forall k v, (k < G)%nat -> total_share b f (u k) v -> Un_cv (fun n => total_term (Y n) G second (N n) k) v.
Proof.
  intros k v K H. destruct SF as (S0 & S1 & S2 & _).
  apply (Un_cv_ext (fun n => mean (map (fun i => (fun g => (g 0%nat - g (1 + k)%nat) ^ 2) (out (Y n) G second i)) (seq 0 (N n))) * / 2)); [reflexivity|].
  replace v with (2 * v * / 2) by field. apply CV_mult; [|apply Un_cv_const].
  apply (points_cv (fun g => (g 0%nat - g (1 + k)%nat) ^ 2) (fun x y => (f x - f (mix (u k) y x)) ^ 2)).
  - intros g h E. rewrite !E by auto. reflexivity.
  - intros z _. rewrite bo_mid, bo_first by auto. reflexivity.
  - apply jointly_square; auto. apply jointly_minus; [apply jointly_fst; auto|apply J1].
  - apply pair_total; auto.
Qed.

Lemma pair_term_cv : forall c j k v M, second = true -> (forall n, Rabs (c n) <= M) -> (j < G)%nat -> (k < G)%nat -> j <> k ->
  closed_share b f (fun i => orb (u j i) (u k i)) v -> Un_cv (fun n => pair_term (Y n) G second (N n) (c n) j k) v.
Proof.
  intros c j k v M T BC J K JK H. destruct SF as (S0 & S1 & S2 & S3). specialize (S3 T).
  assert (DJ : forall i, u j i = true -> u k i = false).
  { intros i Hi. destruct (u k i) eqn:E; auto. exfalso. apply JK. apply HU in Hi. apply HU in E. eapply in_group_unique; eauto. }
  apply (Un_cv_ext (fun n => mean (map (fun i => (fun g => g (1 + G + j)%nat * g (1 + k)%nat - g 0%nat * g (block_size G second - 1)%nat) (out (Y n) G second i)) (seq 0 (N n)))
      + (- c n) * mean (map (fun i => (fun g => g (1 + G + j)%nat + g (1 + k)%nat - g 0%nat - g (block_size G second - 1)%nat) (out (Y n) G second i)) (seq 0 (N n))))).
  - intros n. rewrite <- (mean_lin nat). unfold pair_term. apply mean_ext. intros i _. ring.
  - replace v with (v + 0) by ring. apply CV_plus.
    + apply (points_cv (fun g => g (1 + G + j)%nat * g (1 + k)%nat - g 0%nat * g (block_size G second - 1)%nat) (fun x y => f (mix (u j) x y) * f (mix (u k) y x) - f x * f y)).
      * intros g h E. rewrite !E by auto. reflexivity.
      * intros z _. rewrite bo_last, bo_mid, bo_mid2, bo_first by auto. reflexivity.
      * apply jointly_minus; apply jointly_mult; auto; [apply jointly_mix; auto|apply J1|apply jointly_fst; auto|apply jointly_snd; auto].
      * apply pair_second; auto.
    + apply (cv_bounded_zero (fun n => - c n) _ M); [intros n; rewrite Rabs_Ropp; auto|].
      apply (points_cv (fun g => g (1 + G + j)%nat + g (1 + k)%nat - g 0%nat - g (block_size G second - 1)%nat) (fun x y => f (mix (u j) x y) + f (mix (u k) y x) - f x - f y)).
      * intros g h E. rewrite !E by auto. reflexivity.
      * intros z _. rewrite bo_last, bo_mid, bo_mid2, bo_first by auto. reflexivity.
      * repeat apply jointly_minus; [apply jointly_plus; [apply jointly_mix; auto|apply J1]|apply jointly_fst; auto|apply jointly_snd; auto].
      * apply (pair_zero2 b f HP HC).
Qed.

Lemma second_cv : forall c j k v M, second = true -> (forall n, Rabs (c n) <= M) -> (j < G)%nat -> (k < G)%nat -> j <> k ->
  joint_share b f (u j) (u k) v -> Un_cv (fun n => second_term (Y n) G second (N n) (c n) j k) v.
Proof.
  intros c j k v M T BC J K JK (vu & vw & vb & A & B & D & ->). unfold second_term. apply CV_minus; [apply CV_minus|]; [eapply pair_term_cv; eauto|eapply first_cv; eauto|eapply first_cv; eauto].
Qed.

(** The variance of the outputs of type A and B. *)
Lemma var_moments : forall l, l <> [] -> var l = mean (map (fun x => x ^ 2) l) - mean l ^ 2.
Proof.
  intros l H. assert (L : INR (length l) <> 0) by (apply not_0_INR; destruct l; [congruence|discriminate]).
  unfold var. set (m := mean l).
  rewrite (mean_ext R (fun x => (x - m) ^ 2) (fun x => x ^ 2 + (-1) * (2 * m * x + - m ^ 2))) by (intros; ring).
  rewrite (mean_lin R (fun x => x ^ 2) (fun x => 2 * m * x + - m ^ 2) (-1)), mean_map_affine by auto. fold m. ring.
Qed.
Lemma mean_halves : forall A (g h : A -> R) l, l <> [] -> mean (map g l ++ map h l) = (mean (map g l) + mean (map h l)) * / 2.
Proof.
  intros A g h l H. unfold mean. rewrite Rsum_app, app_length, !map_length, plus_INR. assert (INR (length l) <> 0) by (apply not_0_INR; destruct l; [congruence|discriminate]). field. split; lra.
Qed.

Lemma var_cv : forall V, SpecIntegral.variance b f V -> Un_cv (fun n => var (base_outputs (Y n) G second (N n))) V.
Proof.
  intros V HV. destruct SF as (S0 & S1 & S2 & _).
  pose proof (avg_ok b f HP HC) as M. pose proof (avg_ok b (fun x => f x ^ 2) HP (continuous_square b f HP HC)) as Q.
  set (m := avg b f) in *. set (q := avg b (fun x => f x ^ 2)) in *.
  assert (V = q - m ^ 2) as -> by (apply (variance_unique b f); auto; apply variance_moments; auto).
  set (ma := fun n => mean (map (fun i => out (Y n) G second i 0) (seq 0 (N n)))). set (mb := fun n => mean (map (fun i => out (Y n) G second i (block_size G second - 1)) (seq 0 (N n)))).
  set (qa := fun n => mean (map (fun i => out (Y n) G second i 0 ^ 2) (seq 0 (N n)))). set (qb := fun n => mean (map (fun i => out (Y n) G second i (block_size G second - 1) ^ 2) (seq 0 (N n)))).
  assert (CMA : Un_cv ma m).
  { apply (points_cv (fun g => g 0%nat) (fun x _ => f x)); [intros g h E; apply E; auto|intros; apply bo_first|apply jointly_fst; auto|apply pair_fst; auto]. }
  assert (CMB : Un_cv mb m).
  { apply (points_cv (fun g => g (block_size G second - 1)%nat) (fun _ y => f y)); [intros g h E; apply E; auto|intros; apply bo_last|apply jointly_snd; auto|apply pair_snd; auto]. }
  assert (CQA : Un_cv qa q).
  { apply (points_cv (fun g => g 0%nat ^ 2) (fun x _ => f x ^ 2)); [intros g h E; rewrite E; auto|intros; rewrite bo_first; reflexivity|apply (jointly_fst b (fun x => f x ^ 2)), continuous_square; auto
      |apply (pair_fst b (fun x => f x ^ 2)); auto; apply continuous_square; auto]. }
  assert (CQB : Un_cv qb q).
  { apply (points_cv (fun g => g (block_size G second - 1)%nat ^ 2) (fun _ y => f y ^ 2)); [intros g h E; rewrite E; auto|intros; rewrite bo_last; reflexivity|apply (jointly_snd b (fun x => f x ^ 2)), continuous_square; auto
      |apply (pair_snd b (fun x => f x ^ 2)); auto; apply continuous_square; auto]. }
  apply (Un_cv_ext (fun n => (qa n + qb n) * / 2 - ((ma n + mb n) * / 2) * ((ma n + mb n) * / 2))).
  - intros n. assert (SN : seq 0 (N n) <> []) by (pose proof (base_pos n); destruct (N n); [lia|discriminate]).
    rewrite var_moments.
    + unfold base_outputs. rewrite mean_halves by auto. rewrite map_app, !map_map.
      rewrite (mean_halves nat (fun i => out (Y n) G second i 0 ^ 2) (fun i => out (Y n) G second i (block_size G second - 1) ^ 2)) by auto. fold (ma n) (mb n) (qa n) (qb n). ring.
    + unfold base_outputs. destruct (seq 0 (N n)); [congruence|discriminate].
  - replace (q - m ^ 2) with ((q + q) * / 2 - ((m + m) * / 2) * ((m + m) * / 2)) by field.
    apply CV_minus; [apply CV_mult; [apply CV_plus; auto|apply Un_cv_const]|].
    apply CV_mult; apply CV_mult; try apply Un_cv_const; apply CV_plus; auto.
Qed.
End Consistency.

Lemma ratio_cv : forall a v l V, Un_cv a l -> Un_cv v V -> V <> 0 -> Un_cv (fun n => a n / v n) (l / V).
Proof. intros a v l V A B H. apply CV_mult; auto. apply cv_inv; auto. Qed.

(** ** What is reported *)
Lemma reported_cv : forall zero p G second f u b base Zq resample cpus conf keep workers s,
  consistent p -> group_count p G -> (forall k j, u k j = true <-> in_group p k j) -> length b = p_num_vars p -> proper b -> continuous_on b f -> fills (b ++ b) base ->
  (forall n, analyze Zq (resample n) cpus p (outputs zero p second f (length (base n)) (base n)) second conf keep workers = Ok (s n)) ->
  forall V, SpecIntegral.variance b f V -> 0 < V ->
  forall eps, 0 < eps ->
  (forall k v, (k < G)%nat -> closed_share b f (u k) v -> exists n0, forall n, (n0 <= n)%nat -> exists e, nth_error (S1 (s n)) k = Some (Some e) /\ Rabs (e - v / V) < eps) /\
  (forall k v, (k < G)%nat -> total_share b f (u k) v -> exists n0, forall n, (n0 <= n)%nat -> exists e, nth_error (ST (s n)) k = Some (Some e) /\ Rabs (e - v / V) < eps) /\
  (second = true -> forall j k v, (j < k)%nat -> (k < G)%nat -> joint_share b f (u j) (u k) v -> exists n0, forall n, (n0 <= n)%nat -> exists m e,
     S2 (s n) = Some m /\ entry m j k = Some (Some e) /\ Rabs (e - v / V) < eps).
Proof.
  intros zero p G second f u b base Zq resample cpus conf keep workers s HC HG HU HB HP Hf HF HA V HV V0 eps He.
  assert (HL : labelled p) by apply HC.
  pose proof (var_cv zero p G second f u b base HL HG HU HB HP Hf HF V HV) as CV.
  destruct (mean_Y_bounded zero p G second f u b base HL HG HU HB HP Hf HF) as (M & BM).
  destruct (CV V V0) as (nv & NV).
  assert (R : forall n, (nv <= n)%nat -> let Y := outputs zero p second f (length (base n)) (base n) in let N := length (base n) in
    (forall k, (k < G)%nat ->
     nth_error (S1 (s n)) k = Some (Some (first_term Y G second N (mean Y) k / var (SpecExpect2.base_outputs Y G second N))) /\
     nth_error (ST (s n)) k = Some (Some (total_term Y G second N k / var (SpecExpect2.base_outputs Y G second N)))) /\
    (second = true -> forall j k, (j < k)%nat -> (k < G)%nat ->
     exists m, S2 (s n) = Some m /\ entry m j k = Some (Some (second_term Y G second N (mean Y) j k / var (SpecExpect2.base_outputs Y G second N))))).
  { intros n Hn Y N. specialize (NV n Hn). unfold R_dist in NV. fold Y in NV. fold N in NV.
    pose proof (base_pos p b base HB HF n) as N0. cbv beta in N0. fold N in N0.
    pose proof (base_length p b base HB HF n) as LB.
    assert (VN : var (SpecExpect2.base_outputs Y G second N) <> 0) by (apply Rabs_def2 in NV; lra).
    assert (NE : SpecExpect2.base_outputs Y G second N <> []) by (intros EE; apply (f_equal (@length R)) in EE; unfold SpecExpect2.base_outputs in EE; rewrite app_length, !map_length, seq_length in EE; simpl in EE; lia).
    assert (NC : ~ (forall x y, In x (SpecExpect2.base_outputs Y G second N) -> In y (SpecExpect2.base_outputs Y G second N) -> x = y)).
    { intros Q. apply VN. apply var_zero_iff; auto. }
    assert (HU'' : forall k j, (k < G)%nat -> (j < p_num_vars p)%nat -> (u k j = true <-> in_group p k j)) by (intros; apply HU).
    destruct (design_out p G second f u HL HG HU'' zero N (base n) eq_refl LB) as (rows & E & LR & _).
    assert (LY : length Y = (N * block_size G second)%nat) by (unfold Y, outputs; fold N; rewrite E, map_length; auto).
    assert (BS : (0 < block_size G second)%nat) by (unfold block_size; destruct second; lia).
    assert (SD : sd Y <> 0).
    2:{ exact (reported zero p G second f N (base n) Zq (resample n) cpus conf keep workers (s n) HC HG N0 eq_refl LB SD (HA n) NC). }
    intros Q. apply NC. assert (YN : Y <> []) by (intros EY; rewrite EY in LY; simpl in LY; nia).
    pose proof (proj1 (sd_zero_iff Y YN) Q) as Q'. intros x y Hx Hy. apply Q'.
    - unfold SpecExpect2.base_outputs in Hx. apply in_app_iff in Hx. destruct Hx as [Hx|Hx]; apply in_map_iff in Hx; destruct Hx as (i & <- & Hi); apply in_seq in Hi; apply nth_In; rewrite LY; nia.
    - unfold SpecExpect2.base_outputs in Hy. apply in_app_iff in Hy. destruct Hy as [Hy|Hy]; apply in_map_iff in Hy; destruct Hy as (i & <- & Hi); apply in_seq in Hi; apply nth_In; rewrite LY; nia. }
  split; [|split].
  - intros k v K Hv.
    pose proof (ratio_cv _ _ _ _ (first_cv zero p G second f u b base HL HG HU HB HP Hf HF _ k v M BM K Hv) CV ltac:(lra)) as L.
    destruct (L eps He) as (n1 & N1). exists (nv + n1)%nat. intros n Hn. destruct (R n ltac:(lia)) as (R1 & _). destruct (R1 k K) as (R2 & _). eexists. split; [exact R2|]. apply (N1 n). lia.
  - intros k v K Hv.
    pose proof (ratio_cv _ _ _ _ (total_term_cv zero p G second f u b base HL HG HU HB HP Hf HF k v K Hv) CV ltac:(lra)) as L.
    destruct (L eps He) as (n1 & N1). exists (nv + n1)%nat. intros n Hn. destruct (R n ltac:(lia)) as (R1 & _). destruct (R1 k K) as (_ & R2). eexists. split; [exact R2|]. apply (N1 n). lia.
  - intros T j k v JK K Hv.
    pose proof (ratio_cv _ _ _ _ (second_cv zero p G second f u b base HL HG HU HB HP Hf HF _ j k v M T BM ltac:(lia) K ltac:(lia) Hv) CV ltac:(lra)) as L.
    destruct (L eps He) as (n1 & N1). exists (nv + n1)%nat. intros n Hn. destruct (R n ltac:(lia)) as (_ & R1). destruct (R1 T j k JK K) as (m & R2 & R3). exists m. eexists. split; [exact R2|]. split; [exact R3|]. apply (N1 n). lia.
Qed.
