(** * Derivative-based measures: bound on the total effect, convergence of the reported ones. *)
From Coq Require Import Reals String List Arith Bool Lia Lra Psatz.
From Verif Require Import Base Stats ModelGroups SpecFF SpecMorris SpecSobol ModelDgsm SpecDgsm ProofsDgsm ProofsDgsm2 SpecDgsm2 SpecIntegral ProofsIntegral SpecExpect ProofsExpect SpecLimit
  ProofsPoincare ProofsPoincare2 ProofsLimit ProofsLimit2 ProofsLimit3 ProofsLimit4 ProofsLimit5 ProofsLimit6.
Import ListNotations.
Local Open Scope R_scope.

Lemma put_without : forall A i (d : A) l, (i < length l)%nat -> put_at i (nth i l d) (without_at i l) = l.
Proof.
  intros A i d. induction i as [|i IH]; intros [|a l] H; simpl in H; try lia; [reflexivity|]. unfold put_at, without_at. cbn [firstn skipn app nth]. f_equal. apply IH. lia.
Qed.
Lemma put_near : forall d i a c xs, Rabs (a - c) <= d -> near d (put_at i a xs) (put_at i c xs).
Proof.
  intros d i a c xs H. assert (0 <= d) by (eapply Rle_trans; [apply Rabs_pos|exact H]). unfold put_at. apply Forall2_app; [apply near_refl; auto|]. constructor; auto. apply near_refl; auto.
Qed.

Lemma slope_total : forall b f g i lo hi t v, proper b -> nth_error b i = Some (lo, hi) -> partial_slope b f g i -> continuous_on b g ->
  SpecIntegral.total_effect b f i t -> average b (fun x => g x ^ 2) v -> t <= v * (hi - lo) ^ 2 / PI ^ 2.
Proof.
  intros b f g i lo hi t v P E HS C (bi & h & E1 & V & T) A.
  rewrite E in E1. injection E1 as <-. pose proof (proper_nth b i (lo, hi) P E) as L. simpl in L.
  assert (IL : (i < length b)%nat) by (apply nth_error_Some; congruence).
  pose proof (continuous_square b g P C) as C2.
  pose proof (jointly_swap b _ (jointly_mix b (fun x => g x ^ 2) (Nat.eqb i) C2)) as J. cbv beta in J.
  set (k := fun x => avg b (fun y => g (mix (Nat.eqb i) y x) ^ 2)).
  assert (HK : forall x, inside b x -> average b (fun y => g (mix (Nat.eqb i) y x) ^ 2) (k x)).
  { intros x X. apply avg_ok; auto. apply (jointly_right b (fun x y => g (mix (Nat.eqb i) y x) ^ 2) x); auto. }
  assert (CK : continuous_on b k) by (apply (jointly_average b (fun x y => g (mix (Nat.eqb i) y x) ^ 2)); auto).
  assert (AK : average b k v).
  { pose proof (avg_ok b k P CK) as AK. pose proof (grid_limit b _ k _ P CK (jointly_limit b _ k P J HK) AK) as L1.
    pose proof (grid_cv b _ v P C2 A) as L2. apply (Un_cv_ext _ (fun n => expect (grid (S n) b) (fun x => g x ^ 2))) in L1.
    - rewrite (UL_sequence _ _ _ L2 L1). exact AK.
    - intros n. change (expect2 (grid (S n) b) (fun x y => g (mix (Nat.eqb i) y x) ^ 2) = expect (grid (S n) b) (fun x => g x ^ 2)).
      rewrite expect2_swap. apply (expect2_mix (grid (S n) b) (Nat.eqb i) (fun x => g x ^ 2)). apply grid_probability. lia. }
  set (c := (hi - lo) ^ 2 / PI ^ 2). replace (v * (hi - lo) ^ 2 / PI ^ 2) with (c * v) by (unfold c, Rdiv; ring).
  apply (average_le b (fun x => h (without_at i x)) (fun x => c * k x)); auto; [|apply (average_ignore i b (lo, hi)); auto|apply average_scal; auto].
  intros x X. assert (XW : inside (without_at i b) (without_at i x)) by (apply without_at_Forall2; auto).
  destruct (V _ XW) as (m & IM & IV).
  assert (C1 : continuous_on [(lo, hi)] (fun l => g (put_at i (hd 0 l) (without_at i x)) ^ 2)).
  { intros eps He. destruct (C2 eps He) as (d & D & H). exists d. split; auto. intros l l' IL1 IL2 N.
    destruct (inside_one _ _ IL1) as (y & -> & Hy). destruct (inside_one _ _ IL2) as (y' & -> & Hy'). inversion N; subst. cbn [hd]. apply H.
    - apply (inside_without b i (lo, hi)); auto. - apply (inside_without b i (lo, hi)); auto. - apply put_near. auto. }
  assert (P1 : proper [(lo, hi)]) by (constructor; auto).
  pose proof (avg_ok _ _ P1 C1) as W. set (w := avg [(lo, hi)] (fun l => g (put_at i (hd 0 l) (without_at i x)) ^ 2)) in *.
  assert (k x = w) as ->.
  { apply (average_unique b (fun y => g (mix (Nat.eqb i) y x) ^ 2)); auto. apply (average_ext b (fun y => g (put_at i (nth i y 0) (without_at i x)) ^ 2)); auto.
    - intros y Y. rewrite mix_put; auto; pose proof (inside_length b x X); pose proof (inside_length b y Y); lia.
    - apply (average_coordinate i b lo hi (fun z => g (put_at i z (without_at i x)) ^ 2)); auto. }
  apply (average_one_inv lo hi (fun u => f (put_at i u (without_at i x)))) in IM; auto.
  apply (average_one_inv lo hi (fun u => (f (put_at i u (without_at i x)) - m) ^ 2)) in IV; auto.
  apply (average_one_inv lo hi (fun u => g (put_at i u (without_at i x)) ^ 2)) in W; auto.
  replace (c * w) with (w * (hi - lo) ^ 2 / PI ^ 2) by (unfold c, Rdiv; ring).
  apply (poincare lo hi (fun u => f (put_at i u (without_at i x))) (fun u => g (put_at i u (without_at i x))) m); auto; intros z Hz; apply (HS (lo, hi) (without_at i x) z); auto.
Qed.

(** ** Secants *)
Lemma agree_put : forall j (x r : list R), (j < length x)%nat -> agree_except j x r -> r = put_at j (nth j r 0) (without_at j x).
Proof.
  intros j x r J (L & H). rewrite <- (put_without R j 0 r) at 1 by lia. f_equal. unfold without_at. f_equal.
  - apply nth_error_ext'. intros k. rewrite !nth_error_firstn. destruct (Nat.ltb_spec k j); auto. symmetry. apply H. lia.
  - apply nth_error_ext'. intros k. rewrite !nth_error_skipn. symmetry. apply H. lia.
Qed.

Lemma secant_slope : forall b f g j lo hi x r, nth_error b j = Some (lo, hi) -> partial_slope b f g j -> inside b x -> inside b r -> agree_except j x r -> nth j r 0 <> nth j x 0 ->
  exists z, inside b z /\ near (Rabs (nth j r 0 - nth j x 0)) z x /\ (f r - f x) / (nth j r 0 - nth j x 0) = g z.
Proof.
  intros b f g j lo hi x r E HS X Rr HA NE. assert (JL : (j < length b)%nat) by (apply nth_error_Some; congruence).
  pose proof (inside_length b x X) as LX. pose proof (inside_length b r Rr) as LR.
  assert (ER : r = put_at j (nth j r 0) (without_at j x)) by (apply agree_put; auto; lia).
  assert (EX : x = put_at j (nth j x 0) (without_at j x)) by (symmetry; apply put_without; lia).
  assert (XW : inside (without_at j b) (without_at j x)) by (apply without_at_Forall2; auto).
  destruct (Forall2_nth_error _ _ _ _ _ _ _ X E) as (a & EA & HAa). destruct (Forall2_nth_error _ _ _ _ _ _ _ Rr E) as (c & EC & HCc). cbn [fst snd] in *.
  rewrite (nth_error_nth x j 0 EA) in *. rewrite (nth_error_nth r j 0 EC) in *.
  set (F := fun u => f (put_at j u (without_at j x))).
  assert (DF : forall y, lo <= y <= hi -> derivable_pt_lim F y (g (put_at j y (without_at j x)))) by (intros y Hy; apply (HS (lo, hi) (without_at j x) y); auto).
  assert (Q : exists y, Rmin a c <= y <= Rmax a c /\ F c - F a = g (put_at j y (without_at j x)) * (c - a)).
  { destruct (Rtotal_order a c) as [Lt|[Eq|Gt]]; [|congruence|].
    - destruct (MVT_cor2 F (fun y => g (put_at j y (without_at j x))) a c Lt) as (y & EY & HY); [intros; apply DF; lra|]. exists y. rewrite Rmin_left, Rmax_right by lra. split; [lra|auto].
    - destruct (MVT_cor2 F (fun y => g (put_at j y (without_at j x))) c a Gt) as (y & EY & HY); [intros; apply DF; lra|]. exists y. rewrite Rmin_right, Rmax_left by lra. split; [lra|]. lra. }
  destruct Q as (y & HY & EY). exists (put_at j y (without_at j x)).
  assert (HYB : lo <= y <= hi). { unfold Rmin, Rmax in HY. destruct (Rle_dec a c); lra. }
  split; [apply (inside_without b j (lo, hi)); auto|]. split.
  - rewrite EX at 2. apply put_near. unfold Rmin, Rmax in HY. destruct (Rle_dec a c).
    + rewrite (Rabs_right (c - a)) by lra. apply Rabs_le. lra.
    + rewrite (Rabs_left (c - a)) by lra. apply Rabs_le. lra.
  - replace (f r) with (F c) by (unfold F; f_equal; auto). replace (f x) with (F a) by (unfold F; f_equal; auto). rewrite EY. field. lra.
Qed.

(** ** Convergence *)
Lemma sample_var_cv : forall b f pts V, proper b -> continuous_on b f -> fills b pts -> SpecIntegral.variance b f V -> Un_cv (fun n => var (map f (pts n))) V.
Proof.
  intros b f pts V HP HC (HF & C) HV. pose proof (avg_ok b f HP HC) as M. pose proof (avg_ok b (fun x => f x ^ 2) HP (continuous_square b f HP HC)) as Q.
  set (m := avg b f) in *. set (q := avg b (fun x => f x ^ 2)) in *.
  assert (V = q - m ^ 2) as -> by (apply (variance_unique b f); auto; apply variance_moments; auto).
  apply (Un_cv_ext (fun n => mean (map (fun x => f x ^ 2) (pts n)) - mean (map f (pts n)) ^ 2)).
  - intros n. rewrite var_moments; [rewrite map_map; reflexivity|]. destruct (HF n) as (NE & _). destruct (pts n); [congruence|discriminate].
  - apply CV_minus; [apply C; auto; apply continuous_square; auto|]. pose proof (C f m HC M) as CM. replace (m ^ 2) with (m * m) by ring.
    apply (Un_cv_ext (fun n => mean (map f (pts n)) * mean (map f (pts n)))); [intros; ring|]. apply CV_mult; auto.
Qed.

Section Slopes.
Variables (b : box) (f g : list R -> R) (j : nat) (lo hi : R) (X : nat -> list (list R)) (N : nat -> nat).
Let D := length b.
Hypothesis HP : proper b.
Hypothesis HE : nth_error b j = Some (lo, hi).
Hypothesis HS : partial_slope b f g j.
Hypothesis HG : continuous_on b g.
Hypothesis HX : forall n, difference_design D (N n) (X n).
Hypothesis HI : forall n, Forall (inside b) (X n).
Hypothesis HF : fills b (fun n => base_points (X n) D (N n)).
Hypothesis HV : steps_vanish X N D j.

Lemma j_lt : (j < D)%nat.
Proof. apply nth_error_Some. congruence. Qed.

Lemma design_steps : forall n i, (i < N n)%nat -> step_of (X n) D i j <> 0.
Proof.
  intros n i Hi. destruct (HX n) as (_ & H). destruct (H i Hi) as (x & Ex & _ & H1). destruct (H1 j j_lt) as (r & Er & _ & NE).
  unfold step_of. rewrite (nth_error_nth (X n) _ [] Er), (nth_error_nth (X n) _ [] Ex). lra.
Qed.

Lemma map_nth_default : forall (l : list (list R)) k, (k < length l)%nat -> nth k (map f l) 0 = f (nth k l []).
Proof. intros l k H. rewrite (nth_indep _ 0 (f [])) by (rewrite map_length; auto). apply map_nth. Qed.

Lemma secant_at : forall n i, (i < N n)%nat -> exists z, inside b z /\ inside b (nth (i * (D + 1)) (X n) []) /\ near (Rabs (step_of (X n) D i j)) z (nth (i * (D + 1)) (X n) []) /\ secant (X n) (map f (X n)) D i j = g z.
Proof.
  intros n i Hi. pose proof (design_steps n i Hi) as NZ. destruct (HX n) as (L & H). destruct (H i Hi) as (x & Ex & _ & H1). destruct (H1 j j_lt) as (r & Er & AG & NE).
  assert (L1 : (i * (D + 1) < length (X n))%nat) by (apply nth_error_Some; congruence).
  assert (L2 : (i * (D + 1) + 1 + j < length (X n))%nat) by (apply nth_error_Some; congruence).
  assert (IX : inside b x) by (pose proof (HI n) as HIn; rewrite Forall_forall in HIn; apply HIn; eapply nth_error_In; eauto).
  assert (IR : inside b r) by (pose proof (HI n) as HIn; rewrite Forall_forall in HIn; apply HIn; eapply nth_error_In; eauto).
  destruct (secant_slope b f g j lo hi x r HE HS IX IR AG NE) as (z & IZ & NZz & EQ). exists z.
  unfold secant, step_of. rewrite !map_nth_default by auto. rewrite (nth_error_nth (X n) _ [] Er), (nth_error_nth (X n) _ [] Ex). auto.
Qed.

Lemma base_outputs_points : forall n, base_outputs (map f (X n)) D (N n) = map f (base_points (X n) D (N n)).
Proof.
  intros n. unfold base_outputs, base_points. rewrite map_map. apply map_ext_in. intros i Hi. apply in_seq in Hi. apply map_nth_default. destruct (HX n) as (L & _). rewrite L. nia.
Qed.

Lemma some_points : forall n, (0 < N n)%nat.
Proof. intros n. destruct HF as (H & _). destruct (H n) as (NE & _). unfold base_points in NE. destruct (N n); [simpl in NE; congruence|lia]. Qed.

Lemma vi_cv : forall v, average b (fun x => g x ^ 2) v -> Un_cv (fun n => mean (map (fun i => secant (X n) (map f (X n)) D i j ^ 2) (seq 0 (N n)))) v.
Proof.
  intros v A eps He. destruct HF as (_ & C). pose proof (continuous_square b g HP HG) as C2. destruct (C _ v C2 A (eps / 2)) as (n1 & H1); [lra|].
  destruct (C2 (eps / 4)) as (d & Hd & H2); [lra|]. destruct (HV d Hd) as (n2 & H3).
  exists (Nat.max n1 n2). intros n Hn. specialize (H1 n ltac:(lia)). unfold R_dist in *.
  set (a := mean (map (fun i => secant (X n) (map f (X n)) D i j ^ 2) (seq 0 (N n)))).
  set (c := mean (map (fun x => g x ^ 2) (base_points (X n) D (N n)))) in *.
  assert (Rabs (a - c) <= eps / 4).
  { unfold a, c, base_points. rewrite map_map. replace (_ - _) with (mean (map (fun i => secant (X n) (map f (X n)) D i j ^ 2 + (-1) * g (nth (i * (D + 1)) (X n) []) ^ 2) (seq 0 (N n)))).
    2:{ rewrite (mean_lin nat (fun i => secant (X n) (map f (X n)) D i j ^ 2) (fun i => g (nth (i * (D + 1)) (X n) []) ^ 2) (-1)). ring. }
    apply mean_bound; [lra|]. intros y Hy. apply in_map_iff in Hy. destruct Hy as (i & <- & Hi). apply in_seq in Hi.
    destruct (secant_at n i) as (z & IZ & IX & NZ & ->); [lia|]. replace (g z ^ 2 + _) with (g z ^ 2 - g (nth (i * (D + 1)) (X n) []) ^ 2) by ring. apply H2; auto.
    eapply near_mono; [|exact NZ]. apply H3; lia. }
  replace (a - v) with ((a - c) + (c - v)) by ring. eapply Rle_lt_trans; [apply Rabs_triang|]. lra.
Qed.

Lemma dgsm_cv : forall v V, continuous_on b f -> average b (fun x => g x ^ 2) v -> SpecIntegral.variance b f V -> V <> 0 ->
  Un_cv (fun n => mean (map (fun i => secant (X n) (map f (X n)) D i j ^ 2) (seq 0 (N n))) * (hi - lo) ^ 2 / (var (base_outputs (map f (X n)) D (N n)) * PI ^ 2)) (v * (hi - lo) ^ 2 / (V * PI ^ 2)).
Proof.
  intros v V C A W NZ. pose proof PI_neq0 as P0.
  assert (K : Un_cv (fun _ : nat => (hi - lo) ^ 2) ((hi - lo) ^ 2)) by (intros e He; exists O; intros; rewrite R_dist_eq; auto).
  assert (K2 : Un_cv (fun _ : nat => PI ^ 2) (PI ^ 2)) by (intros e He; exists O; intros; rewrite R_dist_eq; auto).
  apply ratio_cv; [apply CV_mult; auto; apply vi_cv; auto| |].
  - apply CV_mult; auto. apply (Un_cv_ext (fun n => var (map f (base_points (X n) D (N n))))); [intros n; rewrite base_outputs_points; auto|]. apply (sample_var_cv b); auto.
  - apply Rmult_integral_contrapositive_currified; auto. apply pow_nonzero. auto.
Qed.
End Slopes.

(** ** What analyze reports *)
Lemma reported_slopes : forall nq p b f g j lo hi X N cl resample out v V,
  plain_problem p -> p_bounds p = pair_bounds b -> p_num_vars p = length b -> proper b -> nth_error b j = Some (lo, hi) -> partial_slope b f g j -> continuous_on b g -> continuous_on b f ->
  (forall n, difference_design (length b) (N n) (X n)) -> (forall n, Forall (inside b) (X n)) -> fills b (fun n => base_points (X n) (length b) (N n)) -> steps_vanish X N (length b) j ->
  0 < cl < 1 -> (forall n k, valid_resample (N n) (resample n k)) -> (forall n, dgsm_analyze nq p (X n) (map f (X n)) cl (resample n) = Ok (out n)) ->
  average b (fun x => g x ^ 2) v -> SpecIntegral.variance b f V -> 0 < V -> forall eps, 0 < eps -> exists n0, forall n, (n0 <= n)%nat -> exists e d,
    nth_error (d_vi (out n)) j = Some (Some e) /\ Rabs (e - v) < eps /\ nth_error (d_dgsm (out n)) j = Some (Some d) /\ Rabs (d - v * (hi - lo) ^ 2 / (V * PI ^ 2)) < eps.
Proof.
  intros nq p b f g j lo hi X N cl resample out v V PP EB EN HP HE HS HG Hf HX HI HF HV Hc HR HO A W V0 eps He.
  assert (NZ : V <> 0) by lra.
  pose proof (vi_cv b f g j lo hi X N HP HE HS HG HX HI HF HV v A eps He) as (n1 & H1).
  pose proof (dgsm_cv b f g j lo hi X N HP HE HS HG HX HI HF HV v V Hf A W NZ eps He) as (n2 & H2).
  pose proof (sample_var_cv b f _ V HP Hf HF W V V0) as (n3 & H3).
  assert (JL : (j < length b)%nat) by (apply nth_error_Some; congruence).
  exists (n1 + n2 + n3)%nat. intros n Hn. specialize (H1 n ltac:(lia)). specialize (H2 n ltac:(lia)). specialize (H3 n ltac:(lia)). unfold R_dist in *.
  destruct (HX n) as (LX & _). destruct (difference_block _ _ _ (HX n)) as (_ & BR).
  assert (LY : length (map f (X n)) = (N n * (p_num_vars p + 1))%nat) by (rewrite map_length, LX, EN; auto).
  assert (N0 : (0 < N n)%nat) by (apply (some_points b X N HF n)).
  rewrite <- EN in BR. destruct (dgsm_formula nq p (X n) (map f (X n)) (N n) cl (resample n) LY N0 PP (HR n) Hc BR) as (o & EO & _ & _ & _ & _ & _ & Q).
  rewrite HO in EO. injection EO as <-. destruct (Q j) as (Q1 & _); [rewrite EN; auto|].
  destruct Q1 as (E1 & _ & E2 & _). { rewrite EN. apply (design_steps b j lo hi X N HE HX n). }
  rewrite EN in E1, E2. rewrite (base_outputs_points b f X N HX n) in E2, H2.
  destruct (Req_EM_T (var (map f (base_points (X n) (length b) (N n)))) 0) as [Z|_]; [rewrite Z, Rminus_0_l, Rabs_Ropp, (Rabs_right V) in H3; lra|].
  eexists. eexists. split; [exact E1|]. split; [exact H1|]. split; [exact E2|].
  assert (upper (p_bounds p) j = hi /\ lower (p_bounds p) j = lo) as (-> & ->); [|exact H2].
  assert (EJ : nth_error (pair_bounds b) j = Some [lo; hi]) by (apply pair_bounds_nth; auto).
  unfold upper, lower. rewrite EB, (nth_error_nth _ _ [] EJ). auto.
Qed.
