(** * The DGSM analysis in double precision: zeros, signs. *)
From Coq Require Import Reals String List Arith ZArith Bool Lia Lra.
From Flocq Require Import Core Plus_error.
From Verif Require Import Base Arrays ListFacts ModelGroups ModelScale ProofsScale Stats ModelFast ModelMorrisAnalyze ModelDgsm SpecDgsm
  ModelDouble ModelDouble4 ModelDouble5 ModelDouble6 SpecDouble3 ProofsDouble ProofsDouble5 ProofsDouble10 ProofsDouble11 ProofsDouble12 ProofsDouble15 ProofsDouble16 ProofsDouble17.
From Verif Require ProofsSobol4.
Import ListNotations.
Local Open Scope R_scope.

Section Rows.
Variables (arr : nat -> tree) (square : R -> R) (pi2 : R) (nq : R -> R).

Definition base_at (Y : list R) (N D : nat) : list R := map (fun i => nth (i * (D + 1)) Y 0) (seq 0 N).
Definition pert_at (Y : list R) (N D j : nat) : list R := map (fun i => nth (i * (D + 1) + (j + 1)) Y 0) (seq 0 N).
Definition slope_at (Y : list R) (N D j : nat) (dx : list R) (i : nat) : fval := slope2_fl (nth i (base_at Y N D) 0) (nth i (pert_at Y N D j) 0) (nth i dx 0).
Definition row (Y : list R) (N D : nat) (cl : R) (res : list (list nat)) (j : nat) (dx : list R) (w : R) : fval * fval * fval * fval :=
  let sl := slope_at Y N D j dx in
  let vi := fmean_fl arr (map sl (seq 0 N)) in
  (vi, fsd_fl arr (map sl (seq 0 N)), match vi with Some v => fdiv_fl (fl (v * square w)) (fl (var_fl arr (base_at Y N D) * pi2)) | None => None end,
   fmul_fl (Some (nq (fl (/ 2 + fl (cl / 2))))) (fsd1_fl arr (map (fun idx => fmean_fl arr (map sl idx)) res))).
Definition steps (X : list (list R)) (N D j : nat) : result (list R) :=
  do xb <- mapM (fun i => do r <- get X (i * (D + 1)) ;; get r j) (seq 0 N) ;;
  do xp <- mapM (fun i => do r <- get X (i * (D + 1) + (j + 1)) ;; get r j) (seq 0 N) ;;
  Ok (map2 (fun a b => fl (a - b)) xp xb).
Definition width (bounds : list (list R)) (j : nat) : result R :=
  do b <- get bounds j ;; do hi <- get b 1 ;; do lo <- get b 0 ;; Ok (fl (hi - lo)).

Lemma param_eq : forall bounds X Y N D cl res j, dgsm_param_fl arr square pi2 nq bounds X Y N D cl res j =
  if (length X <? length Y)%nat then Err ValueError
  else do dx <- steps X N D j ;; do w <- width bounds j ;; if (N =? 0)%nat then Err ValueError else Ok (row Y N D cl res j dx w).
Proof.
  intros bounds X Y N D cl res j. unfold dgsm_param_fl, steps, width. destruct (_ <? _)%nat; auto. destruct (mapM _ _); auto. cbn [bind]. destruct (mapM _ _); auto. cbn [bind].
  destruct (get bounds j) as [b|]; auto. cbn [bind]. destruct (get b 1); auto. cbn [bind]. destruct (get b 0); auto.
Qed.

(** What a result consists of. *)
Lemma dgsm_parts : forall p X Y cl resample out, dgsm_analyze_fl arr square pi2 nq p X Y cl resample = Ok out ->
  let D := p_num_vars p in
  let N := (length Y / (D + 1))%nat in
  length Y = (N * (D + 1))%nat /\ 0 < cl < 1 /\ length (d_vi out) = D /\ length (d_vi_std out) = D /\ length (d_dgsm out) = D /\ length (d_conf out) = D /\
  forall j, (j < D)%nat -> exists dx w, steps X N D j = Ok dx /\ width (p_bounds p) j = Ok w /\ (0 < N)%nat /\
    let r := row Y N D cl (resample j) j dx w in
    nth_error (d_vi out) j = Some (fst (fst (fst r))) /\ nth_error (d_vi_std out) j = Some (snd (fst (fst r))) /\
    nth_error (d_dgsm out) j = Some (snd (fst r)) /\ nth_error (d_conf out) j = Some (snd r).
Proof.
  intros p X Y cl resample out. unfold dgsm_analyze_fl. set (D := p_num_vars p). destruct (Nat.eqb_spec (length Y mod (D + 1)) 0) as [M|]; [|discriminate]. cbn [negb].
  destruct (Rltb 0 cl) eqn:C0; [|discriminate]. destruct (Rltb cl 1) eqn:C1; [|discriminate]. cbn [andb negb]. set (N := (length Y / (D + 1))%nat).
  destruct (mapM _ _) as [rs|] eqn:E; [|discriminate]. cbn [bind]. intros H. injection H as <-. cbn zeta. cbn [d_vi d_vi_std d_dgsm d_conf]. apply Rltb_true in C0. apply Rltb_true in C1.
  pose proof (mapM_Ok_length _ _ E) as L. rewrite seq_length in L. rewrite !map_length. split. { pose proof (Nat.div_mod (length Y) (D + 1)). fold N in H. lia. }
  split; [lra|]. do 4 (split; [lia|]). intros j J.
  assert (Ej : nth_error (seq 0 D) j = Some j) by (rewrite nth_error_seq, (proj2 (Nat.ltb_lt _ _) J); auto).
  destruct (mapM_Ok_nth _ _ _ E Ej) as (r & F & Er). rewrite param_eq in F. destruct (_ <? _)%nat; [discriminate|]. destruct (steps X N D j) as [dx|]; [|discriminate]. cbn [bind] in F.
  destruct (width (p_bounds p) j) as [w|]; [|discriminate]. cbn [bind] in F. destruct (Nat.eqb_spec N 0); [discriminate|]. injection F as <-.
  exists dx, w. do 2 (split; [reflexivity|]). split; [lia|]. rewrite !nth_error_map', Er. cbn [option_map]. auto.
Qed.

(** ** Signs *)
Lemma slope_pos : forall b q d v, slope2_fl b q d = Some v -> 0 <= v.
Proof. intros b q d v. unfold slope2_fl. destruct (fdiv_fl _ _) as [s|]; [|discriminate]. cbn. intros H. injection H as <-. apply square_pos. Qed.
Lemma fmean_pos : forall l v, (forall x, In (Some x) l -> 0 <= x) -> fmean_fl arr l = Some v -> 0 <= v.
Proof.
  intros l v H. unfold fmean_fl. destruct (all_some l) as [r|] eqn:E; [|discriminate]. cbn. intros V. injection V as <-. apply mean_pos. intros x Hx. apply H. eapply all_some_in; eauto.
Qed.
Lemma signs : forall p X Y cl resample out, dgsm_analyze_fl arr square pi2 nq p X Y cl resample = Ok out -> (forall x, 0 <= square x) -> 0 <= pi2 -> 0 <= nq (fl (/ 2 + fl (cl / 2))) ->
  forall v, In (Some v) (d_vi out) \/ In (Some v) (d_vi_std out) \/ In (Some v) (d_dgsm out) \/ In (Some v) (d_conf out) -> 0 <= v.
Proof.
  intros p X Y cl resample out H SQ P Z v V. destruct (dgsm_parts _ _ _ _ _ _ H) as (LY & CL & L1 & L2 & L3 & L4 & R).
  assert (S : forall D N j dx x l, In (Some x) (map (slope_at Y N D j dx) l) -> 0 <= x).
  { intros D N j dx x l Hx. apply in_map_iff in Hx. destruct Hx as (i & E & _). eapply slope_pos, E. }
  assert (B : forall (l : list fval), length l = p_num_vars p -> In (Some v) l -> exists j, (j < p_num_vars p)%nat /\ nth_error l j = Some (Some v)).
  { intros l Ll I. apply In_nth_error in I. destruct I as (j & Ej). exists j. split; auto. rewrite <- Ll. apply nth_error_Some. congruence. }
  destruct V as [V|[V|[V|V]]]; apply B in V; auto; destruct V as (j & J & V); destruct (R j J) as (dx & w & _ & _ & _ & R1 & R2 & R3 & R4).
  - rewrite R1 in V. injection V as V. eapply fmean_pos; [|exact V]. eauto.
  - rewrite R2 in V. injection V as V. cbn [row fst snd] in V. unfold fsd_fl in V. destruct (all_some _); [|discriminate]. injection V as <-. apply fl_pos, sqrt_pos.
  - rewrite R3 in V. injection V as V. cbn [row fst snd] in V. destruct (fmean_fl _ _) as [vi|] eqn:E; [|discriminate]. eapply fdiv_pos; [| |exact V].
    + apply fl_pos, Rmult_le_pos; auto. eapply fmean_pos; [|exact E]. eauto.
    + apply fl_pos, Rmult_le_pos; auto. apply var_pos.
  - rewrite R4 in V. injection V as V. cbn [row snd] in V. destruct (fsd1_fl _ _) as [s|] eqn:E; [|discriminate]. apply fsd1_pos in E. cbn [fmul_fl] in V. injection V as <-. apply fl_pos. nra.
Qed.

(** ** Parameters without influence *)
Lemma nth_seq_fun : forall (f : nat -> R) N i, nth i (map f (seq 0 N)) 0 = if (i <? N)%nat then f i else 0.
Proof.
  intros f N i. destruct (Nat.ltb_spec i N) as [L|L]; [|rewrite nth_overflow; [auto|rewrite map_length, seq_length; auto]].
  rewrite (nth_indep _ 0 (f 0%nat)) by (rewrite map_length, seq_length; auto). rewrite map_nth, seq_nth by auto. reflexivity.
Qed.
Lemma slope_zero : forall Y N D j dx i v, (forall i, (i < N)%nat -> nth (i * (D + 1) + (j + 1)) Y 0 = nth (i * (D + 1)) Y 0) -> slope_at Y N D j dx i = Some v -> v = 0.
Proof.
  intros Y N D j dx i v H. unfold slope_at, base_at, pert_at. rewrite !nth_seq_fun. unfold slope2_fl, fdiv_fl. destruct (Reqb (nth i dx 0) 0); [discriminate|]. cbn [option_map]. intros V. injection V as <-.
  replace ((if (i <? N)%nat then nth (i * (D + 1) + (j + 1)) Y 0 else 0) - (if (i <? N)%nat then nth (i * (D + 1)) Y 0 else 0)) with 0.
  - rewrite fl_0. unfold Rdiv. rewrite Rmult_0_l, fl_0, Rmult_0_l. apply fl_0.
  - destruct (Nat.ltb_spec i N); [rewrite H by auto|]; ring.
Qed.
Lemma ignored : forall p X Y cl resample out j, dgsm_analyze_fl arr square pi2 nq p X Y cl resample = Ok out ->
  let D := p_num_vars p in
  (j < D)%nat -> (forall i, (i < length Y / (D + 1))%nat -> nth (i * (D + 1) + (j + 1)) Y 0 = nth (i * (D + 1)) Y 0) ->
  forall v, nth_error (d_vi out) j = Some (Some v) \/ nth_error (d_vi_std out) j = Some (Some v) \/ nth_error (d_dgsm out) j = Some (Some v) \/ nth_error (d_conf out) j = Some (Some v) -> v = 0.
Proof.
  intros p X Y cl resample out j H D J I v V. destruct (dgsm_parts _ _ _ _ _ _ H) as (_ & _ & _ & _ & _ & _ & R). destruct (R j J) as (dx & w & _ & _ & _ & R1 & R2 & R3 & R4). fold D in R1, R2, R3, R4.
  set (N := (length Y / (D + 1))%nat) in *.
  assert (S : forall x l, In (Some x) (map (slope_at Y N D j dx) l) -> x = 0).
  { intros x l Hx. apply in_map_iff in Hx. destruct Hx as (i & E & _). eapply slope_zero; eauto. }
  destruct V as [V|[V|[V|V]]].
  - rewrite R1 in V. injection V as V. eapply fmean_zero; [|exact V]. eauto.
  - rewrite R2 in V. injection V as V. cbn [row fst snd] in V. unfold fsd_fl in V. destruct (all_some _) as [r|] eqn:E; [|discriminate]. injection V as <-.
    assert (Z : forall x, In x r -> x = 0) by (intros x Hx; eapply S, all_some_in; eauto).
    unfold std_fl, var_fl. rewrite mean_zero by auto. unfold sum_fl. rewrite tsum_zero; [unfold Rdiv; rewrite Rmult_0_l, fl_0, sqrt_0; apply fl_0|].
    intros x Hx. apply in_map_iff in Hx. destruct Hx as (y & <- & Hy). rewrite (Z y Hy), Rminus_0_r, fl_0, Rmult_0_r. apply fl_0.
  - rewrite R3 in V. injection V as V. cbn [row fst snd] in V. destruct (fmean_fl _ _) as [vi|] eqn:E; [|discriminate]. apply fmean_zero in E; [|eauto]. subst vi.
    unfold fdiv_fl in V. destruct (Reqb _ 0); [discriminate|]. injection V as <-. rewrite Rmult_0_l, fl_0. unfold Rdiv. rewrite Rmult_0_l. apply fl_0.
  - rewrite R4 in V. injection V as V. cbn [row snd] in V. destruct (fsd1_fl _ _) as [s|] eqn:E; [|discriminate]. apply fsd1_zero in E.
    + subst s. cbn [fmul_fl] in V. injection V as <-. rewrite Rmult_0_r. apply fl_0.
    + intros x Hx. apply in_map_iff in Hx. destruct Hx as (idx & Hx & _). eapply fmean_zero; [|exact Hx]. eauto.
Qed.

(** ** Where nan comes from *)
Lemma difference_nonzero : forall x y, double x -> double y -> fl (x - y) = 0 -> x = y.
Proof.
  intros x y Dx Dy H. apply (round_plus_eq_0 radix2 (FLT_exp (-1074) 53) ZnearestE x (- y)) in H; [lra|exact Dx|apply generic_format_opp; exact Dy].
Qed.
Lemma steps_at : forall X N D j dx i, steps X N D j = Ok dx -> (i < N)%nat -> length dx = N /\ nth i dx 0 = fl (step_of X D i j) /\
  In (nth (i * (D + 1) + 1 + j) X []) X /\ In (nth j (nth (i * (D + 1) + 1 + j) X []) 0) (nth (i * (D + 1) + 1 + j) X []) /\ In (nth (i * (D + 1)) X []) X /\ In (nth j (nth (i * (D + 1)) X []) 0) (nth (i * (D + 1)) X []).
Proof.
  intros X N D j dx i. unfold steps. destruct (mapM _ _) as [xb|] eqn:Eb; [|discriminate]. cbn [bind]. destruct (mapM (fun i => do r <- get X (i * (D + 1) + (j + 1));; get r j) _) as [xp|] eqn:Ep; [|discriminate].
  cbn [bind]. intros H I. injection H as <-. pose proof (mapM_Ok_length _ _ Eb) as Lb. pose proof (mapM_Ok_length _ _ Ep) as Lp. rewrite seq_length in Lb, Lp.
  assert (Ei : nth_error (seq 0 N) i = Some i) by (rewrite nth_error_seq, (proj2 (Nat.ltb_lt _ _) I); auto).
  destruct (mapM_Ok_nth _ _ _ Eb Ei) as (b & Fb & Nb). destruct (mapM_Ok_nth _ _ _ Ep Ei) as (q & Fq & Nq).
  replace (i * (D + 1) + (j + 1))%nat with (i * (D + 1) + 1 + j)%nat in Fq by lia.
  assert (G : forall k x, (do r <- get X k;; get r j) = Ok x -> nth j (nth k X []) 0 = x /\ In (nth k X []) X /\ In (nth j (nth k X []) 0) (nth k X [])).
  { intros k x. unfold get. destruct (nth_error X k) as [r|] eqn:Er; [|discriminate]. cbn [bind]. destruct (nth_error r j) as [y|] eqn:Ey; [|discriminate]. intros Q. injection Q as ->.
    rewrite (nth_error_nth _ _ _ Er), (nth_error_nth _ _ _ Ey). split; auto. split; eapply nth_error_In; eauto. }
  destruct (G _ _ Fb) as (Gb & Ib & Jb). destruct (G _ _ Fq) as (Gq & Iq & Jq). split.
  { clear -Lb Lp. revert xp N Lb Lp. induction xb as [|x xb IH]; intros [|y xp] N Lb Lp; cbn in *; try lia. destruct N as [|N]; [lia|]. f_equal. apply IH; lia. }
  split; auto. unfold step_of. rewrite Gb, Gq.
  clear -Nb Nq. revert i xp Nb Nq. induction xb as [|x xb IH]; intros [|i] [|y xp] Nb Nq; cbn in *; try discriminate; [congruence|auto].
Qed.
Lemma all_some_iff : forall l : list fval, all_some l = None <-> In None l.
Proof.
  induction l as [|[x|] l IH]; cbn; [split; [discriminate|tauto]| |tauto]. destruct (all_some l); split; try discriminate; try tauto.
  intros [H|H]; [discriminate|]. apply IH in H. discriminate.
Qed.
Lemma nan_steps : forall p X Y cl resample out j, dgsm_analyze_fl arr square pi2 nq p X Y cl resample = Ok out -> (forall r x, In r X -> In x r -> double x) ->
  let D := p_num_vars p in
  (j < D)%nat ->
  (nth_error (d_vi out) j = Some None <-> exists i, (i < length Y / (D + 1))%nat /\ step_of X D i j = 0) /\ (nth_error (d_vi_std out) j = Some None <-> nth_error (d_vi out) j = Some None).
Proof.
  intros p X Y cl resample out j H DX D J. destruct (dgsm_parts _ _ _ _ _ _ H) as (_ & _ & _ & _ & _ & _ & R). destruct (R j J) as (dx & w & ED & _ & _ & R1 & R2 & _). fold D in ED, R1, R2.
  set (N := (length Y / (D + 1))%nat) in *. rewrite R1, R2. cbn [row fst snd]. unfold fmean_fl, fsd_fl.
  assert (Q : all_some (map (slope_at Y N D j dx) (seq 0 N)) = None <-> exists i, (i < N)%nat /\ step_of X D i j = 0).
  { rewrite all_some_iff, in_map_iff. split.
    - intros (i & E & I). apply in_seq in I. exists i. split; [lia|]. destruct (steps_at X N D j dx i ED ltac:(lia)) as (_ & S & I1 & I2 & I3 & I4). unfold slope_at, slope2_fl, fdiv_fl in E.
      destruct (Reqb (nth i dx 0) 0) eqn:Z; [|discriminate]. apply Reqb_true in Z. rewrite S in Z. unfold step_of in *. apply difference_nonzero in Z; eauto. lra.
    - intros (i & I & Z). exists i. split; [|apply in_seq; lia]. destruct (steps_at X N D j dx i ED I) as (_ & S & _). unfold slope_at, slope2_fl, fdiv_fl. rewrite S, Z, fl_0, (proj2 (Reqb_true 0 0)); auto. }
  split; [rewrite <- Q|]; destruct (all_some _); cbn [option_map]; split; congruence.
Qed.

(** ** Outputs of the other sign *)
Lemma opp_at : forall Y k, nth k (map Ropp Y) 0 = - nth k Y 0.
Proof. intros Y k. rewrite <- (map_nth Ropp), Ropp_0. reflexivity. Qed.
Lemma row_opp : forall Y N D cl res j dx w, row (map Ropp Y) N D cl res j dx w = row Y N D cl res j dx w.
Proof.
  intros Y N D cl res j dx w. assert (B : base_at (map Ropp Y) N D = ProofsSobol4.opp (base_at Y N D)) by (unfold base_at, ProofsSobol4.opp; rewrite map_map; apply map_ext; intros i; apply opp_at).
  assert (P : pert_at (map Ropp Y) N D j = ProofsSobol4.opp (pert_at Y N D j)) by (unfold pert_at, ProofsSobol4.opp; rewrite map_map; apply map_ext; intros i; apply opp_at).
  assert (S : forall i, slope_at (map Ropp Y) N D j dx i = slope_at Y N D j dx i).
  { intros i. unfold slope_at. rewrite B, P. unfold ProofsSobol4.opp. rewrite !opp_at. unfold slope2_fl.
    replace (- nth i (pert_at Y N D j) 0 - - nth i (base_at Y N D) 0) with (- (nth i (pert_at Y N D j) 0 - nth i (base_at Y N D) 0)) by ring. rewrite fl_opp, fdiv_opp.
    destruct (fdiv_fl _ _) as [s|]; cbn; auto. do 2 f_equal. ring. }
  unfold row. rewrite B, var_fl_opp. rewrite (map_ext _ _ S). do 3 f_equal. apply map_ext. intros idx. rewrite (map_ext _ _ S). reflexivity.
Qed.
Lemma sign_free : forall p X Y cl resample, dgsm_analyze_fl arr square pi2 nq p X (map Ropp Y) cl resample = dgsm_analyze_fl arr square pi2 nq p X Y cl resample.
Proof.
  intros p X Y cl resample. unfold dgsm_analyze_fl. rewrite !map_length. destruct (negb _); auto. destruct (negb _); auto.
  rewrite (mapM_ext _ (fun j => dgsm_param_fl arr square pi2 nq (p_bounds p) X Y (length Y / (p_num_vars p + 1)) (p_num_vars p) cl (resample j) j)); auto.
  intros j _. rewrite !param_eq, map_length. destruct (_ <? _)%nat; auto. destruct (steps _ _ _ _); auto. cbn [bind]. destruct (width _ _); auto. cbn [bind]. rewrite row_opp. reflexivity.
Qed.
End Rows.
