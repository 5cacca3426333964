(** * Derivative-based measures and total effects: C99. *)
From Coq Require Import Reals String List Arith Bool Lia Lra Psatz.
From Verif Require Import Base Stats ModelGroups SpecFF SpecMorris SpecSobol ModelDgsm SpecDgsm ProofsDgsm ProofsDgsm2 ProofsDgsm3 SpecDgsm2 SpecIntegral ProofsIntegral SpecLimit
  ProofsPoincare ProofsPoincare2 ProofsLimit2 ProofsLimit5 ProofsLimit6 ProofsLimit7 ProofsLimit9 ProofsLimit10.
From Verif Require PropertiesDgsm.
Import ListNotations.
Local Open Scope R_scope.

(** C99: over any box, the total effect of a parameter is at most the mean square of its slope times the squared width over pi squared. *)
Theorem C99_total_effect : forall b f g i lo hi t v, proper b -> nth_error b i = Some (lo, hi) -> partial_slope b f g i -> continuous_on b g ->
  SpecIntegral.total_effect b f i t -> average b (fun x => g x ^ 2) v -> t <= v * (hi - lo) ^ 2 / PI ^ 2.
Proof. exact slope_total. Qed.
Print Assumptions C99_total_effect.

(** C99: on designs whose base points fill the box and whose steps shrink, vi tends to the mean square slope and dgsm to its multiple. *)
Theorem C99_converges : forall nq p b f g j lo hi X N cl resample out v V,
  plain_problem p -> p_bounds p = pair_bounds b -> p_num_vars p = length b -> proper b -> nth_error b j = Some (lo, hi) -> partial_slope b f g j -> continuous_on b g -> continuous_on b f ->
  (forall n, difference_design (length b) (N n) (X n)) -> (forall n, Forall (inside b) (X n)) -> fills b (fun n => base_points (X n) (length b) (N n)) -> steps_vanish X N (length b) j ->
  0 < cl < 1 -> (forall n k, valid_resample (N n) (resample n k)) -> (forall n, dgsm_analyze nq p (X n) (map f (X n)) cl (resample n) = Ok (out n)) ->
  average b (fun x => g x ^ 2) v -> SpecIntegral.variance b f V -> 0 < V -> forall eps, 0 < eps -> exists n0, forall n, (n0 <= n)%nat -> exists e d,
    nth_error (d_vi (out n)) j = Some (Some e) /\ Rabs (e - v) < eps /\ nth_error (d_dgsm (out n)) j = Some (Some d) /\ Rabs (d - v * (hi - lo) ^ 2 / (V * PI ^ 2)) < eps.
Proof. exact reported_slopes. Qed.
Print Assumptions C99_converges.

(** C99: so in the limit the documented "S_tot <= dgsm" holds. *)
Theorem C99_limit_bound : forall nq p b f g j lo hi X N cl resample out t V,
  plain_problem p -> p_bounds p = pair_bounds b -> p_num_vars p = length b -> proper b -> nth_error b j = Some (lo, hi) -> partial_slope b f g j -> continuous_on b g -> continuous_on b f ->
  (forall n, difference_design (length b) (N n) (X n)) -> (forall n, Forall (inside b) (X n)) -> fills b (fun n => base_points (X n) (length b) (N n)) -> steps_vanish X N (length b) j ->
  0 < cl < 1 -> (forall n k, valid_resample (N n) (resample n k)) -> (forall n, dgsm_analyze nq p (X n) (map f (X n)) cl (resample n) = Ok (out n)) ->
  SpecIntegral.total_effect b f j t -> SpecIntegral.variance b f V -> 0 < V -> forall eps, 0 < eps -> exists n0, forall n, (n0 <= n)%nat -> exists d,
    nth_error (d_dgsm (out n)) j = Some (Some d) /\ t / V - eps < d.
Proof.
  intros nq p b f g j lo hi X N cl resample out t V PP EB EN HP HE HS HG Hf HX HI HF HV Hc HR HO T W V0 eps He.
  pose proof (avg_ok b _ HP (continuous_square b g HP HG)) as A. set (v := avg b (fun x => g x ^ 2)) in A.
  pose proof (C99_total_effect b f g j lo hi t v HP HE HS HG T A) as B.
  destruct (C99_converges nq p b f g j lo hi X N cl resample out v V PP EB EN HP HE HS HG Hf HX HI HF HV Hc HR HO A W V0 eps He) as (n0 & H0).
  exists n0. intros n Hn. destruct (H0 n Hn) as (e & d & _ & _ & E & D). exists d. split; auto. apply Rabs_def2 in D.
  assert (t / V <= v * (hi - lo) ^ 2 / (V * PI ^ 2)); [|lra].
  pose proof PI_neq0. replace (v * (hi - lo) ^ 2 / (V * PI ^ 2)) with (v * (hi - lo) ^ 2 / PI ^ 2 / V) by (field; lra).
  apply Rmult_le_compat_r; auto. left. apply Rinv_0_lt_compat. auto.
Qed.
Print Assumptions C99_limit_bound.

(** C99: finite_diff.sample with positive lower bounds and a step fraction that tends to zero makes such designs. *)
Theorem C99_sampler : forall nq tq sobol p b N skip delta base X q,
  plain_problem p -> p_bounds p = pair_bounds b -> p_num_vars p = length b -> proper b ->
  (forall n, sobol (N n + skip)%nat (length b) = Ok (base n) /\ length (base n) = (N n + skip)%nat /\ Forall (fun r => length r = length b /\ Forall (fun x => 0 <= x < 1) r) (base n)) ->
  Forall (fun i => 0 < fst i) b -> (forall n, 0 < delta n) -> Un_cv delta 0 -> fills (unit_box (length b)) (fun n => skipn skip (base n)) ->
  (forall n, fd_sample nq tq sobol p (N n) skip (delta n) = (q n, Ok (map (map Some) (X n)))) ->
  (forall n, difference_design (length b) (N n) (X n)) /\ (forall n, Forall (inside b) (X n)) /\ fills b (fun n => base_points (X n) (length b) (N n)) /\
  forall j, (j < length b)%nat -> steps_vanish X N (length b) j.
Proof. exact fd_sample_fills. Qed.
Print Assumptions C99_sampler.

(** C99: for every data set the squared mean absolute secant is at most vi. *)
Theorem C99_mu_star : forall nq p X Y N cl resample out j, let D := p_num_vars p in
  length Y = (N * (D + 1))%nat -> (0 < N)%nat -> plain_problem p -> (forall j, valid_resample N (resample j)) -> 0 < cl < 1 -> block_rows D N X -> (j < D)%nat ->
  dgsm_analyze nq p X Y cl resample = Ok out -> (forall i, (i < N)%nat -> step_of X D i j <> 0) ->
  exists vi, nth_error (d_vi out) j = Some (Some vi) /\ mean (map (fun i => Rabs (secant X Y D i j)) (seq 0 N)) ^ 2 <= vi.
Proof.
  intros nq p X Y N cl resample out j D LY N0 PP HR Hc BR J HO HS.
  destruct (dgsm_formula nq p X Y N cl resample LY N0 PP HR Hc BR) as (o & EO & _ & _ & _ & _ & _ & Q). rewrite HO in EO. injection EO as <-.
  destruct (Q j J) as (Q1 & _). destruct (Q1 HS) as (E & _). eexists. split; [exact E|].
  pose proof (mean_square (map (fun i => secant X Y D i j) (seq 0 N))) as M. rewrite !map_map in M. exact M.
Qed.
Print Assumptions C99_mu_star.

(** One parameter on [1, 3]; base points 1 and 3/2, each doubled (delta = 1). *)
Definition line_problem : problem := mkProblem 1 ["x"%string] [[1; 3]] None None false.
Definition line_X : list (list R) := [[1]; [2]; [3 / 2]; [3]].
Example line_plain : plain_problem line_problem.
Proof. repeat split; simpl; auto. unfold good_box. repeat constructor. exists 1, 3. split; auto; lra. Qed.
Example line_design : difference_design 1 2 line_X.
Proof.
  split; [reflexivity|]. intros [|[|i]] Hi; [| |lia]; eexists; (split; [reflexivity|split; [reflexivity|]]);
    intros [|j] Hj; try lia; eexists; (split; [reflexivity|split; [split; [reflexivity|]|]]); try (intros [|[|k]] Hk; simpl; auto; lia); simpl; lra.
Qed.
Example line_sampled : exists q, fd_sample (fun x => x) (fun _ _ _ => 0) (fun _ _ => Ok [[0]; [1 / 4]]) line_problem 2 0 1 = (q, Ok (map (map Some) line_X)).
Proof.
  destruct (PropertiesDgsm.C38_design (fun x => x) (fun _ _ _ => 0) (fun _ _ => Ok [[0]; [1 / 4]]) line_problem 2 0 1 [[0]; [1 / 4]] line_plain eq_refl) as (q & X & E & L & H).
  { split; auto. repeat constructor; lra. }
  exists q. rewrite E. do 3 f_equal. simpl in L. destruct X as [|r0 [|r1 [|r2 [|r3 [|]]]]]; try discriminate L.
  assert (ONE : forall r : list R, length r = 1%nat -> r = [nth 0 r 0]) by (intros [|a [|]] Hr; simpl in Hr; try lia; reflexivity).
  destruct (H 0%nat ltac:(lia)) as (a & b & Ea & Eb & P & Lb & _ & S). destruct (H 1%nat ltac:(lia)) as (a' & b' & Ea' & Eb' & P' & Lb' & _ & S').
  cbn in Ea, Ea', Eb, Eb'. injection Ea as <-. injection Ea' as <-. injection Eb as <-. injection Eb' as <-.
  destruct P as (_ & P). specialize (P 0%nat 0 1 3 eq_refl eq_refl). destruct P' as (_ & P'). specialize (P' 0%nat (1 / 4) 1 3 eq_refl eq_refl).
  assert (r0 = [1]) as -> by (rewrite (ONE r0 Lb); f_equal; apply (f_equal (fun o => match o with Some v => v | None => 0 end)) in P; rewrite (nth_error_nth' r0 0) in P by (simpl in Lb; lia); rewrite P; field).
  assert (r2 = [3 / 2]) as -> by (rewrite (ONE r2 Lb'); f_equal; apply (f_equal (fun o => match o with Some v => v | None => 0 end)) in P'; rewrite (nth_error_nth' r2 0) in P' by (simpl in Lb'; lia); rewrite P'; field).
  destruct (S 0%nat ltac:(simpl; lia)) as (r & Er & (L1 & _) & _ & V & _). destruct (S' 0%nat ltac:(simpl; lia)) as (r' & Er' & (L2 & _) & _ & V' & _).
  cbn in Er, Er'. injection Er as <-. injection Er' as <-. unfold lower, upper in V, V'. cbn in V, V', L1, L2.
  assert (nth 0 r1 0 = 2) by (rewrite V; lra). assert (nth 0 r3 0 = 3) by (rewrite V'; lra).
  rewrite (ONE r1), (ONE r3), H0, H1 by auto. reflexivity.
Qed.

(** C99: but at any given sample the documented bound can fail: dgsm = 0 while the only parameter has total-order index 1. *)
Theorem C99_sample_refuted : exists nq p X f cl resample out t V,
  plain_problem p /\ p_bounds p = pair_bounds [(1, 3)] /\ difference_design 1 2 X /\ Forall (inside [(1, 3)]) X /\ dgsm_analyze nq p X (map f X) cl resample = Ok out /\
  SpecIntegral.variance [(1, 3)] f V /\ 0 < V /\ SpecIntegral.total_effect [(1, 3)] f 0 t /\ t / V = 1 /\ nth_error (d_dgsm out) 0 = Some (Some 0).
Proof.
  set (f := fun l => cubic (nth 0 l 0)). exists (fun x => x), line_problem, line_X, f, (95 / 100), (fun _ => [[0; 1]%nat]).
  assert (BR : block_rows 1 2 line_X) by (split; [reflexivity|repeat constructor]).
  destruct (dgsm_formula (fun x => x) line_problem line_X (map f line_X) 2 (95 / 100) (fun _ => [[0; 1]%nat]) eq_refl ltac:(lia) line_plain) as (out & E & _ & _ & _ & _ & _ & Q); auto.
  { intros j. repeat constructor. } { lra. }
  exists out, (493 / 11340), (493 / 11340).
  split; [apply line_plain|]. split; [reflexivity|]. split; [apply line_design|]. split; [repeat constructor; simpl; lra|]. split; [exact E|]. split; [apply cubic_variance|]. split; [lra|].
  split; [apply total_one; [apply cubic_variance|lra]|]. split; [field|].
  destruct (Q 0%nat ltac:(simpl; lia)) as (Q1 & _). destruct Q1 as (_ & _ & E2 & _).
  { intros [|[|i]] Hi; unfold step_of; simpl; try lra. lia. }
  rewrite E2. f_equal.
  replace (mean (map (fun i => secant line_X (map f line_X) (p_num_vars line_problem) i 0 ^ 2) (seq 0 2))) with 0.
  2:{ unfold secant, mean, Rsum, f, cubic. cbn -[Rdiv Rmult Rminus Rplus pow IZR]. simpl INR. field. }
  destruct (Req_EM_T _ 0) as [Z|_]; [|f_equal; unfold Rdiv; ring].
  exfalso. revert Z. unfold var, mean, base_outputs, Rsum, f, cubic. cbn -[Rdiv Rmult Rminus Rplus pow IZR]. simpl INR. intros Z. field_simplify in Z. lra.
Qed.
Print Assumptions C99_sample_refuted.

(** C99: nor is "mu* < sqrt(vi)" strict: a straight line gives equality. *)
Theorem C99_strict_refuted : exists nq p X Y cl resample out vi,
  plain_problem p /\ difference_design 1 2 X /\ dgsm_analyze nq p X Y cl resample = Ok out /\ nth_error (d_vi out) 0 = Some (Some vi) /\
  ~ mean (map (fun i => Rabs (secant X Y 1 i 0)) (seq 0 2)) < sqrt vi.
Proof.
  exists (fun x => x), line_problem, line_X, [2; 4; 3; 6], (95 / 100), (fun _ => [[0; 1]%nat]).
  assert (BR : block_rows 1 2 line_X) by (split; [reflexivity|repeat constructor]).
  destruct (dgsm_formula (fun x => x) line_problem line_X [2; 4; 3; 6] 2 (95 / 100) (fun _ => [[0; 1]%nat]) eq_refl ltac:(lia) line_plain) as (out & E & _ & _ & _ & _ & _ & Q); auto.
  { intros j. repeat constructor. } { lra. }
  exists out. destruct (Q 0%nat ltac:(simpl; lia)) as (Q1 & _). destruct Q1 as (E2 & _).
  { intros [|[|i]] Hi; unfold step_of; simpl; try lra. lia. }
  assert (S0 : secant line_X [2; 4; 3; 6] 1 0 0 = 2) by (unfold secant; simpl; field). assert (S1 : secant line_X [2; 4; 3; 6] 1 1 0 = 2) by (unfold secant; simpl; field).
  exists (2 * 2). split; [apply line_plain|]. split; [apply line_design|]. split; [exact E|]. split.
  - rewrite E2. change (p_num_vars line_problem) with 1%nat. cbn [seq map]. rewrite S0, S1. do 2 f_equal. unfold mean, Rsum. simpl. field.
  - rewrite sqrt_square by lra. cbn [seq map]. rewrite S0, S1, (Rabs_right 2) by lra. unfold mean, Rsum. simpl. lra.
Qed.
Print Assumptions C99_strict_refuted.

(** Half a cosine wave attains the bound: total effect 1/2, mean square slope pi^2/2. *)
Example cosine_attains : exists g v, partial_slope [(0, 1)] (fun l => cos (PI * nth 0 l 0)) g 0 /\ continuous_on [(0, 1)] g /\ average [(0, 1)] (fun x => g x ^ 2) v /\
  SpecIntegral.total_effect [(0, 1)] (fun l => cos (PI * nth 0 l 0)) 0 (1 / 2) /\ 1 / 2 = v * (1 - 0) ^ 2 / PI ^ 2.
Proof.
  exists (fun l => - PI * sin (PI * nth 0 l 0)), (PI ^ 2 / 2). split; [apply cos_slope|]. split; [apply cos_slope_continuous|]. split; [apply sin_average|].
  split; [apply total_one; [apply cos_variance|lra]|]. pose proof PI_neq0. field. auto.
Qed.

(** The square of one parameter on [1, 3], sampled with n + 1 equally spaced base points and steps of 1 / (n + 1): vi tends to 52/3. *)
Lemma square_variance : SpecIntegral.variance [(1, 3)] (fun l => nth 0 l 0 ^ 2) (244 / 45).
Proof.
  exists (13 / 3). split.
  - apply (average_line 1 3 (fun x => x ^ 2)); [lra|]. apply (integral_ext (poly [0; 0; 1] 0)); [lra|intros x _; cbn [poly pow]; field|].
    replace (13 / 3 * (3 - 1)) with (prim [0; 0; 1] 0 3 - prim [0; 0; 1] 0 1) by (cbn [prim pow INR]; field). apply poly_integral. lra.
  - apply (average_line 1 3 (fun x => (x ^ 2 - 13 / 3) ^ 2)); [lra|]. apply (integral_ext (poly [169 / 9; 0; -26 / 3; 0; 1] 0)); [lra|intros x _; cbn [poly pow]; field|].
    replace (244 / 45 * (3 - 1)) with (prim [169 / 9; 0; -26 / 3; 0; 1] 0 3 - prim [169 / 9; 0; -26 / 3; 0; 1] 0 1) by (cbn [prim pow INR]; field). apply poly_integral. lra.
Qed.
Lemma square_slope : average [(1, 3)] (fun l => (2 * nth 0 l 0) ^ 2) (52 / 3).
Proof.
  apply (average_line 1 3 (fun x => (2 * x) ^ 2)); [lra|]. apply (integral_ext (poly [0; 0; 4] 0)); [lra|intros x _; cbn [poly pow]; field|].
  replace (52 / 3 * (3 - 1)) with (prim [0; 0; 4] 0 3 - prim [0; 0; 4] 0 1) by (cbn [prim pow INR]; field). apply poly_integral. lra.
Qed.
Lemma unit_below : forall n, Forall (fun r => length r = 1%nat /\ Forall (fun x => 0 <= x < 1) r) (grid_points (S n) (unit_box 1)).
Proof.
  intros n. apply Forall_forall. intros r Hr. change (unit_box 1) with [(0, 1)] in Hr. cbn [grid_points] in Hr. apply in_flat_map in Hr. destruct Hr as (k & K & Hr). apply in_map_iff in Hr. destruct Hr as (r0 & <- & R0).
  destruct R0 as [<-|[]]. split; auto. constructor; auto. apply in_seq in K. cbn [fst snd]. assert (0 < INR (S n)) by (apply lt_0_INR; lia). pose proof (pos_INR k).
  assert (INR k < INR (S n)) by (apply lt_INR; lia). replace (0 + INR k * ((1 - 0) / INR (S n))) with (INR k / INR (S n)) by (field; lra). split.
  - apply Rmult_le_pos; auto. left. apply Rinv_0_lt_compat. auto.
  - apply (Rmult_lt_reg_r (INR (S n))); auto. unfold Rdiv. rewrite Rmult_assoc, Rinv_l by lra. lra.
Qed.
Example square_converges : exists q X out,
  (forall n, fd_sample (fun x => x) (fun _ _ _ => 0) (fun k d => Ok (grid_points k (unit_box d))) line_problem (S n) 0 (/ INR (S n)) = (q n, Ok (map (map Some) (X n)))) /\
  (forall n, dgsm_analyze (fun x => x) line_problem (X n) (map (fun l => nth 0 l 0 ^ 2) (X n)) (95 / 100) (fun _ => [seq 0 (S n)]) = Ok (out n)) /\
  forall eps, 0 < eps -> exists n0, forall n, (n0 <= n)%nat -> exists e d, nth_error (d_vi (out n)) 0 = Some (Some e) /\ Rabs (e - 52 / 3) < eps /\
    nth_error (d_dgsm (out n)) 0 = Some (Some d) /\ 1 - eps < d.
Proof.
  set (f := fun l : list R => nth 0 l 0 ^ 2). set (sobol := fun k d => Ok (grid_points k (unit_box d)) : result (list (list R))).
  set (W := fun n => fd_sample (fun x => x) (fun _ _ _ => 0) sobol line_problem (S n) 0 (/ INR (S n))).
  set (q := fun n => fst (W n)).
  set (X := fun n => match snd (W n) with Ok r => map (map (fun v => match v with Some x => x | None => 0 end)) r | Err _ => [] end).
  set (A := fun n => dgsm_analyze (fun x => x) line_problem (X n) (map f (X n)) (95 / 100) (fun _ => [seq 0 (S n)])).
  set (out := fun n => match A n with Ok o => o | Err _ => mkDgsm [] [] [] [] [] end).
  assert (P : proper [(1, 3)]) by (constructor; [simpl; lra|constructor]).
  assert (LG : forall n, length (grid_points (S n) (unit_box 1)) = S n) by (intros n; rewrite grid_points_length; cbn [length unit_box repeat]; apply Nat.pow_1_r).
  assert (DP : forall n, 0 < / INR (S n)) by (intros n; apply Rinv_0_lt_compat, lt_0_INR; lia).
  assert (HW : forall n, W n = (q n, Ok (map (map Some) (X n)))).
  { intros n. destruct (fd_difference_design (fun x => x) (fun _ _ _ => 0) sobol line_problem (S n) 0 (/ INR (S n)) (grid_points (S n) (unit_box 1)) line_plain) as (p' & X' & E & _); auto.
    - unfold sobol. rewrite Nat.add_0_r. reflexivity.
    - rewrite LG. lia.
    - apply unit_below.
    - intros j J. simpl in J. destruct j; [|lia]. unfold lower. simpl. lra.
    - assert (EW : W n = (p', Ok (map (map Some) X'))) by exact E.
      assert (EX : X n = X').
      { unfold X. rewrite EW. cbn [snd]. rewrite map_map. rewrite <- (map_id X') at 2. apply map_ext. intros r. rewrite map_map. apply map_id. }
      rewrite EX. unfold q. rewrite EW. reflexivity. }
  destruct (C99_sampler (fun x => x) (fun _ _ _ => 0) sobol line_problem [(1, 3)] (fun n => S n) 0%nat (fun n => / INR (S n)) (fun n => grid_points (S n) (unit_box 1)) X q line_plain) as (D1 & D2 & D3 & D4); auto.
  { intros n. split; [unfold sobol; rewrite Nat.add_0_r; reflexivity|]. split; [rewrite LG; lia|apply unit_below]. }
  { constructor; [simpl; lra|constructor]. }
  { intros eps He. destruct (archimed_cor1 eps He) as (k & K & K0). exists k. intros n Hn. unfold R_dist. rewrite Rminus_0_r, Rabs_right by (apply Rle_ge, Rlt_le; auto).
    apply Rle_lt_trans with (/ INR k); auto. apply Rinv_le_contravar; [apply lt_0_INR; auto|apply le_INR; lia]. }
  { apply grid_fills. apply unit_proper. }
  assert (HA : forall n, A n = Ok (out n)).
  { intros n. destruct (D1 n) as (LX & _). destruct (difference_block _ _ _ (D1 n)) as (_ & BR).
    destruct (dgsm_formula (fun x => x) line_problem (X n) (map f (X n)) (S n) (95 / 100) (fun _ => [seq 0 (S n)])) as (o & E & _); auto.
    - rewrite map_length. exact LX.
    - lia.
    - apply line_plain.
    - intros j. constructor; [|constructor]. split; [apply seq_length|]. apply Forall_forall. intros t Ht. apply in_seq in Ht. lia.
    - lra.
    - unfold out. assert (EA : A n = Ok o) by exact E. rewrite EA. reflexivity. }
  assert (SL : partial_slope [(1, 3)] f (fun l => 2 * nth 0 l 0) 0).
  { intros bi xs x _ _ _. unfold put_at, f. cbn [firstn skipn app nth]. split.
    - pose proof (derivable_pt_lim_pow x 2) as K. cbn [pred INR] in K. replace ((1 + 1) * x ^ 1) with (2 * x) in K by ring. exact K.
    - apply (continuity_scal id). apply derivable_continuous, derivable_id. }
  assert (CG : continuous_on [(1, 3)] (fun l => 2 * nth 0 l 0)) by (apply continuous_scal, continuous_coord; simpl; lia).
  assert (CF : continuous_on [(1, 3)] f) by (apply continuous_square; auto; apply continuous_coord; simpl; lia).
  exists q, X, out. split; [exact HW|]. split; [exact HA|]. intros eps He.
  destruct (C99_converges (fun x => x) line_problem [(1, 3)] f (fun l => 2 * nth 0 l 0) 0 1 3 X (fun n => S n) (95 / 100) (fun n _ => [seq 0 (S n)]) out (52 / 3) (244 / 45)) with (eps := eps) as (n1 & H1); auto.
  { apply line_plain. } { lra. }
  { intros n j. constructor; [|constructor]. split; [apply seq_length|]. apply Forall_forall. intros t Ht. apply in_seq in Ht. lia. }
  { apply square_slope. } { apply square_variance. } { lra. }
  destruct (C99_limit_bound (fun x => x) line_problem [(1, 3)] f (fun l => 2 * nth 0 l 0) 0 1 3 X (fun n => S n) (95 / 100) (fun n _ => [seq 0 (S n)]) out (244 / 45) (244 / 45)) with (eps := eps) as (n2 & H2); auto.
  { apply line_plain. } { lra. }
  { intros n j. constructor; [|constructor]. split; [apply seq_length|]. apply Forall_forall. intros t Ht. apply in_seq in Ht. lia. }
  { apply total_one; [apply square_variance|lra]. } { apply square_variance. } { lra. }
  exists (n1 + n2)%nat. intros n Hn. destruct (H1 n ltac:(lia)) as (e & d & E1 & B1 & E2 & _). destruct (H2 n ltac:(lia)) as (d' & E3 & B3). rewrite E2 in E3. injection E3 as <-.
  exists e, d. do 3 (split; [assumption|]). replace (244 / 45 / (244 / 45)) with 1 in B3 by field. auto.
Qed.
