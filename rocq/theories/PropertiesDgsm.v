(** * Finite-difference sampling and DGSM: C38, C39. *)
From Coq Require Import Reals String List Arith ZArith Bool Lia Lra.
From Verif Require Import Base Arrays ListFacts ModelGroups ModelScale ProofsScale Stats Sums SpecSobol SpecFF
  SpecMorris ModelSobolSeq SpecSobolSeq ModelDgsm SpecDgsm ProofsDgsm ProofsDgsm2 ProofsDgsm3.
Import ListNotations.
Local Open Scope nat_scope.

(** C38: N blocks of a base point (the physical form of Sobol point skip+i) followed by D points, the
    j-th being the base point with coordinate j enlarged by the fraction delta and held in the bounds. *)
Theorem C38_design : forall nq tq sobol p N skip delta base, plain_problem p ->
  sobol (N + skip) (p_num_vars p) = Ok base -> unit_points (N + skip) (p_num_vars p) base ->
  let D := p_num_vars p in
  exists p' X, fd_sample nq tq sobol p N skip delta = (p', Ok (map (map Some) X)) /\
    length X = N * (D + 1) /\
    forall i, i < N -> exists a b,
      nth_error base (skip + i) = Some a /\ nth_error X (i * (D + 1)) = Some b /\
      physical (p_bounds p) a b /\ length b = D /\
      (forall j, j < D -> (lower (p_bounds p) j <= nth j b 0 <= upper (p_bounds p) j)%R) /\
      forall j, j < D -> exists r, nth_error X (i * (D + 1) + 1 + j) = Some r /\
        stepped (lower (p_bounds p) j) (upper (p_bounds p) j) delta j b r.
Proof. exact fd_sample_spec. Qed.
Print Assumptions C38_design.

(** C38: the step is zero exactly when the base coordinate or delta is zero, or the base coordinate
    is at the bound the step points to. *)
Theorem C38_zero_step : forall lo up delta j b r, (lo < up)%R -> (lo <= nth j b 0 <= up)%R -> stepped lo up delta j b r ->
  (nth j r 0 = nth j b 0 <->
   nth j b 0 = 0 \/ delta = 0 \/ (nth j b 0 = up /\ 0 < nth j b 0 * delta) \/ (nth j b 0 = lo /\ nth j b 0 * delta < 0))%R.
Proof. exact stepped_same. Qed.
Print Assumptions C38_zero_step.

(** C38: for positive parameters and Sobol base points every step is non-zero. *)
Theorem C38_positive_box : forall nq tq sobol p N skip delta base, plain_problem p ->
  sobol (N + skip) (p_num_vars p) = Ok base -> length base = N + skip ->
  Forall (fun r => length r = p_num_vars p /\ Forall (fun x => 0 <= x < 1)%R r) base ->
  (forall j, j < p_num_vars p -> (0 < lower (p_bounds p) j)%R) -> (0 < delta)%R ->
  exists p' X, fd_sample nq tq sobol p N skip delta = (p', Ok (map (map Some) X)) /\
    difference_design (p_num_vars p) N X.
Proof. exact fd_difference_design. Qed.
Print Assumptions C38_positive_box.

(** C38 fails for problems with distributions: "bounds" then holds distribution parameters, here mean 2
    and standard deviation 1, and the stepped point is 2 whatever the base point and delta are. *)
Theorem C38_distributions_refuted : forall nq tq q delta, (0 < q < 1)%R -> exists p',
  fd_sample nq tq (fun _ _ => Ok [[q]]) normal_problem 1 0 delta = (p', Ok [[Some (2 + 1 * nq q)%R]; [Some 2%R]]).
Proof. exact normal_clamped. Qed.
Print Assumptions C38_distributions_refuted.

Definition dgsm_ex : problem := mkProblem 2 ["a"; "b"]%string [[1; 3]; [2; 4]]%R None None false.
Example dgsm_ex_plain : plain_problem dgsm_ex.
Proof.
  repeat split; simpl; auto. unfold good_box. repeat constructor; [exists 1%R, 3%R|exists 2%R, 4%R]; split; auto; lra.
Qed.

(** Two base points; the second step of the second block is cut at the bound 4. *)
Example C38_example : exists p',
  fd_sample (fun x => x) (fun x _ _ => x) (fun _ _ => Ok [[0; 0]; [1/2; 0]; [1/4; 3/4]]%R) dgsm_ex 2 1 (1/2)
  = (p', Ok (map (map Some) [[2; 2]; [3; 2]; [2; 3]; [3/2; 7/2]; [9/4; 7/2]; [3/2; 4]]%R)).
Proof.
  destruct (C38_design (fun x => x) (fun x _ _ => x) (fun _ _ => Ok [[0; 0]; [1/2; 0]; [1/4; 3/4]]%R) dgsm_ex 2 1 (1/2)
    [[0; 0]; [1/2; 0]; [1/4; 3/4]]%R dgsm_ex_plain eq_refl) as (p' & X & E & L & H).
  { split; auto. repeat constructor; lra. }
  exists p'. rewrite E. do 3 f_equal. simpl in L.
  destruct X as [|r0 [|r1 [|r2 [|r3 [|r4 [|r5 [|]]]]]]]; try discriminate L.
  assert (ST : forall (lo up : R) (j : nat) (x y : R) (r : list R), (lo < up)%R -> stepped lo up (1/2)%R j [x; y] r -> (lo <= nth j [x; y] 0 <= up)%R ->
     j < 2 -> r = update [x; y] j (clamp_step lo up (1/2)%R (nth j [x; y] 0%R))).
  { intros lo up j x y r Hlt [[Lr Ha] (H1 & H2 & H3 & H4)] Hx Hj. simpl in Lr.
    destruct r as [|u [|v [|]]]; try discriminate Lr.
    pose proof (clamp_step_spec lo up (1/2)%R (nth j [x; y] 0%R) ltac:(lra)) as (C1 & C2 & C3 & C4).
    assert (Hy : nth j [u; v] 0%R = clamp_step lo up (1/2)%R (nth j [x; y] 0%R)).
    { destruct (Rlt_le_dec up (nth j [x; y] 0 + nth j [x; y] 0 * (1/2))%R); [rewrite H3, C3; auto|].
      destruct (Rlt_le_dec (nth j [x; y] 0 + nth j [x; y] 0 * (1/2))%R lo); [rewrite H4, C4; auto|].
      rewrite H2, C2; auto. }
    destruct j as [|[|]]; [| |lia]; cbn [nth] in Hy; cbn [update nth]; rewrite <- Hy.
    - specialize (Ha 1 ltac:(lia)). simpl in Ha. congruence.
    - specialize (Ha 0 ltac:(lia)). simpl in Ha. congruence. }
  assert (PR : forall x y x' y' : R, x = x' -> y = y' -> [x; y] = [x'; y']) by (intros; subst; auto).
  destruct (H 0 ltac:(lia)) as (a & b & Ha & Hb & [Lb Hp] & _ & Hr & Hs). simpl in Ha, Hb. injection Ha as <-. injection Hb as <-.
  destruct (H 1 ltac:(lia)) as (a' & b' & Ha' & Hb' & [Lb' Hp'] & _ & Hr' & Hs'). simpl in Ha', Hb'. injection Ha' as <-. injection Hb' as <-.
  assert (E0 : r0 = [2; 2]%R).
  { destruct r0 as [|u [|v [|]]]; try discriminate Lb.
    pose proof (Hp 0 (1/2)%R 1%R 3%R eq_refl eq_refl) as U. pose proof (Hp 1 0%R 2%R 4%R eq_refl eq_refl) as V. simpl in U, V.
    injection U as ->. injection V as ->. apply PR; field. }
  assert (E3 : r3 = [3/2; 7/2]%R).
  { destruct r3 as [|u [|v [|]]]; try discriminate Lb'.
    pose proof (Hp' 0 (1/4)%R 1%R 3%R eq_refl eq_refl) as U. pose proof (Hp' 1 (3/4)%R 2%R 4%R eq_refl eq_refl) as V. simpl in U, V.
    injection U as ->. injection V as ->. apply PR; field. }
  subst r0 r3.
  destruct (Hs 0 ltac:(simpl; lia)) as (s1 & N1 & S1). destruct (Hs 1 ltac:(simpl; lia)) as (s2 & N2 & S2).
  destruct (Hs' 0 ltac:(simpl; lia)) as (s3 & N3 & S3). destruct (Hs' 1 ltac:(simpl; lia)) as (s4 & N4 & S4).
  simpl in N1, N2, N3, N4. injection N1 as <-. injection N2 as <-. injection N3 as <-. injection N4 as <-.
  unfold lower, upper in *. simpl in S1, S2, S3, S4.
  apply ST in S1; [|simpl; first [lra|lia]..]. apply ST in S2; [|simpl; first [lra|lia]..]. apply ST in S3; [|simpl; first [lra|lia]..]. apply ST in S4; [|simpl; first [lra|lia]..].
  subst. cbn [nth update].
  assert (K1 : clamp_step 1 3 (1/2) 2 = 3%R) by (transitivity (2 + 2 * (1/2))%R; [apply clamp_step_spec|]; lra).
  assert (K2 : clamp_step 2 4 (1/2) 2 = 3%R) by (transitivity (2 + 2 * (1/2))%R; [apply clamp_step_spec|]; lra).
  assert (K3 : clamp_step 1 3 (1/2) (3/2) = (9/4)%R) by (transitivity (3/2 + 3/2 * (1/2))%R; [apply clamp_step_spec|]; lra).
  assert (K4 : clamp_step 2 4 (1/2) (7/2) = 4%R) by (apply clamp_step_spec; lra).
  rewrite K1, K2, K3, K4. reflexivity.
Qed.

(** C39: output lengths that are not a multiple of D+1, and confidence levels outside (0,1), are refused. *)
Theorem C39_rejected : forall nq p X Y cl resample,
  length Y mod (p_num_vars p + 1) <> 0 \/ (cl <= 0)%R \/ (1 <= cl)%R ->
  dgsm_analyze nq p X Y cl resample = Err RuntimeError.
Proof. exact dgsm_rejected. Qed.
Print Assumptions C39_rejected.

(** C39: whatever the inputs, no reported vi, vi_std or dgsm is negative. *)
Theorem C39_nonneg : forall nq p X Y cl resample out, dgsm_analyze nq p X Y cl resample = Ok out ->
  (forall v, In (Some v) (d_vi out) -> 0 <= v)%R /\ (forall v, In (Some v) (d_vi_std out) -> 0 <= v)%R /\
  (forall v, In (Some v) (d_dgsm out) -> 0 <= v)%R.
Proof. exact dgsm_nonneg. Qed.
Print Assumptions C39_nonneg.

(** C39: the statistics are those of the squared secant slopes of the blocks; one zero step for a
    parameter makes its figures nan. *)
Theorem C39_formula : forall nq p X Y N cl resample, let D := p_num_vars p in
  length Y = N * (D + 1) -> 0 < N -> plain_problem p -> (forall j, valid_resample N (resample j)) -> (0 < cl < 1)%R ->
  block_rows D N X -> exists out, dgsm_analyze nq p X Y cl resample = Ok out /\ d_names out = p_names p /\
    length (d_vi out) = D /\ length (d_vi_std out) = D /\ length (d_dgsm out) = D /\ length (d_conf out) = D /\
    forall j, j < D ->
    ((forall i, i < N -> step_of X D i j <> 0%R) ->
     let sq := fun i => (secant X Y D i j ^ 2)%R in
     let vi := mean (map sq (seq 0 N)) in
     let V := var (base_outputs Y D N) in
     nth_error (d_vi out) j = Some (Some vi) /\ nth_error (d_vi_std out) j = Some (Some (sd (map sq (seq 0 N)))) /\
     nth_error (d_dgsm out) j = Some (if Req_EM_T V 0 then None
        else Some (vi * (upper (p_bounds p) j - lower (p_bounds p) j) ^ 2 / (V * PI ^ 2))%R) /\
     nth_error (d_conf out) j = Some (option_map (fun s => nq (1 / 2 + cl / 2) * s)%R
        (sd1 (map (fun idx => mean (map sq idx)) (resample j))))) /\
    ((exists i, i < N /\ step_of X D i j = 0%R) ->
     nth_error (d_vi out) j = Some None /\ nth_error (d_vi_std out) j = Some None /\ nth_error (d_dgsm out) j = Some None).
Proof. exact dgsm_formula. Qed.
Print Assumptions C39_formula.

(** C39: a linear model on any finite-difference design: vi = c_j^2, without spread. *)
Theorem C39_linear : forall nq p X N cl resample c0 c, plain_problem p -> 0 < N -> (0 < cl < 1)%R ->
  let D := p_num_vars p in let Y := map (fun x => c0 + linear D c x)%R X in
  difference_design D N X -> (forall j, valid_resample N (resample j) /\ 2 <= length (resample j)) ->
  var (base_outputs Y D N) <> 0%R ->
  exists out, dgsm_analyze nq p X Y cl resample = Ok out /\
    forall j, j < D ->
      nth_error (d_vi out) j = Some (Some (c j ^ 2)%R) /\ nth_error (d_vi_std out) j = Some (Some 0%R) /\
      nth_error (d_dgsm out) j = Some (Some (c j ^ 2 * (upper (p_bounds p) j - lower (p_bounds p) j) ^ 2 /
                                             (var (base_outputs Y D N) * PI ^ 2))%R) /\
      nth_error (d_conf out) j = Some (Some 0%R).
Proof. exact dgsm_linear. Qed.
Print Assumptions C39_linear.

(** C39: a parameter the model ignores gets zeros. *)
Theorem C39_ignored : forall nq p X N cl resample f j, plain_problem p -> 0 < N -> (0 < cl < 1)%R ->
  let D := p_num_vars p in let Y := map f X in
  difference_design D N X -> (forall j, valid_resample N (resample j) /\ 2 <= length (resample j)) ->
  var (base_outputs Y D N) <> 0%R -> j < D ->
  (forall a b, agree_except j a b -> f a = f b) ->
  exists out, dgsm_analyze nq p X Y cl resample = Ok out /\
    nth_error (d_vi out) j = Some (Some 0%R) /\ nth_error (d_vi_std out) j = Some (Some 0%R) /\
    nth_error (d_dgsm out) j = Some (Some 0%R) /\ nth_error (d_conf out) j = Some (Some 0%R).
Proof. exact dgsm_ignored. Qed.
Print Assumptions C39_ignored.

(** C39: changing the unit of the output multiplies vi by the square of the factor and leaves dgsm alone. *)
Theorem C39_affine : forall nq p X Y N cl resample a b out out', let D := p_num_vars p in
  plain_problem p -> block_rows D N X -> length Y = N * (D + 1) -> 0 < N -> (0 < cl < 1)%R ->
  (forall j, valid_resample N (resample j)) -> a <> 0%R ->
  dgsm_analyze nq p X Y cl resample = Ok out ->
  dgsm_analyze nq p X (map (fun y => a * y + b)%R Y) cl resample = Ok out' ->
  d_vi out' = map (option_map (Rmult (a ^ 2))) (d_vi out) /\ d_dgsm out' = d_dgsm out.
Proof. exact dgsm_affine. Qed.
Print Assumptions C39_affine.

(** C39: sampler (on the Sobol sequence of the package) and analyser together. *)
Theorem C39_pipeline : forall nq tq bits p N skip delta cl resample c0 c,
  plain_problem p -> 0 < N -> (0 < cl < 1)%R -> (0 < delta)%R ->
  enough_bits bits (N + skip) -> bits (N + skip) <= 31 -> p_num_vars p <= length directions + 1 ->
  (forall j, j < p_num_vars p -> (0 < lower (p_bounds p) j)%R) ->
  (forall j, valid_resample N (resample j) /\ 2 <= length (resample j)) ->
  let D := p_num_vars p in
  exists p' X, fd_sample nq tq (sequence_sample bits directions) p N skip delta = (p', Ok (map (map Some) X)) /\
    let Y := map (fun x => c0 + linear D c x)%R X in
    (var (base_outputs Y D N) <> 0%R ->
     exists out, dgsm_analyze nq p X Y cl resample = Ok out /\
       forall j, j < D -> nth_error (d_vi out) j = Some (Some (c j ^ 2)%R) /\ nth_error (d_vi_std out) j = Some (Some 0%R) /\
      nth_error (d_dgsm out) j = Some (Some (c j ^ 2 * (upper (p_bounds p) j - lower (p_bounds p) j) ^ 2 /
                                             (var (base_outputs Y D N) * PI ^ 2))%R) /\
      nth_error (d_conf out) j = Some (Some 0%R)).
Proof. exact fd_dgsm_pipeline. Qed.
Print Assumptions C39_pipeline.

(** C39: with skip_values = 0 the first Sobol point is the origin; a parameter whose lower bound is 0
    then has a zero step, and its indices are nan for every model. *)
Theorem C39_origin_nan : forall nq tq bits p N delta cl resample p' X Y j,
  plain_problem p -> 0 < N -> (0 < cl < 1)%R -> enough_bits bits N ->
  fd_sample nq tq (sequence_sample bits directions) p N 0 delta = (p', Ok (map (map Some) X)) ->
  length Y = N * (p_num_vars p + 1) -> (forall j, valid_resample N (resample j)) ->
  j < p_num_vars p -> lower (p_bounds p) j = 0%R ->
  exists out, dgsm_analyze nq p X Y cl resample = Ok out /\
    nth_error (d_vi out) j = Some None /\ nth_error (d_dgsm out) j = Some None.
Proof. exact origin_nan. Qed.
Print Assumptions C39_origin_nan.

(** A design of two blocks for the model 1 + 2a - 3b. *)
Definition dgsm_ex_X : list (list R) := [[2; 2]; [3; 2]; [2; 3]; [3/2; 7/2]; [9/4; 7/2]; [3/2; 4]]%R.
Example C39_example : exists out,
  dgsm_analyze (fun x => x) dgsm_ex dgsm_ex_X [-1; 1; -4; -13/2; -5; -8]%R (95/100) (fun _ => [[0; 0]; [0; 1]]) = Ok out /\
  nth_error (d_vi out) 0 = Some (Some 4%R) /\ nth_error (d_vi out) 1 = Some (Some 9%R) /\
  nth_error (d_vi_std out) 1 = Some (Some 0%R).
Proof.
  destruct (C39_linear (fun x => x) dgsm_ex dgsm_ex_X 2 (95/100) (fun _ => [[0; 0]; [0; 1]]) 1
     (fun j => match j with O => 2 | _ => -3 end)%R dgsm_ex_plain ltac:(lia) ltac:(lra)) as (out & E & H).
  - split; [reflexivity|]. intros [|[|i]] Hi; [| |lia]; eexists; (split; [reflexivity|split; [reflexivity|]]);
      intros [|[|j]] Hj; simpl in Hj; try lia; eexists; (split; [reflexivity|split; [split; [reflexivity|]|]]);
      try (intros [|[|[|k]]] Hk; simpl; try reflexivity; lia); simpl; lra.
  - intros j. split; [repeat constructor|simpl; lia].
  - intros Hv. rewrite var_zero_iff in Hv by discriminate.
    unfold base_outputs, linear in Hv. simpl in Hv. specialize (Hv _ _ (or_introl eq_refl) (or_intror (or_introl eq_refl))). lra.
  - exists out. split.
    + etransitivity; [|exact E]. f_equal. unfold dgsm_ex_X, linear. cbn -[Rplus Rmult Rdiv Rminus IZR Ropp].
      assert (LC : forall (x y : R) l l', x = y -> l = l' -> x :: l = y :: l') by (intros; subst; auto).
      repeat (apply LC; [field|]). reflexivity.
    + destruct (H 0 ltac:(simpl; lia)) as (A & _). destruct (H 1 ltac:(simpl; lia)) as (B & C & _).
      split; [etransitivity; [exact A|]; do 2 f_equal; ring|]. split; [etransitivity; [exact B|]; do 2 f_equal; ring|exact C].
Qed.
