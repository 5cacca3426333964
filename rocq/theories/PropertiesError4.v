(** * Property C130 (how far standard deviations, the sigma of Morris, vi_std and the stdev of PAWN in double precision are off). *)
From Coq Require Import Reals String List Arith ZArith Bool Lia Lra.
From Flocq Require Import Core.
From Verif Require Import Base Arrays ModelGroups ModelScale SpecGroups Stats ModelFast ModelMorris ModelMorrisAnalyze ModelDgsm SpecMorris SpecDgsm
  ModelDouble ModelDouble2 ModelDouble4 ModelDouble5 ModelDouble6 ModelPawn ModelLevels ModelPawn2 SpecSobol SpecPawn SpecDouble3 SpecError ProofsDouble10 ProofsDouble14 ProofsDouble19 ProofsDouble22 ProofsError3 ProofsError9 ProofsError10 ProofsError11 ProofsPawn4 ProofsDouble8 ProofsDouble9 ProofsPawn5 ProofsPawn6 ProofsPawn7 ProofsError12.
Import ListNotations.
Local Open Scope R_scope.

(** C130: np.std of n numbers is off by at most 2n + 5 roundings of the deviation plus twice the mean magnitude, whatever the order in which the sums are taken. *)
Theorem C130_std : forall arr l, arrangement arr -> l <> [] -> List.Forall double l ->
  Rabs (std_fl arr l - sd l) <= err (2 * length l + 5) * (sd l + 2 * mean (map Rabs l) + bpow radix2 (-456)).
Proof. intros arr l A. exact (std_error arr A l). Qed.
Print Assumptions C130_std.

(** C130: and so is np.std with ddof = 1, which is a number for two values or more. *)
Theorem C130_sd1 : forall arr l s, arrangement arr -> List.Forall double l -> sd1 l = Some s ->
  exists v, std1_fl arr l = Some v /\ Rabs (v - s) <= err (2 * length l + 5) * (s + 2 * mean (map Rabs l) + bpow radix2 (-456)).
Proof.
  intros arr l s A D H. pose proof (std1_error arr A l) as B. unfold std1_fl in *. unfold sd1 in H. destruct (length l <? 2)%nat eqn:E; [discriminate|].
  eexists. split; [reflexivity|]. apply B; auto. unfold sd1. rewrite E. exact H.
Qed.
Print Assumptions C130_sd1.

(** C130: sigma of a parameter that is alone in its group is off the standard deviation of the exact elementary effects by at most 2N + D + 9 roundings of three times their root mean
    square (with divisor N - 1). *)
Theorem C130_sigma : forall S nq p ls G N X Y cl levels resample out k x j E, proper p ls G N X Y -> (2 <= levels)%nat -> (Z.of_nat levels <= 2 ^ 52)%Z -> 0 < cl < 1 -> (2 <= N)%nat ->
  snd (morris_analyze_fl S nq p X Y cl false levels resample) = Ok out -> nth_error (m_names out) k = Some x -> members_of ls x [j] ->
  arrangement (s_einsum S) -> arrangement (s_over S) -> arrangement (s_within S) -> (forall r x, In r (rows X) -> In x r -> double x) -> (forall y, In y Y -> double y) ->
  one_move (G + 1) (rows X) j -> (forall i, (i < N)%nat -> is_effect (step levels) (block (rows X) (G + 1) i) (block Y (G + 1) i) j (E i)) ->
  let Q := sqrt (Rsum (map (fun i => E i ^ 2) (seq 0 N)) / INR (N - 1)) in
  exists sigma s, nth_error (m_sigma out) k = Some (Some sigma) /\ sd1 (map E (seq 0 N)) = Some s /\
    Rabs (sigma - s) <= err (2 * N + p_num_vars p + 9) * (3 * Q + bpow radix2 (-455)).
Proof.
  intros S nq p ls G N X Y cl levels resample out k x j E P L1 L2 Hc N2 Ho Hk Hj AE AO AW DX DY OM HE Q.
  destruct (sigma_off S nq p ls G N X Y cl levels resample out k x j E P L1 L2 Hc N2 Ho Hk Hj AE AO AW DX DY OM HE) as (sigma & H1 & H2).
  exists sigma, (spread (INR (N - 1)) E (seq 0 N)). split; auto. split; [|exact H2].
  unfold sd1. rewrite map_length, seq_length, map_map. destruct (N <? 2)%nat eqn:LL; [apply Nat.ltb_lt in LL; lia|reflexivity].
Qed.
Print Assumptions C130_sigma.

(** C130: vi_std is off the standard deviation of the squares of the exact secant slopes by at most 2N + 14 roundings of three times the root mean square of these squares (up to underflow). *)
Theorem C130_vi_std : forall arr square pi2 nq p X Y cl resample out j v, arrangement arr -> dgsm_analyze_fl arr square pi2 nq p X Y cl resample = Ok out ->
  (forall r x, In r X -> In x r -> double x) -> (forall y, In y Y -> double y) ->
  let D := p_num_vars p in
  let N := (length Y / (D + 1))%nat in
  (j < D)%nat -> nth_error (d_vi_std out) j = Some (Some v) ->
  let W := fun i => (Rabs (secant X Y D i j) + tiny) ^ 2 + tiny in
  Rabs (v - sd (map (fun i => secant X Y D i j ^ 2) (seq 0 N))) <= err (2 * N + 14) * (3 * sqrt (mean (map (fun i => W i ^ 2) (seq 0 N))) + bpow radix2 (-456)).
Proof.
  intros arr square pi2 nq p X Y cl resample out j v A H DX DY D N J V W. pose proof (proj2 (vi_std_off arr square pi2 nq A p X Y cl resample out j v H DX DY J V)) as O.
  unfold off, size2, spread, size2 in O. fold D N in O. unfold sd, var, W. unfold mean at 1 3. rewrite !map_map, !map_length, seq_length. exact O.
Qed.
Print Assumptions C130_vi_std.

(** C130: the stdev that PAWN reports of a parameter is off that of the exact distances by at most four times 2 S + 6 roundings of 1, for S slices. *)
Theorem C130_pawn_std : forall arr arr2 p X Y S out, arrangement arr -> (Z.of_nat (length Y) <= 2 ^ 53)%Z -> ungrouped p -> pawn_analyze_fl p X Y S = Ok out ->
  exists out', pawn_dbl arr arr2 p X Y S = Ok out' /\ pw_names out' = pw_names out /\
    Forall2 (fun row row' => (row = repeat None 6 /\ row' = repeat None 6) \/
      exists s s', nth 5 row None = Some s /\ nth 5 row' None = Some s' /\ Rabs (s' - s) <= 4 * err (2 * S + 6)) (pw_rows out) (pw_rows out').
Proof. intros arr arr2 p X Y S out A LY HU. apply (dbl_std arr A); auto. apply ungrouped_check. auto. Qed.
Print Assumptions C130_pawn_std.

(** C130: none of them is accurate relative to itself: for 2^53 and 2^53 + 2 numpy's deviation is 2, where the exact one is the root of 2. *)
Theorem C130_relative_refuted : exists l s v, List.Forall double l /\ std1_fl left_to_right l = Some v /\ sd1 l = Some s /\ 0 < s /\ Rabs (v - s) > / 4 * s.
Proof.
  exists far, (sqrt 2), 2. destruct far_sd as (V & S). assert (B : 1 <= sqrt 2 <= 3 / 2).
  { split; [rewrite <- sqrt_1 at 1; apply sqrt_le_1_alt; lra|]. rewrite <- (sqrt_square (3 / 2)) by lra. apply sqrt_le_1_alt. lra. }
  split; [exact far_double|]. split; auto. split; auto. split; [lra|]. rewrite Rabs_pos_eq by lra. lra.
Qed.
Print Assumptions C130_relative_refuted.

(** Slopes of 2 and 0 have squares with deviation 2.  PAWN's stdev of three equal distances is 2^-56 (C123_mean_refuted).  And sigma of the six equal effects of C114_example is a positive number, although the bound of C130_sigma is taken about an exact deviation of 0. *)
Example C130_example : (exists out s, snd (morris_analyze_fl left_sums (fun _ => 2) six_p six_X six_Y (/ 2) false 2 (fun _ => [])) = Ok out /\ m_sigma out = [Some s] /\ 0 < s) /\
  sd1 [1; 1; 1; 1; 1; 1] = Some 0 /\ std1_fl left_to_right far = Some 2 /\
  (forall square nq resample, exists out, dgsm_analyze_fl left_to_right square 9 nq flat_p [[0]; [1]; [0]; [1]] [0; 2; 1; 1] (/ 2) resample = Ok out /\ d_vi_std out = [Some 2]) /\
  exists cv, pawn_dbl left_to_right left_to_right ten_p ten_X ten_Y 3 = Ok (mkPawn [[Some tenth; Some (tenth + ulp_tenth); Some tenth; Some tenth; cv; Some ulp_tenth]] ["a"%string]).
Proof.
  split; [|split; [|split; [apply far_sd|split; [exact slopes_std|exact ten_dbl]]]].
  - destruct (six_result (fun _ => 2) (/ 2) (fun _ => []) ltac:(lra)) as (out & s & E & _ & _ & _ & Sg & P). eauto.
  - assert (M : mean [1; 1; 1; 1; 1; 1] = 1) by (unfold mean, Rsum; simpl; lra). unfold sd1. rewrite M. cbn [length Nat.ltb Nat.leb Nat.sub map]. f_equal. rewrite <- sqrt_0. f_equal.
    unfold Rsum, Rdiv. cbn [fold_right]. ring.
Qed.
