(** * Forward errors of vi_std in double precision. *)
From Coq Require Import Reals String List Arith ZArith Bool Lia Lra Psatz Permutation.
From Flocq Require Import Core Relative.
From Verif Require Import Base Arrays ListFacts ModelGroups ModelScale ProofsScale Stats Sums ModelFast ModelMorrisAnalyze ModelDgsm SpecDgsm ModelDouble ModelDouble2 ModelDouble4 ModelDouble5 ModelDouble6 SpecDouble3 SpecError
  ProofsRidge ProofsMorris7 ProofsDouble ProofsDouble5 ProofsDouble10 ProofsDouble15 ProofsDouble16 ProofsDouble21 ProofsSingle3 ProofsError ProofsError6 ProofsError9 ProofsError10.
From Verif Require ProofsDouble22.
Import ListNotations.
Local Open Scope R_scope.

Lemma spread_off_by : forall (g E w : nat -> R) k n d l v, 1 <= d -> d <= INR (length l) <= 2 * d -> l <> [] -> (forall i, In i l -> Rabs (E i) <= w i /\ off k (w i) (E i) (g i)) ->
  Rabs (v - spread d g l) <= err n * (spread d g l + 2 * mean (map Rabs (map g l)) + bpow radix2 (-456)) ->
  off (n + k) (3 * size2 d w l + bpow radix2 (-456)) (spread d E l) v.
Proof.
  intros g E w k n d l v D1 DL NE H B. pose proof (err_pos k) as EK. assert (W0 : forall i, In i l -> 0 <= w i) by (intros i I; destruct (H i I) as (W & _); pose proof (Rabs_pos (E i)); lra).
  set (Q := size2 d w l). assert (Q0 : 0 <= Q) by apply sqrt_pos. set (S := spread d E l). assert (S0 : 0 <= S) by apply sqrt_pos.
  assert (SQ : S <= Q).
  { eapply Rle_trans; [apply spread_le; auto; lra|]. apply size2_mono; [lra|]. intros i I. rewrite (Rabs_pos_eq (w i)) by auto. apply H; auto. }
  assert (DD : size2 d (fun i => g i - E i) l <= err k * Q).
  { unfold Q. rewrite <- size2_scale by (auto; lra). apply size2_mono; [lra|]. intros i I. destruct (H i I) as (_ & O). unfold off in O. eapply Rle_trans; [exact O|]. apply Rle_abs. }
  assert (DE : size2 d (fun i => E i - g i) l = size2 d (fun i => g i - E i) l) by (unfold size2; do 2 f_equal; apply Rsum_ext; intros; ring).
  assert (S1 : spread d g l <= S + err k * Q).
  { eapply Rle_trans; [|apply Rplus_le_compat_l, DD]. eapply Rle_trans; [|apply (spread_plus d E (fun i => g i - E i)); auto; lra]. right. unfold spread, size2. do 2 f_equal.
    rewrite (map_ext (fun i => E i + (g i - E i)) g) by (intros; ring). apply Rsum_ext. intros; ring. }
  assert (S2 : S <= spread d g l + err k * Q).
  { eapply Rle_trans; [|apply Rplus_le_compat_l, DD]. rewrite <- DE. eapply Rle_trans; [|apply (spread_plus d g (fun i => E i - g i)); auto; lra]. right. unfold S, spread, size2. do 2 f_equal.
    rewrite (map_ext (fun i => g i + (E i - g i)) E) by (intros; ring). apply Rsum_ext. intros; ring. }
  assert (MA : mean (map Rabs (map g l)) <= (1 + err k) * Q).
  { rewrite map_map. apply Rle_trans with ((1 + err k) * mean (map (fun i => Rabs (w i)) l)).
    - unfold mean. rewrite !map_length. unfold Rdiv. rewrite <- Rmult_assoc. apply Rmult_le_compat_r; [left; apply Rinv_0_lt_compat; lra|]. rewrite <- Rsum_map_scal. apply Rsum_le. intros i I. destruct (H i I) as (W & O). unfold off in O.
      rewrite (Rabs_pos_eq (w i)) by auto. replace (g i) with (E i + (g i - E i)) by ring. eapply Rle_trans; [apply Rabs_triang|]. lra.
    - apply Rmult_le_compat_l; [lra|]. apply mean_abs_le. lra. }
  set (S' := spread d g l) in *. pose proof (err_add n k) as EA. pose proof (err_pos n) as EN. pose proof (bpow_gt_0 radix2 (-456)) as PB. set (q := bpow radix2 (-456)) in *.
  unfold off. replace (v - S) with ((v - S') + (S' - S)) by ring. eapply Rle_trans; [apply Rabs_triang|].
  assert (B2 : Rabs (S' - S) <= err k * Q) by (apply Rabs_le; lra).
  assert (B1 : err n * (S' + 2 * mean (map Rabs (map g l)) + q) <= err n * ((1 + err k) * (3 * Q + q))).
  { apply Rmult_le_compat_l; auto. set (e := err k) in *. nra. }
  assert (B3 : err k * Q <= err k * (3 * Q + q)) by (apply Rmult_le_compat_l; lra).
  replace (err (n + k)) with (err n * (1 + err k) + err k) by lra. set (W := 3 * Q + q) in *. nra.
Qed.

Section Dgsm.
Variables (arr : nat -> tree) (square : R -> R) (pi2 : R) (nq : R -> R).
Hypothesis A : arrangement arr.

Lemma vi_std_off : forall p X Y cl resample out j v, dgsm_analyze_fl arr square pi2 nq p X Y cl resample = Ok out ->
  (forall r x, In r X -> In x r -> double x) -> (forall y, In y Y -> double y) ->
  let D := p_num_vars p in
  let N := (length Y / (D + 1))%nat in
  (j < D)%nat -> nth_error (d_vi_std out) j = Some (Some v) ->
  (0 < N)%nat /\
  off (2 * N + 14) (3 * size2 (INR N) (fun i => (Rabs (secant X Y D i j) + tiny) ^ 2 + tiny) (seq 0 N) + bpow radix2 (-456)) (spread (INR N) (fun i => secant X Y D i j ^ 2) (seq 0 N)) v.
Proof using A.
  intros p X Y cl resample out j v H DX DY D N J V. destruct (nan_steps _ _ _ _ _ _ _ _ _ _ j H DX J) as (NN & _). fold D N in NN.
  destruct (dgsm_parts _ _ _ _ _ _ _ _ _ _ H) as (_ & _ & _ & _ & _ & _ & R). destruct (R j J) as (dx & w & ED & _ & PN & R0 & R1 & _). fold D N in ED, R1, PN, R0. split; auto.
  rewrite R1 in V. injection V as V. unfold row in V, R0. cbn [fst snd] in V, R0. unfold fsd_fl in V. destruct (all_some _) as [r|] eqn:E; [|discriminate].
  assert (ST : forall i, (i < N)%nat -> step_of X D i j <> 0).
  { intros i I Z. assert (nth_error (d_vi out) j = Some None) by (apply NN; eauto). rewrite R0 in H0. unfold fmean_fl in H0. rewrite E in H0. discriminate. }
  injection V as <-. apply all_some_inv in E.
  assert (DN : forall k, double (nth k Y 0)) by (intros k; destruct (nth_in_or_default k Y 0) as [I| ->]; [auto|apply double_0]).
  assert (LR : length r = N) by (rewrite <- (map_length Some r), <- E, map_length, seq_length; auto).
  assert (ER : r = map (fun i => nth i r 0) (seq 0 N)).
  { clear -LR. rewrite <- LR. clear. apply nth_ext with 0 0; [rewrite map_length, seq_length; auto|]. intros n Hn. rewrite nth_seq_fun, (proj2 (Nat.ltb_lt _ _)) by auto. auto. }
  assert (P1 : 1 <= INR N) by (change 1 with (INR 1); apply le_INR; lia).
  assert (G : forall i, In i (seq 0 N) -> double (nth i r 0) /\ off 9 ((Rabs (secant X Y D i j) + tiny) ^ 2 + tiny) (secant X Y D i j ^ 2) (nth i r 0)).
  { intros i I. apply in_seq in I. assert (IN : (i < N)%nat) by lia.
    assert (S : slope_at Y N D j dx i = Some (nth i r 0)).
    { assert (Q : nth_error (map (slope_at Y N D j dx) (seq 0 N)) i = nth_error (map Some r) i) by (rewrite E; auto).
      rewrite !nth_error_map', nth_error_seq, (proj2 (Nat.ltb_lt _ _) IN) in Q. cbn [option_map Nat.add] in Q. rewrite (nth_error_nth' r 0) in Q by lia. cbn in Q. congruence. }
    unfold slope_at, base_at, pert_at in S. rewrite !nth_seq_fun, (proj2 (Nat.ltb_lt _ _) IN) in S. destruct (steps_at X N D j dx i ED IN) as (_ & SD & I1 & I2 & I3 & I4). rewrite SD in S.
    replace (i * (D + 1) + (j + 1))%nat with (i * (D + 1) + 1 + j)%nat in S by lia.
    apply (slope_off _ _ (step_of X D i j) _ _ (DN _) (DN _) (ST i IN) ltac:(unfold step_of; apply minus_u; eauto) S). }
  replace (2 * N + 14)%nat with (2 * N + 5 + 9)%nat by lia.
  apply (spread_off_by (fun i => nth i r 0)); auto; rewrite ?seq_length; try lra.
  - destruct N; [lia|discriminate].
  - intros i I. split; [|apply G; auto]. pose proof tiny_pos. set (s := secant X Y D i j) in *. pose proof (Rabs_pos s). rewrite Rabs_pos_eq by apply pow2_ge_0. rewrite <- (pow2_abs s). nra.
  - pose proof (std_error arr A r) as B. rewrite LR in B. assert (SD : sqrt (var r) = spread (INR N) (fun i => nth i r 0) (seq 0 N)).
    { unfold spread, size2, var. rewrite <- ER. unfold mean at 1. rewrite map_length, LR. set (m := mean r). clearbody m.
      replace (map (fun x => (x - m) ^ 2) r) with (map (fun x => (x - m) ^ 2) (map (fun i => nth i r 0) (seq 0 N))) by (rewrite <- ER; reflexivity). rewrite map_map. reflexivity. }
    rewrite SD in B. rewrite <- ER. apply B; [intros Z; rewrite Z in LR; simpl in LR; lia|]. rewrite ER. apply Forall_forall. intros x Hx. apply in_map_iff in Hx as (i & <- & I). apply G; auto.
Qed.
End Dgsm.

(** Slopes 2 and 0. *)
Lemma slopes_std : forall square nq resample, exists out, dgsm_analyze_fl left_to_right square 9 nq ProofsDouble22.flat_p [[0]; [1]; [0]; [1]] [0; 2; 1; 1] (/ 2) resample = Ok out /\ d_vi_std out = [Some 2].
Proof.
  intros square nq resample. assert (Z : forall z, (Z.abs z <= 2 ^ 53)%Z -> fl (IZR z) = IZR z) by (intros z Hz; apply fl_double, double_Z; exact Hz).
  unfold dgsm_analyze_fl. change (length [0%R; 2%R; 1%R; 1%R] mod (p_num_vars ProofsDouble22.flat_p + 1))%nat with 0%nat. cbn [Nat.eqb negb].
  rewrite (proj2 (Rltb_true 0 (/ 2))) by lra. rewrite (proj2 (Rltb_true (/ 2) 1)) by lra. cbn [andb negb]. change (length [0%R; 2%R; 1%R; 1%R] / (p_num_vars ProofsDouble22.flat_p + 1))%nat with 2%nat. change (p_num_vars ProofsDouble22.flat_p) with 1%nat. cbn [seq mapM].
  rewrite param_eq. change (length [[0%R]; [1%R]; [0%R]; [1%R]] <? length [0%R; 2%R; 1%R; 1%R])%nat with false. cbv iota. change (steps [[0]; [1]; [0]; [1]] 2 1 0) with (Ok [fl (1 - 0); fl (1 - 0)]). cbn [bind].
  change (width (p_bounds ProofsDouble22.flat_p) 0) with (Ok (fl (1 - 0))). cbn [bind Nat.eqb map]. eexists. split; [reflexivity|]. cbn [d_vi_std map]. f_equal. unfold row. cbn [fst snd].
  unfold slope_at, base_at, pert_at. cbn [seq map nth Nat.mul Nat.add]. change (length [0%R; 2%R; 1%R; 1%R] / 2)%nat with 2%nat. cbn [seq map nth Nat.mul Nat.add map2]. rewrite !Rminus_0_r, (Z 1%Z) by discriminate.
  unfold slope2_fl, fdiv_fl. destruct (Reqb 1 0) eqn:Q; [apply Reqb_true in Q; lra|].
  replace (1 - 1) with 0 by ring. rewrite fl_0. replace (0 / 1) with 0 by field. rewrite fl_0. replace (2 - 0) with (IZR 2) by ring. rewrite !(Z 2%Z) by discriminate. replace (2 / 1) with (IZR 2) by field. rewrite (Z 2%Z) by discriminate. cbn [option_map].
  replace (2 * 2) with (IZR 4) by ring. rewrite (Z 4%Z) by discriminate. rewrite Rmult_0_l, fl_0. unfold fsd_fl. cbn [all_some option_map]. f_equal.
  assert (M : mean_fl left_to_right [4; 0] = 2).
  { unfold mean_fl, sum_fl, left_to_right. cbn [length Nat.sub comb tsum nth]. rewrite Rplus_0_r, (Z 4%Z) by discriminate. replace (4 / INR 2) with (IZR 2) by (simpl; field). apply (Z 2%Z). discriminate. }
  unfold std_fl, var_fl. rewrite M. unfold squares_fl, sum_fl, left_to_right. cbn [map length Nat.sub comb tsum nth].
  replace (4 - 2) with (IZR 2) by ring. replace (0 - 2) with (IZR (-2)) by ring. rewrite (Z 2%Z), (Z (-2)%Z) by discriminate.
  replace (2 * 2) with (IZR 4) by ring. replace (-2 * -2) with (IZR 4) by ring. rewrite (Z 4%Z) by discriminate. replace (4 + 4) with (IZR 8) by ring. rewrite (Z 8%Z) by discriminate.
  replace (8 / INR 2) with (IZR 4) by (simpl; field). rewrite (Z 4%Z) by discriminate. replace 4 with (2 * 2) by ring. rewrite sqrt_square by lra. apply (Z 2%Z). discriminate.
Qed.
