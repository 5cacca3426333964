(** * Forward errors of the confidence intervals of DGSM in double precision. *)
From Coq Require Import Reals String List Arith ZArith Bool Lia Lra Psatz Permutation.
From Flocq Require Import Core Relative.
From Verif Require Import Base Arrays ListFacts ModelGroups ModelScale ProofsScale Stats Sums ModelFast ModelMorrisAnalyze ModelDgsm SpecDgsm ModelDouble ModelDouble2 ModelDouble4 ModelDouble5 ModelDouble6 SpecDouble3 SpecError SpecError3
  ProofsRidge ProofsMorris7 ProofsDouble ProofsDouble5 ProofsDouble10 ProofsDouble15 ProofsDouble16 ProofsDouble21 ProofsSingle3 ProofsError ProofsError6 ProofsError9 ProofsError10 ProofsError11 ProofsError13.
From Verif Require ProofsDouble22.
Import ListNotations.
Local Open Scope R_scope.

Section Dgsm.
Variables (arr : nat -> tree) (square : R -> R) (pi2 : R) (nq : R -> R).
Hypothesis A : arrangement arr.

Lemma dgsm_conf_off : forall p X Y cl resample out j v, dgsm_analyze_fl arr square pi2 nq p X Y cl resample = Ok out ->
  (forall r x, In r X -> In x r -> double x) -> (forall y, In y Y -> double y) ->
  let D := p_num_vars p in
  let N := (length Y / (D + 1))%nat in
  let idxs := resample j in
  (j < D)%nat -> (forall idx, In idx idxs -> length idx = N /\ forall t, In t idx -> (t < N)%nat) -> nth_error (d_conf out) j = Some (Some v) ->
  let z := nq (fl (/ 2 + fl (cl / 2))) in
  let B := map (fun idx => mean (map (fun i => secant X Y D i j ^ 2) idx)) idxs in
  let W := map (fun idx => mean (map (fun i => (Rabs (secant X Y D i j) + tiny) ^ 2 + tiny) idx)) idxs in
  exists s, sd1 B = Some s /\ off (2 * length idxs + N + 15) (Rabs z * (3 * rms W + bpow radix2 (-456)) + tiny) (z * s) v.
Proof using A.
  intros p X Y cl resample out j v H DX DY D N idxs J HI V z B W.
  destruct (dgsm_parts _ _ _ _ _ _ _ _ _ _ H) as (_ & _ & _ & _ & _ & _ & Q). destruct (Q j J) as (dx & w & ED & _ & PN & _ & _ & _ & R1). fold D N in ED, R1, PN. clear Q.
  rewrite R1 in V. injection V as V. unfold row in V. cbn [fst snd] in V. fold idxs in V. unfold fsd1_fl in V. destruct (all_some _) as [r|] eqn:E; [|discriminate]. fold z in V.
  destruct (std1_fl arr r) as [c|] eqn:EC; [|discriminate]. cbn [fmul_fl] in V. injection V as <-. apply all_some_inv in E. set (R := length idxs). pose proof tiny_pos as T.
  assert (DN : forall k, double (nth k Y 0)) by (intros k; destruct (nth_in_or_default k Y 0) as [I| ->]; [auto|apply double_0]).
  assert (LR : length r = R) by (rewrite <- (map_length Some r), <- E, map_length; auto).
  assert (R2 : (2 <= R)%nat). { unfold std1_fl in EC. rewrite LR in EC. destruct (R <? 2)%nat eqn:L; [discriminate|]. apply Nat.ltb_ge in L. auto. }
  set (g := fun k => nth k r 0). set (Bf := fun k => mean (map (fun i => secant X Y D i j ^ 2) (nth k idxs []))).
  set (Wf := fun k => mean (map (fun i => (Rabs (secant X Y D i j) + tiny) ^ 2 + tiny) (nth k idxs []))).
  assert (ER : r = map g (seq 0 R)).
  { unfold g. rewrite <- LR. apply nth_ext with 0 0; [rewrite map_length, seq_length; auto|]. intros n Hn. rewrite nth_seq_fun, (proj2 (Nat.ltb_lt _ _)) by auto. auto. }
  assert (EB : B = map Bf (seq 0 R)) by apply (indexed (fun idx => mean (map (fun i => secant X Y D i j ^ 2) idx))).
  assert (EW : W = map Wf (seq 0 R)) by apply (indexed (fun idx => mean (map (fun i => (Rabs (secant X Y D i j) + tiny) ^ 2 + tiny) idx))).
  assert (GB : forall k, In k (seq 0 R) -> double (g k) /\ Rabs (Bf k) <= Wf k /\ off (9 + N) (Wf k) (Bf k) (g k)).
  { intros k I. apply in_seq in I. assert (K : (k < R)%nat) by lia. assert (II : In (nth k idxs []) idxs) by (apply nth_In; fold R; lia). destruct (HI _ II) as (L & IL).
    assert (F : fmean_fl arr (map (slope_at Y N D j dx) (nth k idxs [])) = Some (g k)).
    { assert (Q : nth_error (map (fun idx => fmean_fl arr (map (slope_at Y N D j dx) idx)) idxs) k = nth_error (map Some r) k) by (rewrite E; auto).
      rewrite !nth_error_map', (nth_error_nth' idxs []), (nth_error_nth' r 0) in Q by (fold R; lia). cbn [option_map] in Q. injection Q as Q. exact Q. }
    unfold fmean_fl in F. destruct (all_some _) as [q|] eqn:EQ; [|discriminate]. cbn [option_map] in F. injection F as F. apply all_some_inv in EQ. set (idx := nth k idxs []) in *.
    assert (NI : idx <> []) by (intros Z; rewrite Z in L; simpl in L; lia).
    set (h := fun i => match slope_at Y N D j dx i with Some y => y | None => 0 end).
    assert (EH : q = map h idx).
    { clear -EQ. revert q EQ. induction idx as [|i l IH]; intros [|y q] EQ; try discriminate; cbn [map] in *; auto. injection EQ as E1 E2. f_equal; auto. unfold h. rewrite E1. reflexivity. }
    assert (HS : forall i, In i idx -> slope_at Y N D j dx i = Some (h i)).
    { intros i Hi. assert (IS : In (slope_at Y N D j dx i) (map Some q)) by (rewrite <- EQ; apply in_map; auto). apply in_map_iff in IS as (y & Ey & _). unfold h. rewrite <- Ey. reflexivity. }
    assert (HO : forall i, In i idx -> double (h i) /\ Rabs (secant X Y D i j ^ 2) + tiny <= (Rabs (secant X Y D i j) + tiny) ^ 2 + tiny /\ off 9 ((Rabs (secant X Y D i j) + tiny) ^ 2 + tiny) (secant X Y D i j ^ 2) (h i)).
    { intros i Hi. pose proof (IL i Hi) as IN. pose proof (HS i Hi) as S. unfold slope_at, base_at, pert_at in S. rewrite !nth_seq_fun, (proj2 (Nat.ltb_lt _ _) IN) in S.
      destruct (steps_at X N D j dx i ED IN) as (_ & SD & I1 & I2 & I3 & I4). rewrite SD in S.
      replace (i * (D + 1) + (j + 1))%nat with (i * (D + 1) + 1 + j)%nat in S by lia.
      assert (ST : step_of X D i j <> 0).
      { intros Z. unfold slope2_fl, fdiv_fl in S. rewrite Z, fl_0 in S. unfold Reqb in S. destruct (Req_EM_T 0 0) as [_|NZ]; [discriminate|congruence]. }
      destruct (slope_off _ _ (step_of X D i j) _ _ (DN _) (DN _) ST ltac:(unfold step_of; apply minus_u; eauto) S) as (Dv & O).
      change ((nth (i * (D + 1) + 1 + j) Y 0 - nth (i * (D + 1)) Y 0) / step_of X D i j) with (secant X Y D i j) in O. split; auto. split; auto.
      set (s := secant X Y D i j) in *. pose proof (Rabs_pos s). rewrite Rabs_pos_eq by apply pow2_ge_0. rewrite <- (pow2_abs s). nra. }
    split; [rewrite <- F; apply double_fl|]. split.
    - unfold Bf, Wf. fold idx. rewrite Rabs_pos_eq by (apply mean_nonneg; intros x Hx; apply in_map_iff in Hx as (t & <- & _); apply pow2_ge_0).
      unfold mean. rewrite !map_length. unfold Rdiv. apply Rmult_le_compat_r; [left; apply Rinv_0_lt_compat; apply (INR_length_pos nat idx NI)|]. apply Rsum_le. intros i Hi. destruct (HO i Hi) as (_ & Q & _).
      rewrite Rabs_pos_eq in Q by apply pow2_ge_0. lra.
    - rewrite <- F, EH. unfold Bf, Wf. fold idx. rewrite <- L. apply (mean_off arr A nat (fun i => secant X Y D i j ^ 2) h (fun i => (Rabs (secant X Y D i j) + tiny) ^ 2 + tiny) 9); auto. }
  assert (D1 : 1 <= INR (R - 1)) by (change 1 with (INR 1); apply le_INR; lia). assert (DR : INR R = INR (R - 1) + 1) by (rewrite <- S_INR; f_equal; lia).
  set (s := spread (INR (R - 1)) Bf (seq 0 R)). assert (SB : sd1 B = Some s).
  { unfold sd1. rewrite EB, map_length, seq_length. destruct (R <? 2)%nat eqn:LL; [apply Nat.ltb_lt in LL; lia|]. rewrite map_map. reflexivity. }
  exists s. split; auto.
  assert (O : off (2 * R + 5 + (9 + N)) (3 * rms W + bpow radix2 (-456)) s c).
  { replace (rms W) with (size2 (INR (R - 1)) Wf (seq 0 R)) by (unfold rms, size2; rewrite EW, map_map, map_length, seq_length; reflexivity).
    apply (spread_off_by g); auto; rewrite ?seq_length; try lra; [destruct R; [lia|discriminate]|intros i I; destruct (GB i I) as (_ & Q); exact Q|].
    assert (SG : sd1 r = Some (spread (INR (R - 1)) g (seq 0 R))).
    { unfold sd1. rewrite LR. destruct (R <? 2)%nat eqn:LL; [apply Nat.ltb_lt in LL; lia|]. f_equal. unfold spread, size2. rewrite <- ER. set (m := mean r). clearbody m. rewrite ER, map_map. reflexivity. }
    pose proof (std1_error arr A r c _ ltac:(rewrite ER; apply Forall_forall; intros x Hx; apply in_map_iff in Hx as (k & <- & K); apply GB; auto) EC SG) as Q. rewrite LR in Q. rewrite <- ER. exact Q. }
  pose proof (bpow_gt_0 radix2 (-456)) as PB. assert (W0 : 0 <= rms W) by apply sqrt_pos. pose proof (Rabs_pos z) as PZ.
  assert (SP : s <= rms W).
  { replace (rms W) with (size2 (INR (R - 1)) Wf (seq 0 R)) by (unfold rms, size2; rewrite EW, map_map, map_length, seq_length; reflexivity).
    eapply Rle_trans; [apply spread_le; [lra|destruct R; [lia|discriminate]]|]. apply size2_mono; [lra|]. intros k K. destruct (GB k K) as (_ & Q & _). eapply Rle_trans; [exact Q|apply Rle_abs]. }
  replace (2 * R + N + 15)%nat with (S (2 * R + 5 + (9 + N))) by lia. apply off_fl.
  - rewrite Rabs_mult, (Rabs_pos_eq s) by apply sqrt_pos. apply Rplus_le_compat_r. apply Rmult_le_compat_l; lra.
  - apply off_weaken with (2 * R + 5 + (9 + N))%nat (Rabs z * (3 * rms W + bpow radix2 (-456))); auto; [apply Rmult_le_pos; lra|lra|apply off_scale; exact O].
Qed.
End Dgsm.

(** Squared slopes 4 and 0, resampled to means 4, 2 and 0. *)
Lemma slopes_conf : forall square, exists out, dgsm_analyze_fl left_to_right square 9 (fun _ => 2) ProofsDouble22.flat_p [[0]; [1]; [0]; [1]] [0; 2; 1; 1] (/ 2) (fun _ => [[0; 0]; [0; 1]; [1; 1]]%nat) = Ok out /\ d_conf out = [Some 4].
Proof.
  intros square. assert (Z : forall z, (Z.abs z <= 2 ^ 53)%Z -> fl (IZR z) = IZR z) by (intros z Hz; apply fl_double, double_Z; exact Hz).
  unfold dgsm_analyze_fl. change (length [0%R; 2%R; 1%R; 1%R] mod (p_num_vars ProofsDouble22.flat_p + 1))%nat with 0%nat. cbn [Nat.eqb negb].
  rewrite (proj2 (Rltb_true 0 (/ 2))) by lra. rewrite (proj2 (Rltb_true (/ 2) 1)) by lra. cbn [andb negb]. change (length [0%R; 2%R; 1%R; 1%R] / (p_num_vars ProofsDouble22.flat_p + 1))%nat with 2%nat. change (p_num_vars ProofsDouble22.flat_p) with 1%nat. cbn [seq mapM].
  rewrite param_eq. change (length [[0%R]; [1%R]; [0%R]; [1%R]] <? length [0%R; 2%R; 1%R; 1%R])%nat with false. cbv iota. change (steps [[0]; [1]; [0]; [1]] 2 1 0) with (Ok [fl (1 - 0); fl (1 - 0)]). cbn [bind].
  change (width (p_bounds ProofsDouble22.flat_p) 0) with (Ok (fl (1 - 0))). cbn [bind Nat.eqb map]. eexists. split; [reflexivity|]. cbn [d_conf map]. f_equal. unfold row. cbn [fst snd].
  change (length [0%R; 2%R; 1%R; 1%R] / 2)%nat with 2%nat.
  assert (S0 : slope_at [0; 2; 1; 1] 2 1 0 [fl (1 - 0); fl (1 - 0)] 0 = Some 4).
  { unfold slope_at, base_at, pert_at. cbn [seq map nth Nat.mul Nat.add]. rewrite !Rminus_0_r, (Z 1%Z) by discriminate. unfold slope2_fl, fdiv_fl. destruct (Reqb 1 0) eqn:Q; [apply Reqb_true in Q; lra|].
    rewrite ?Rminus_0_r, !(Z 2%Z) by discriminate. replace (2 / 1) with (IZR 2) by field. rewrite (Z 2%Z) by discriminate. cbn [option_map]. replace (2 * 2) with (IZR 4) by ring. rewrite (Z 4%Z) by discriminate. reflexivity. }
  assert (S1 : slope_at [0; 2; 1; 1] 2 1 0 [fl (1 - 0); fl (1 - 0)] 1 = Some 0).
  { unfold slope_at, base_at, pert_at. cbn [seq map nth Nat.mul Nat.add]. rewrite !Rminus_0_r, (Z 1%Z) by discriminate. unfold slope2_fl, fdiv_fl. destruct (Reqb 1 0) eqn:Q; [apply Reqb_true in Q; lra|].
    replace (1 - 1) with 0 by ring. rewrite fl_0. replace (0 / 1) with 0 by field. rewrite fl_0. cbn [option_map]. rewrite Rmult_0_l, fl_0. reflexivity. }
  cbn [map]. rewrite !S0, !S1. unfold fmean_fl. cbn [all_some option_map].
  assert (M : forall a b : BinNums.Z, (0 <= a <= 4)%Z -> (0 <= b <= 4)%Z -> forall c : BinNums.Z, (a + b = 2 * c)%Z -> mean_fl left_to_right [IZR a; IZR b] = IZR c).
  { intros a b Ha Hb c Hc. unfold mean_fl, sum_fl, left_to_right. cbn [length Nat.sub comb tsum nth]. rewrite <- plus_IZR, Z by lia. rewrite Hc, mult_IZR. replace (2 * IZR c / INR 2) with (IZR c) by (simpl; field). apply Z. lia. }
  rewrite (M 4%Z 4%Z ltac:(lia) ltac:(lia) 4%Z eq_refl), (M 4%Z 0%Z ltac:(lia) ltac:(lia) 2%Z eq_refl), (M 0%Z 0%Z ltac:(lia) ltac:(lia) 0%Z eq_refl).
  unfold fsd1_fl. cbn [all_some option_map]. unfold std1_fl. cbn [length Nat.ltb Nat.leb Nat.sub].
  assert (M3 : mean_fl left_to_right [4; 2; 0] = 2).
  { unfold mean_fl, sum_fl, left_to_right. cbn [length Nat.sub comb tsum nth]. replace (4 + 2) with (IZR 6) by ring. rewrite (Z 6%Z) by discriminate. replace (6 + 0) with (IZR 6) by ring. rewrite (Z 6%Z) by discriminate.
    replace (6 / INR 3) with (IZR 2) by (simpl; field). apply (Z 2%Z). discriminate. }
  rewrite M3. unfold squares_fl, sum_fl, left_to_right. cbn [map length Nat.sub comb tsum nth]. replace (0 - 2) with (IZR (-2)) by ring. replace (2 - 2) with (IZR 0) by ring. replace (4 - 2) with (IZR 2) by ring.
  rewrite (Z (-2)%Z), (Z 0%Z), (Z 2%Z) by discriminate. replace (-2 * -2) with (IZR 4) by ring. replace (0 * 0) with (IZR 0) by ring. replace (2 * 2) with (IZR 4) by ring. rewrite (Z 4%Z), (Z 0%Z) by discriminate.
  rewrite Rplus_0_r, (Z 4%Z) by discriminate. replace (4 + 4) with (IZR 8) by ring. rewrite (Z 8%Z) by discriminate. replace (8 / INR 2) with (IZR 4) by (simpl; field). rewrite (Z 4%Z) by discriminate.
  replace (sqrt 4) with (IZR 2) by (replace 4 with (2 * 2) by ring; rewrite sqrt_square; lra). rewrite (Z 2%Z) by discriminate. cbn [fmul_fl]. replace (2 * 2) with (IZR 4) by ring. rewrite (Z 4%Z) by discriminate. reflexivity.
Qed.
