(** * The DGSM analysis in double precision: outputs multiplied by a power of two, constant base outputs. *)
From Coq Require Import Reals String List Arith ZArith Bool Lia Lra Permutation.
From Flocq Require Import Core.
From Verif Require Import Base Arrays ListFacts ModelGroups ModelScale ProofsScale Stats ModelFast ModelMorrisAnalyze ModelDgsm SpecDgsm
  ModelDouble ModelDouble4 ModelDouble5 ModelDouble6 SpecDouble3 SpecDouble4 ProofsDouble ProofsDouble5 ProofsDouble8 ProofsDouble9 ProofsDouble10 ProofsDouble11 ProofsDouble12 ProofsDouble14
  ProofsDouble15 ProofsDouble16 ProofsDouble17 ProofsDouble18 ProofsDouble19 ProofsDouble20 ProofsDouble21.
Import ListNotations.
Local Open Scope R_scope.

Lemma sized_fine : forall e x, sized e x -> fine e x.
Proof. intros e x [D H]. split; auto. unfold big. rewrite <- powerRZ_2. exact H. Qed.

Lemma var_step : forall k e arr l, (-300 <= e)%Z -> (Z.of_nat (length l) <= 2 ^ 53)%Z -> (forall x, In x l -> scales k e x) ->
  var_fl arr (map (Rmult (bpow radix2 k)) l) = bpow radix2 (2 * k) * var_fl arr l /\ scales (2 * k) (2 * e - 419) (var_fl arr l).
Proof.
  intros k e arr l He N2 H. unfold var_fl. rewrite map_length.
  destruct (mean_step k e arr l ltac:(lia) N2 H) as (E & M). rewrite E. set (mu := mean_fl arr l) in *. set (c := bpow radix2 k) in *.
  assert (SQ : forall y, In y l -> fl (fl (c * y - c * mu) * fl (c * y - c * mu)) = bpow radix2 (2 * k) * fl (fl (y - mu) * fl (y - mu)) /\ scales (2 * k) (2 * e - 314) (fl (fl (y - mu) * fl (y - mu)))).
  { intros y Hy. destruct (minus_step k (e - 105) y mu ltac:(lia) (scales_weaken k e (e - 105) y ltac:(lia) (H y Hy)) M) as (D & [D1 D2]). fold c in D, D2. rewrite D. set (d := fl (y - mu)) in *.
    replace (c * d * (c * d)) with (bpow radix2 (2 * k) * (d * d)) by (replace (2 * k)%Z with (k + k)%Z by ring; rewrite bpow_plus; unfold c; ring).
    apply fl_step; [lia| |].
    - replace (2 * e - 314)%Z with (2 * (e - 105 - 52))%Z by ring. apply big_square, D1.
    - replace (bpow radix2 (2 * k) * (d * d)) with (c * d * (c * d)) by (replace (2 * k)%Z with (k + k)%Z by ring; rewrite bpow_plus; unfold c; ring).
      replace (2 * e - 314)%Z with (2 * (e - 105 - 52))%Z by ring. apply big_square, D2. }
  assert (L : squares_fl (c * mu) (map (Rmult c) l) = map (Rmult (bpow radix2 (2 * k))) (squares_fl mu l)).
  { unfold squares_fl. rewrite !map_map. apply map_ext_in. intros y Hy. apply SQ; auto. }
  destruct (sum_step (2 * k) (2 * e - 314) arr (squares_fl mu l) ltac:(lia)) as (SE & S1 & S2).
  { intros x Hx. apply in_map_iff in Hx. destruct Hx as (y & <- & Hy). apply SQ; auto. }
  rewrite L, SE. replace (2 * e - 419)%Z with (2 * e - 314 - 52 - 53)%Z by ring. apply quot_step; auto. lia.
Qed.
Lemma std_step : forall k e arr l, (-300 <= e)%Z -> (Z.of_nat (length l) <= 2 ^ 53)%Z -> (forall x, In x l -> scales k e x) -> std_fl arr (map (Rmult (bpow radix2 k)) l) = bpow radix2 k * std_fl arr l.
Proof.
  intros k e arr l He N2 H. destruct (var_step k e arr l He N2 H) as (E & [Q1 Q2]). unfold std_fl. rewrite E. set (v := var_fl arr l) in *.
  assert (RE : sqrt (bpow radix2 (2 * k) * v) = bpow radix2 k * sqrt v).
  { rewrite sqrt_mult_alt by apply bpow_ge_0. f_equal. replace (2 * k)%Z with (k + k)%Z by ring. rewrite bpow_plus. apply sqrt_square, bpow_ge_0. }
  rewrite RE. apply (fl_step k (e - 210)); [lia| |].
  - apply (big_sqrt (2 * e - 419)); [lia|apply Q1].
  - rewrite <- RE. apply (big_sqrt (2 * e - 419)); [lia|apply Q2].
Qed.

Section Unit.
Variables (arr : nat -> tree) (square : R -> R) (pi2 : R) (nq : R -> R).
Variables (k a b : Z).
Hypothesis Pb : (0 <= b)%Z.
Hypothesis Pab : (a + b <= 40)%Z.

Lemma slope_step : forall y q d, scales k (- a) y -> scales k (- a) q -> Rabs d <= bpow radix2 b ->
  slope2_fl (bpow radix2 k * y) (bpow radix2 k * q) d = times (bpow radix2 (2 * k)) (slope2_fl y q d) /\ fscales (2 * k) (-184) (slope2_fl y q d).
Proof.
  intros y q d Y Q D. set (c := bpow radix2 k). unfold slope2_fl. destruct (minus_step k (- a) q y ltac:(lia) Q Y) as (E & [F1 F2]). fold c in E, F2. rewrite E. set (s := fl (q - y)) in *.
  unfold fdiv_fl. destruct (Reqb d 0) eqn:Z; [split; [reflexivity|exact I]|]. apply Reqb_false in Z. assert (P : 0 < Rabs d) by (apply Rabs_pos_lt; auto).
  assert (DB : forall x, big (- a - 52) x -> big (-92) (x / d)).
  { intros x [->|B]; [left; unfold Rdiv; ring|right]. unfold Rdiv. rewrite Rabs_mult, Rabs_inv. apply Rmult_le_reg_r with (Rabs d); auto. rewrite Rmult_assoc, Rinv_l, Rmult_1_r by lra.
    apply Rle_trans with (bpow radix2 (-92) * bpow radix2 b); [apply Rmult_le_compat_l; auto; apply bpow_ge_0|]. rewrite <- bpow_plus. eapply Rle_trans; [|exact B]. apply bpow_le. lia. }
  replace (c * s / d) with (c * (s / d)) by (unfold Rdiv; ring). destruct (fl_step k (-92) (s / d) ltac:(lia)) as (E2 & [G1 G2]).
  - apply DB, F1.
  - replace (bpow radix2 k * (s / d)) with (c * s / d) by (unfold c, Rdiv; ring). apply DB, F2.
  - fold c in E2, G2. rewrite E2. cbn [option_map times]. set (t := fl (s / d)) in *.
    assert (C2 : bpow radix2 (2 * k) * (t * t) = c * t * (c * t)) by (replace (2 * k)%Z with (k + k)%Z by ring; rewrite bpow_plus; unfold c; ring).
    destruct (fl_step (2 * k) (-184) (t * t) ltac:(lia)) as (E3 & G3).
    + apply (big_square (-92)), G1.
    + rewrite C2. apply (big_square (-92)), G2.
    + rewrite <- C2. split; [f_equal; exact E3|exact G3].
Qed.

Lemma scaled_at : forall c Y i, nth i (map (Rmult c) Y) 0 = c * nth i Y 0.
Proof. intros c Y i. apply nth_scaled. Qed.

Lemma row_step : forall Y N D cl res j dx w, (forall y, In y Y -> scales k (- a) y) -> (forall i, (i < N)%nat -> Rabs (nth i dx 0) <= bpow radix2 b) -> length dx = N ->
  (Z.of_nat N <= 2 ^ 53)%Z -> (Z.of_nat (length res) <= 2 ^ 53)%Z -> (forall idx, In idx res -> (Z.of_nat (length idx) <= 2 ^ 53)%Z) ->
  big (-100) (square w) -> 1 <= pi2 -> big (-100) (nq (fl (/ 2 + fl (cl / 2)))) ->
  let r := row arr square pi2 nq Y N D cl res j dx w in
  let f := times (bpow radix2 (2 * k)) in
  row arr square pi2 nq (map (Rmult (bpow radix2 k)) Y) N D cl res j dx w = (f (fst (fst (fst r))), f (snd (fst (fst r))), snd (fst r), f (snd r)).
Proof.
  intros Y N D cl res j dx w HY HD LD N2 R2 I2 SQ P2 Z. cbv zeta. set (c := bpow radix2 k). set (c2 := bpow radix2 (2 * k)).
  assert (Z0 : scales k (- a) 0) by (split; [apply fine_0|rewrite Rmult_0_r; apply fine_0]).
  assert (HN : forall i, scales k (- a) (nth i Y 0)) by (intros i; destruct (nth_in_or_default i Y 0) as [J|J]; [auto|rewrite J; auto]).
  assert (B : base_at (map (Rmult c) Y) N D = map (Rmult c) (base_at Y N D)) by (unfold base_at; rewrite map_map; apply map_ext; intros i; apply scaled_at).
  assert (Q : pert_at (map (Rmult c) Y) N D j = map (Rmult c) (pert_at Y N D j)) by (unfold pert_at; rewrite map_map; apply map_ext; intros i; apply scaled_at).
  assert (HB : forall x, In x (base_at Y N D) -> scales k (- a) x) by (intros x Hx; apply in_map_iff in Hx; destruct Hx as (i & <- & _); auto).
  assert (S : forall i, slope_at (map (Rmult c) Y) N D j dx i = times c2 (slope_at Y N D j dx i) /\ fscales (2 * k) (-184) (slope_at Y N D j dx i)).
  { intros i. unfold slope_at. rewrite B, Q, !scaled_at. apply slope_step.
    - unfold base_at. rewrite nth_seq_fun. destruct (i <? N)%nat; auto.
    - unfold pert_at. rewrite nth_seq_fun. destruct (i <? N)%nat; auto.
    - destruct (Nat.lt_ge_cases i N) as [L|L]; auto. rewrite nth_overflow by lia. rewrite Rabs_R0. apply bpow_ge_0. }
  assert (SM : forall l, map (slope_at (map (Rmult c) Y) N D j dx) l = map (times c2) (map (slope_at Y N D j dx) l)) by (intros l; rewrite map_map; apply map_ext; intros i; apply S).
  assert (SF : forall l v, In v (map (slope_at Y N D j dx) l) -> fscales (2 * k) (-184) v) by (intros l v V; apply in_map_iff in V; destruct V as (i & <- & _); apply S).
  assert (ML : forall l, (Z.of_nat (length l) <= 2 ^ 53)%Z -> fmean_fl arr (map (times c2) (map (slope_at Y N D j dx) l)) = times c2 (fmean_fl arr (map (slope_at Y N D j dx) l)) /\
    fscales (2 * k) (-289) (fmean_fl arr (map (slope_at Y N D j dx) l))).
  { intros l Ll. apply (fmean_step (2 * k) (-184)); [lia|rewrite map_length; auto|eauto]. }
  destruct (ML (seq 0 N) ltac:(rewrite seq_length; auto)) as (MV & FV).
  unfold row. cbn [fst snd]. rewrite SM, MV. f_equal; [f_equal; [f_equal|]|].
  - unfold fsd_fl. rewrite all_some_times. destruct (all_some _) as [r|] eqn:E; [|reflexivity]. cbn [option_map times]. f_equal.
    apply (std_step (2 * k) (-184)); [lia|rewrite (all_some_length _ _ E), map_length, seq_length; auto|]. eapply in_all_some; eauto.
  - destruct (fmean_fl arr (map (slope_at Y N D j dx) (seq 0 N))) as [v|]; [|reflexivity]. cbn [times option_map]. destruct FV as [V1 V2]. rewrite B.
    destruct (var_step k (- a) arr (base_at Y N D) ltac:(lia)) as (VE & [W1 W2]); [unfold base_at; rewrite map_length, seq_length; auto|auto|]. fold c in VE. rewrite VE. fold c2 in VE, W2 |- *. fold c2 in V2.
    set (V := var_fl arr (base_at Y N D)) in *.
    assert (NB : forall x, fine (-289) x -> big (-389) (x * square w)).
    { intros x [_ [->|X]]; [left; ring|]. destruct SQ as [->|SQ]; [left; ring|right]. rewrite Rabs_mult. change (-389)%Z with (-289 + -100)%Z. rewrite bpow_plus. apply Rmult_le_compat; auto; apply bpow_ge_0. }
    assert (DB : forall x, fine (2 * - a - 419) x -> big (-600) (x * pi2)).
    { intros x [_ [->|X]]; [left; ring|right]. rewrite Rabs_mult, (Rabs_pos_eq pi2) by lra. assert (bpow radix2 (-600) <= bpow radix2 (2 * - a - 419)) by (apply bpow_le; lia). pose proof (Rabs_pos x). nra. }
    replace (c2 * v * square w) with (c2 * (v * square w)) by ring. replace (c2 * V * pi2) with (c2 * (V * pi2)) by ring.
    destruct (fl_step (2 * k) (-389) (v * square w) ltac:(lia)) as (NE & _); [auto|fold c2; rewrite <- Rmult_assoc; auto|].
    destruct (fl_step (2 * k) (-600) (V * pi2) ltac:(lia)) as (DE & _); [auto|fold c2; rewrite <- Rmult_assoc; auto|].
    fold c2 in NE, DE. rewrite NE, DE. assert (CP : 0 < c2) by apply bpow_gt_0. unfold fdiv_fl. set (d := fl (V * pi2)). set (n := fl (v * square w)).
    destruct (Reqb d 0) eqn:Ed; [apply Reqb_true in Ed; rewrite Ed, Rmult_0_r, (proj2 (Reqb_true 0 0)); auto|]. apply Reqb_false in Ed.
    rewrite (proj2 (Reqb_false (c2 * d) 0)) by (intros Z1; apply Rmult_integral in Z1; lra). do 2 f_equal. field. split; lra.
  - rewrite (map_ext_in _ (fun idx => times c2 (fmean_fl arr (map (slope_at Y N D j dx) idx)))) by (intros idx Hi; rewrite SM; apply ML; auto).
    rewrite <- (map_map (fun idx => fmean_fl arr (map (slope_at Y N D j dx) idx)) (times c2)).
    destruct (fsd1_step (2 * k) (-289) arr (map (fun idx => fmean_fl arr (map (slope_at Y N D j dx) idx)) res)) as (E & F); [lia|rewrite map_length; auto| |].
    { intros v V. apply in_map_iff in V. destruct V as (idx & <- & Hi). apply ML; auto. }
    fold c2 in E. rewrite E. match type of F with fscales _ _ ?t => destruct t as [s|] end; [|reflexivity]. cbn [times option_map fmul_fl]. f_equal. set (z := nq _) in *. destruct F as [F1 F2].
    assert (ZB : forall x, fine (-289 - 210) x -> big (-599) (z * x)).
    { intros x [_ [->|X]]; [left; ring|]. destruct Z as [->|Z]; [left; ring|right]. rewrite Rabs_mult. change (-599)%Z with (-100 + (-289 - 210))%Z. rewrite bpow_plus. apply Rmult_le_compat; auto; apply bpow_ge_0. }
    replace (z * (c2 * s)) with (c2 * (z * s)) by ring. apply (fl_step (2 * k) (-599)); [lia|auto|]. replace (bpow radix2 (2 * k) * (z * s)) with (z * (bpow radix2 (2 * k) * s)) by ring. auto.
Qed.
End Unit.

Lemma mapM_map_ok : forall A B C (g : B -> C) (f : A -> result B) l, mapM (fun x => map_ok g (f x)) l = map_ok (map g) (mapM f l).
Proof. intros A B C g f l. induction l as [|x l IH]; cbn; auto. destruct (f x); cbn; auto. rewrite IH. destruct (mapM f l); reflexivity. Qed.

Lemma dgsm_unit : forall e a b arr square pi2 nq p X Y cl resample, (0 <= b)%Z -> (a + b <= 40)%Z ->
  let D := p_num_vars p in
  let c := powerRZ 2 e in
  (forall y, In y Y -> sized (- a) y /\ sized (- a) (c * y)) ->
  (forall i j, (i < length Y / (D + 1))%nat -> (j < D)%nat -> Rabs (step_of X D i j) <= powerRZ 2 b) ->
  (Z.of_nat (length Y) <= 2 ^ 53)%Z ->
  (forall j, (Z.of_nat (length (resample j)) <= 2 ^ 53)%Z /\ forall idx, In idx (resample j) -> (Z.of_nat (length idx) <= 2 ^ 53)%Z) ->
  (forall d, In d (p_bounds p) -> let w := square (fl (nth 1 d 0 - nth 0 d 0)) in w = 0 \/ powerRZ 2 (-100) <= Rabs w) -> 1 <= pi2 ->
  (let z := nq (fl (/ 2 + fl (cl / 2))) in z = 0 \/ powerRZ 2 (-100) <= Rabs z) ->
  dgsm_analyze_fl arr square pi2 nq p X (map (Rmult c) Y) cl resample =
  match dgsm_analyze_fl arr square pi2 nq p X Y cl resample with
  | Ok o => Ok (mkDgsm (map (times (c * c)) (d_vi o)) (map (times (c * c)) (d_vi_std o)) (d_dgsm o) (map (times (c * c)) (d_conf o)) (d_names o))
  | Err e => Err e
  end.
Proof.
  intros e a b arr square pi2 nq p X Y cl resample Pb Pab D c HY HX L2 R2 SQ P2 Z. unfold dgsm_analyze_fl. rewrite map_length. fold D. destruct (negb _); auto. destruct (negb _); auto. cbv zeta.
  set (N := (length Y / (D + 1))%nat) in *. assert (EC : c = bpow radix2 e) by apply powerRZ_2. assert (EC2 : c * c = bpow radix2 (2 * e)) by (rewrite EC, <- bpow_plus; f_equal; ring).
  assert (N2 : (Z.of_nat N <= 2 ^ 53)%Z). { assert (N <= length Y)%nat by (apply Nat.div_le_upper_bound; nia). lia. }
  set (g := fun r : fval * fval * fval * fval => (times (c * c) (fst (fst (fst r))), times (c * c) (snd (fst (fst r))), snd (fst r), times (c * c) (snd r))).
  rewrite (mapM_ext _ (fun j => map_ok g (dgsm_param_fl arr square pi2 nq (p_bounds p) X Y N D cl (resample j) j))).
  - rewrite mapM_map_ok. destruct (mapM _ _) as [rs|]; [|reflexivity]. cbn [map_ok bind d_vi d_vi_std d_dgsm d_conf d_names]. rewrite !map_map. reflexivity.
  - intros j J. apply in_seq in J. rewrite !param_eq, map_length. destruct (_ <? _)%nat; auto. destruct (steps X N D j) as [dx|] eqn:ES; auto. cbn [bind]. destruct (width (p_bounds p) j) as [w|] eqn:EW; auto. cbn [bind].
    destruct (Nat.eqb_spec N 0) as [|N0]; auto. cbn [map_ok]. f_equal. unfold g. rewrite EC2, EC. destruct (R2 j) as (R3 & R4).
    apply (row_step arr square pi2 nq e a b Pb Pab); auto.
    + intros y Hy. destruct (HY y Hy) as (Y1 & Y2). rewrite EC in Y2. split; apply sized_fine; auto.
    + intros i I. destruct (steps_at X N D j dx i ES I) as (_ & -> & _). pose proof (HX i j I ltac:(lia)) as B. rewrite powerRZ_2 in B.
      apply Rabs_le_inv in B. apply Rabs_le. assert (DB : double (bpow radix2 b)) by (apply generic_format_FLT_bpow; [reflexivity|lia]).
      split; [apply fl_ge; [apply generic_format_opp; exact DB|lra]|apply fl_le; [exact DB|lra]].
    + destruct (steps_at X N D j dx 0 ES ltac:(lia)) as (E & _). exact E.
    + unfold big. rewrite <- powerRZ_2. unfold width, get in EW. destruct (nth_error (p_bounds p) j) as [d|] eqn:Ed; [|discriminate]. cbn [bind] in EW. apply nth_error_In in Ed. specialize (SQ d Ed).
      destruct (nth_error d 1) as [hi|] eqn:E1; [|discriminate]. cbn [bind] in EW. destruct (nth_error d 0) as [lo|] eqn:E0; [|discriminate]. cbn [bind] in EW. injection EW as <-.
      rewrite (nth_error_nth _ _ _ E1), (nth_error_nth _ _ _ E0) in SQ. exact SQ.
    + unfold big. rewrite <- powerRZ_2. apply Z.
Qed.

(** ** Constant base outputs *)
Definition flat_p : problem := mkProblem 1 ["a"%string] [[0; 1]] None None false.
Definition flat_X : list (list R) := concat (repeat [[0]; [1]] 6).
Definition flat_Y : list R := concat (repeat [tenth; 0] 6).

Lemma six_var : bpow radix2 (-116) <= var_fl left_to_right tenths.
Proof.
  unfold var_fl. change (length tenths) with 6%nat. rewrite six_average.
  assert (B : forall e, (-1074 <= e)%Z -> double (bpow radix2 e)) by (intros e He; apply generic_format_FLT_bpow; [reflexivity|lia]).
  assert (Q : squares_fl (tenth - bpow radix2 (-56)) tenths = repeat (bpow radix2 (-112)) 6).
  { unfold squares_fl, tenths. cbn [repeat map]. replace (tenth - (tenth - bpow radix2 (-56))) with (bpow radix2 (-56)) by ring. rewrite (fl_double _ (B (-56)%Z ltac:(lia))), <- bpow_plus.
    change (-56 + -56)%Z with (-112)%Z. rewrite (fl_double _ (B (-112)%Z ltac:(lia))). reflexivity. }
  rewrite Q. unfold sum_fl. cbn [length repeat left_to_right Nat.sub comb tsum nth]. set (b := bpow radix2 (-112)). assert (P : 0 < b) by apply bpow_gt_0.
  assert (S : forall x, b <= x -> b <= fl (x + b)) by (intros x Hx; apply fl_ge; [apply B; lia|lra]).
  match goal with |- _ <= fl (?t / _) => assert (T : b <= t) by (repeat apply S; lra); set (s := t) in * end.
  apply fl_ge; [apply B; lia|]. replace (INR 6) with 6 by (simpl; lra). unfold b in T. change (-112)%Z with (4 + -116)%Z in T. rewrite bpow_plus in T. change (bpow radix2 4) with 16 in T. pose proof (bpow_gt_0 radix2 (-116)). lra.
Qed.

Lemma flat_steps : steps flat_X 6 1 0 = Ok (repeat 1 6).
Proof. unfold steps. cbn. rewrite Rminus_0_r, fl_one. reflexivity. Qed.
Lemma flat_result : forall square nq pi2 resample, 1 <= pi2 -> exists out, dgsm_analyze_fl left_to_right square pi2 nq flat_p flat_X flat_Y (/ 2) resample = Ok out /\ exists v, d_dgsm out = [Some v].
Proof.
  intros square nq pi2 resample P2. unfold dgsm_analyze_fl. change (length flat_Y mod (p_num_vars flat_p + 1))%nat with 0%nat. cbn [Nat.eqb negb].
  rewrite (proj2 (Rltb_true 0 (/ 2))) by lra. rewrite (proj2 (Rltb_true (/ 2) 1)) by lra. cbn [andb negb]. change (length flat_Y / (p_num_vars flat_p + 1))%nat with 6%nat. change (p_num_vars flat_p) with 1%nat. cbn [seq mapM].
  rewrite param_eq. change (length flat_X <? length flat_Y)%nat with false. cbv iota. rewrite flat_steps. cbn [bind]. change (width (p_bounds flat_p) 0) with (Ok (fl (1 - 0))). cbn [bind Nat.eqb map].
  eexists. split; [reflexivity|]. cbn [d_dgsm map]. unfold row. cbn [fst snd].
  assert (S : forall i, In i (seq 0 6) -> slope_at flat_Y 6 1 0 (repeat 1 6) i = slope2_fl tenth 0 1).
  { intros i I. apply in_seq in I. unfold slope_at. do 6 (destruct i as [|i]; [reflexivity|]). lia. }
  rewrite (map_ext_in _ _ _ S). assert (F : exists x, slope2_fl tenth 0 1 = Some x) by (unfold slope2_fl, fdiv_fl; rewrite (proj2 (Reqb_false 1 0)) by lra; eexists; reflexivity). destruct F as (x & F). rewrite F.
  cbn [seq map]. unfold fmean_fl. cbn [all_some option_map]. unfold fdiv_fl. change (base_at flat_Y 6 1) with tenths.
  assert (V : bpow radix2 (-116) <= fl (var_fl left_to_right tenths * pi2)).
  { apply fl_ge; [apply generic_format_FLT_bpow; [reflexivity|lia]|]. pose proof six_var. pose proof (bpow_gt_0 radix2 (-116)). nra. }
  pose proof (bpow_gt_0 radix2 (-116)). rewrite (proj2 (Reqb_false _ 0)) by lra. eexists. reflexivity.
Qed.
Lemma constant_refuted : ~ (forall arr square pi2 nq p X Y b cl resample out v, arrangement arr -> (forall x, 0 <= square x) -> 9 <= pi2 <= 10 -> (forall y, In y Y -> not_tiny y) ->
  (forall i, (i < length Y / (p_num_vars p + 1))%nat -> nth (i * (p_num_vars p + 1)) Y 0 = b) -> dgsm_analyze_fl arr square pi2 nq p X Y cl resample = Ok out -> ~ In (Some v) (d_dgsm out)).
Proof.
  intros H. destruct (flat_result Rsqr (fun _ => 2) 9 (fun _ => []) ltac:(lra)) as (out & E & v & V).
  refine (H left_to_right Rsqr 9 (fun _ => 2) flat_p flat_X flat_Y tenth (/ 2) (fun _ => []) out v left_arrangement Rle_0_sqr ltac:(lra) _ _ E _).
  - intros y Y. unfold flat_Y in Y. cbn in Y. assert (T : y = tenth \/ y = 0) by (repeat destruct Y as [Y|Y]; auto; contradiction). destruct T as [->| ->]; [apply tenth_not_tiny|].
    split; [apply double_0|left; auto].
  - intros i I. change (length flat_Y / (p_num_vars flat_p + 1))%nat with 6%nat in I. do 6 (destruct i as [|i]; [reflexivity|]). lia.
  - rewrite V. left. auto.
Qed.

Lemma dgsm_example : forall square nq resample, exists out, dgsm_analyze_fl left_to_right square 9 nq flat_p [[0]; [1]; [0]; [1]] [1; 1; 2; 2] (/ 2) resample = Ok out /\ d_vi out = [Some 0] /\ d_vi_std out = [Some 0].
Proof.
  intros square nq resample.
  assert (T : exists out, dgsm_analyze_fl left_to_right square 9 nq flat_p [[0]; [1]; [0]; [1]] [1; 1; 2; 2] (/ 2) resample = Ok out).
  { unfold dgsm_analyze_fl. change (length [1; 1; 2; 2] mod (p_num_vars flat_p + 1))%nat with 0%nat. cbn [Nat.eqb negb].
    rewrite (proj2 (Rltb_true 0 (/ 2))) by lra. rewrite (proj2 (Rltb_true (/ 2) 1)) by lra. cbn [andb negb]. change (length [1; 1; 2; 2] / (p_num_vars flat_p + 1))%nat with 2%nat. change (p_num_vars flat_p) with 1%nat. cbn [seq mapM].
    rewrite param_eq. change (length [[0]; [1]; [0]; [1]] <? length [1; 1; 2; 2])%nat with false. cbv iota. change (steps [[0]; [1]; [0]; [1]] 2 1 0) with (Ok [fl (1 - 0); fl (1 - 0)]). cbn [bind].
    change (width (p_bounds flat_p) 0) with (Ok (fl (1 - 0))). cbn [bind Nat.eqb map]. eexists. reflexivity. }
  destruct T as (out & E). exists out. split; auto. destruct (dgsm_parts _ _ _ _ _ _ _ _ _ _ E) as (_ & _ & L1 & L2 & _). change (p_num_vars flat_p) with 1%nat in L1, L2.
  assert (DX : forall r x, In r [[0]; [1]; [0]; [1]] -> In x r -> double x).
  { intros r x Hr Hx. assert (Q : x = 0 \/ x = 1) by (cbn in Hr; repeat destruct Hr as [<-|Hr]; try contradiction; cbn in Hx; destruct Hx as [<-|[]]; auto). destruct Q as [->| ->]; [apply double_0|apply double_1]. }
  destruct (nan_steps _ _ _ _ _ _ _ _ _ _ 0%nat E DX ltac:(cbn; lia)) as (N1 & N2).
  assert (NZ : nth_error (d_vi out) 0 <> Some None).
  { rewrite N1. intros (i & I & Z). assert (I2 : (i < 2)%nat) by exact I. clear I. change (step_of [[0]; [1]; [0]; [1]] 1 i 0 = 0) in Z. do 2 (destruct i as [|i]; [unfold step_of in Z; cbn in Z; lra|]). lia. }
  pose proof (ignored _ _ _ _ _ _ _ _ _ _ 0%nat E ltac:(cbn; lia)) as G. cbv zeta in G.
  assert (H : forall i, (i < length [1; 1; 2; 2] / (p_num_vars flat_p + 1))%nat -> nth (i * (p_num_vars flat_p + 1) + (0 + 1)) [1; 1; 2; 2] 0 = nth (i * (p_num_vars flat_p + 1)) [1; 1; 2; 2] 0).
  { intros i I. change (length [1; 1; 2; 2] / (p_num_vars flat_p + 1))%nat with 2%nat in I. do 2 (destruct i as [|i]; [reflexivity|]). lia. }
  specialize (G H). destruct (d_vi out) as [|a [|? ?]]; cbn in L1; try lia. destruct (d_vi_std out) as [|b [|? ?]]; cbn in L2; try lia. cbn [nth_error] in *.
  destruct a as [a|]; [|congruence]. destruct b as [b|]; [|exfalso; apply NZ, N2; auto]. rewrite (G a), (G b); auto.
Qed.
