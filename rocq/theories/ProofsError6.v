(** * Forward errors of quotients and squares in double precision; of the DGSM analysis. *)
From Coq Require Import Reals String List Arith ZArith Bool Lia Lra Psatz.
From Flocq Require Import Core.
From Verif Require Import Base Arrays ListFacts ModelGroups ModelScale ProofsScale Stats ModelFast ModelMorrisAnalyze ModelDgsm SpecDgsm
  ModelDouble ModelDouble4 ModelDouble5 ModelDouble6 SpecDouble3 SpecError ProofsDouble ProofsDouble5 ProofsDouble10 ProofsDouble15 ProofsDouble16 ProofsDouble21 ProofsError ProofsMorris7.
Import ListNotations.
Local Open Scope R_scope.

(** A factor that is off 1. *)
Lemma off_factor : forall m n a x y r, Rabs x <= a -> off m a x y -> Rabs (r - 1) <= err n -> off (m + n) a x (y * r).
Proof.
  intros m n a x y r X H R. unfold off in *. pose proof (err_add m n) as E. pose proof (err_pos m). pose proof (err_pos n). pose proof (Rabs_pos x).
  assert (RR : Rabs r <= 1 + err n). { replace r with (1 + (r - 1)) by ring. eapply Rle_trans; [apply Rabs_triang|]. rewrite Rabs_R1. lra. }
  replace (y * r - x) with ((y - x) * r + x * (r - 1)) by ring. eapply Rle_trans; [apply Rabs_triang|]. rewrite !Rabs_mult.
  assert (K1 : Rabs (y - x) * Rabs r <= err m * a * (1 + err n)) by (apply Rmult_le_compat; auto; apply Rabs_pos).
  assert (K2 : Rabs x * Rabs (r - 1) <= a * err n) by (apply Rmult_le_compat; auto; apply Rabs_pos).
  replace (err (m + n)) with (err m + err n + err m * err n) by lra. nra.
Qed.
(** Dividing by a number that is off by one rounding costs two. *)
Lemma inverse_ratio : forall x z, x <> 0 -> Rabs (z - x) <= u * Rabs x -> z <> 0 /\ Rabs (x / z - 1) <= err 2.
Proof.
  intros x z X H. pose proof u_pos. pose proof u_small. pose proof (Rabs_pos_lt x X) as P.
  assert (Z : (1 - u) * Rabs x <= Rabs z). { assert (Rabs x <= Rabs z + Rabs (z - x)); [|lra]. replace x with (z - (z - x)) at 1 by ring. unfold Rminus at 1. eapply Rle_trans; [apply Rabs_triang|]. rewrite Rabs_Ropp. lra. }
  assert (ZP : 0 < Rabs z) by nra. assert (ZN : z <> 0) by (intros ->; rewrite Rabs_R0 in ZP; lra). split; auto.
  replace (x / z - 1) with (- (z - x) * / z) by (field; auto). rewrite Rabs_mult, Rabs_Ropp, Rabs_inv. apply Rmult_le_reg_r with (Rabs z); auto.
  rewrite Rmult_assoc, Rinv_l, Rmult_1_r by lra. apply Rle_trans with (u * Rabs x); auto.
  replace (err 2) with (u * (2 + u)) by (rewrite !err_S, err_0; ring). apply Rle_trans with (u * (2 + u) * ((1 - u) * Rabs x)); [|apply Rmult_le_compat_l; [apply Rmult_le_pos; lra|exact Z]].
  assert (1 <= (2 + u) * (1 - u)) by nra. replace (u * (2 + u) * ((1 - u) * Rabs x)) with (u * Rabs x * ((2 + u) * (1 - u))) by ring.
  assert (0 <= u * Rabs x) by nra. set (t := (2 + u) * (1 - u)) in *. nra.
Qed.
Lemma off_square : forall n w x y, Rabs x <= w -> off n w x y -> off (n + n) (w * w) (x * x) (y * y).
Proof.
  intros n w x y X H. unfold off in *. pose proof (err_add n n) as E. pose proof (err_pos n). pose proof (Rabs_pos x).
  replace (y * y - x * x) with ((y - x) * ((y - x) + 2 * x)) by ring. rewrite Rabs_mult.
  assert (S : Rabs (y - x + 2 * x) <= err n * w + 2 * w). { eapply Rle_trans; [apply Rabs_triang|]. rewrite (Rabs_mult 2), (Rabs_pos_eq 2) by lra. lra. }
  apply Rle_trans with (err n * w * (err n * w + 2 * w)); [apply Rmult_le_compat; auto; apply Rabs_pos|]. replace (err (n + n)) with (2 * err n + err n * err n) by lra. right. ring.
Qed.
Lemma off_abs : forall n w x y, off n w x y -> off n w (Rabs x) (Rabs y).
Proof. intros n w x y H. unfold off in *. eapply Rle_trans; [apply Rabs_triang_inv2|exact H]. Qed.

(** The quotient of two computed differences. *)
Lemma minus_u : forall x y, double x -> double y -> Rabs (fl (x - y) - (x - y)) <= u * Rabs (x - y).
Proof. intros x y X Y. apply (plus_err x (- y)); auto. apply double_opp; auto. Qed.
Lemma quotient_off : forall a b d z, double a -> double b -> d <> 0 -> Rabs (z - d) <= u * Rabs d ->
  off 4 (Rabs ((a - b) / d) + tiny) ((a - b) / d) (fl (fl (a - b) / z)).
Proof.
  intros a b d z A B D Z. destruct (inverse_ratio d z D Z) as (ZN & R). apply off_fl; [lra|].
  replace (fl (a - b) / z) with (/ d * fl (a - b) * (d / z)) by (field; auto). apply (off_factor 1 2); auto.
  - pose proof tiny_pos. lra.
  - apply off_weaken with 1%nat (Rabs (/ d) * Rabs (a - b)); auto.
    + apply Rmult_le_pos; apply Rabs_pos.
    + rewrite <- Rabs_mult. replace (/ d * (a - b)) with ((a - b) / d) by (unfold Rdiv; ring). pose proof tiny_pos. lra.
    + replace ((a - b) / d) with (/ d * (a - b)) by (unfold Rdiv; ring). apply off_scale, minus_err; auto.
Qed.

(** ** DGSM *)
Section Dgsm.
Variables (arr : nat -> tree) (square : R -> R) (pi2 : R) (nq : R -> R).
Hypothesis A : arrangement arr.

Lemma slope_off : forall b q d z v, double b -> double q -> d <> 0 -> Rabs (z - d) <= u * Rabs d -> slope2_fl b q z = Some v ->
  double v /\ off 9 ((Rabs ((q - b) / d) + tiny) ^ 2 + tiny) (((q - b) / d) ^ 2) v.
Proof using.
  intros b q d z v B Q D Z. unfold slope2_fl, fdiv_fl. destruct (Reqb z 0); [discriminate|]. cbn [option_map]. intros V. injection V as <-. split; [apply double_fl|].
  pose proof (quotient_off q b d z Q B D Z) as H. pose proof tiny_pos as T. set (s := (q - b) / d) in *. pose proof (Rabs_pos s) as PS. apply off_fl.
  - rewrite Rabs_pos_eq by apply pow2_ge_0. rewrite <- (pow2_abs s). nra.
  - apply off_weaken with 8%nat ((Rabs s + tiny) * (Rabs s + tiny)); auto; [nra|nra|]. replace (s ^ 2) with (s * s) by ring. apply (off_square 4); auto. lra.
Qed.

Lemma vi_off : forall p X Y cl resample out j v, dgsm_analyze_fl arr square pi2 nq p X Y cl resample = Ok out ->
  (forall r x, In r X -> In x r -> double x) -> (forall y, In y Y -> double y) ->
  let D := p_num_vars p in
  let N := (length Y / (D + 1))%nat in
  (j < D)%nat -> nth_error (d_vi out) j = Some (Some v) ->
  (0 < N)%nat /\
  off (N + 9) (mean (map (fun i => (Rabs (secant X Y D i j) + tiny) ^ 2) (seq 0 N)) + tiny) (mean (map (fun i => secant X Y D i j ^ 2) (seq 0 N))) v.
Proof using A.
  intros p X Y cl resample out j v H DX DY D N J V. destruct (nan_steps _ _ _ _ _ _ _ _ _ _ j H DX J) as (NN & _). fold D N in NN.
  destruct (dgsm_parts _ _ _ _ _ _ _ _ _ _ H) as (_ & _ & _ & _ & _ & _ & R). destruct (R j J) as (dx & w & ED & _ & PN & R1 & _). fold D N in ED, R1, PN. split; auto.
  assert (ST : forall i, (i < N)%nat -> step_of X D i j <> 0) by (intros i I Z; assert (nth_error (d_vi out) j = Some None) by (apply NN; eauto); congruence).
  rewrite R1 in V. injection V as V. unfold fmean_fl in V. destruct (all_some _) as [r|] eqn:E; [|discriminate]. injection V as <-. apply all_some_inv in E.
  assert (DN : forall k, double (nth k Y 0)) by (intros k; destruct (nth_in_or_default k Y 0) as [I| ->]; [auto|apply double_0]).
  assert (LR : length r = N) by (rewrite <- (map_length Some r), <- E, map_length, seq_length; auto).
  assert (ER : r = map (fun i => nth i r 0) (seq 0 N)).
  { clear -LR. rewrite <- LR. clear. apply nth_ext with 0 0; [rewrite map_length, seq_length; auto|]. intros n Hn. rewrite nth_seq_fun, (proj2 (Nat.ltb_lt _ _)) by auto. auto. }
  rewrite ER. replace (N + 9)%nat with (9 + length (seq 0 N))%nat by (rewrite seq_length; lia). rewrite <- mean_plus by (destruct N; [lia|discriminate]).
  apply (mean_off arr A nat (fun i => secant X Y D i j ^ 2) (fun i => nth i r 0) (fun i => (Rabs (secant X Y D i j) + tiny) ^ 2 + tiny) 9); [destruct N; [lia|discriminate]|].
  intros i I. apply in_seq in I. assert (IN : (i < N)%nat) by lia.
  assert (S : slope_at Y N D j dx i = Some (nth i r 0)).
  { assert (Q : nth_error (map (slope_at Y N D j dx) (seq 0 N)) i = nth_error (map Some r) i) by (rewrite E; auto).
    rewrite !nth_error_map', nth_error_seq, (proj2 (Nat.ltb_lt _ _) IN) in Q. cbn [option_map Nat.add] in Q. rewrite (nth_error_nth' r 0) in Q by lia. cbn in Q. congruence. }
  unfold slope_at, base_at, pert_at in S. rewrite !nth_seq_fun, (proj2 (Nat.ltb_lt _ _) IN) in S. destruct (steps_at X N D j dx i ED IN) as (_ & SD & I1 & I2 & I3 & I4). rewrite SD in S.
  replace (i * (D + 1) + (j + 1))%nat with (i * (D + 1) + 1 + j)%nat in S by lia.
  destruct (slope_off _ _ (step_of X D i j) _ _ (DN _) (DN _) (ST i IN) ltac:(unfold step_of; apply minus_u; eauto) S) as (Dv & O).
  change ((nth (i * (D + 1) + 1 + j) Y 0 - nth (i * (D + 1)) Y 0) / step_of X D i j) with (secant X Y D i j) in O. split; auto. split; auto.
  pose proof tiny_pos. set (s := secant X Y D i j) in *. pose proof (Rabs_pos s). rewrite Rabs_pos_eq by apply pow2_ge_0. rewrite <- (pow2_abs s). nra.
Qed.

Lemma dgsm_off : forall p X Y cl resample out j g b lo hi, dgsm_analyze_fl arr square pi2 nq p X Y cl resample = Ok out ->
  (forall r x, In r X -> In x r -> double x) -> (forall y, In y Y -> double y) -> (forall x, 0 <= square x) -> 0 <= pi2 ->
  let D := p_num_vars p in
  let N := (length Y / (D + 1))%nat in
  (j < D)%nat -> nth_error (p_bounds p) j = Some b -> nth_error b 0 = Some lo -> nth_error b 1 = Some hi -> nth_error (d_dgsm out) j = Some (Some g) ->
  let V := fl (var_fl arr (base_outputs Y D N) * pi2) in
  let W := square (fl (hi - lo)) in
  0 < V /\
  off (N + 11) ((W * (mean (map (fun i => (Rabs (secant X Y D i j) + tiny) ^ 2) (seq 0 N)) + tiny) + tiny) / V + tiny)
    (W * mean (map (fun i => secant X Y D i j ^ 2) (seq 0 N)) / V) g.
Proof using A.
  intros p X Y cl resample out j g b lo hi H DX DY SQ P2 D N J Eb El Eh EG V W.
  destruct (dgsm_parts _ _ _ _ _ _ _ _ _ _ H) as (_ & _ & _ & _ & _ & _ & R). destruct (R j J) as (dx & w & ED & EW & PN & R1 & _ & R3 & _). fold D N in ED, R1, R3, PN.
  unfold width, get in EW. rewrite Eb in EW. cbn [bind] in EW. rewrite Eh in EW. cbn [bind] in EW. rewrite El in EW. cbn [bind] in EW. injection EW as <-.
  rewrite R3 in EG. injection EG as EG. cbn [row fst snd] in EG, R1. destruct (fmean_fl _ _) as [vi|] eqn:EV; [|discriminate].
  destruct (vi_off _ _ _ _ _ _ j vi H DX DY J R1) as (_ & O). fold D N in O. unfold fdiv_fl in EG.
  change (base_at Y N D) with (base_outputs Y D N) in EG. fold V in EG. destruct (Reqb V 0) eqn:Z; [discriminate|]. apply Reqb_false in Z. injection EG as <-.
  assert (VP : 0 < V). { assert (0 <= V) by (apply fl_pos, Rmult_le_pos; auto; apply var_pos). lra. } split; auto.
  pose proof (SQ (fl (hi - lo))) as WP. fold W in WP |- *. pose proof tiny_pos as T.
  set (m := mean (map (fun i => secant X Y D i j ^ 2) (seq 0 N))) in *. set (M := mean (map (fun i => (Rabs (secant X Y D i j) + tiny) ^ 2) (seq 0 N))) in *.
  assert (MM : Rabs m <= M).
  { unfold m, M, mean. rewrite !map_length, seq_length. assert (0 < INR N) by (apply lt_0_INR; auto). pose proof (Rinv_0_lt_compat _ H0).
    unfold Rdiv. rewrite Rabs_mult, (Rabs_pos_eq (/ _)) by lra. apply Rmult_le_compat_r; [lra|].
    clear -T. induction (seq 0 N) as [|i l IH]; unfold Rsum in *; cbn [map fold_right]; [rewrite Rabs_R0; lra|]. eapply Rle_trans; [apply Rabs_triang|].
    apply Rplus_le_compat; auto. set (s := secant X Y D i j). pose proof (Rabs_pos s). rewrite Rabs_pos_eq by apply pow2_ge_0. rewrite <- (pow2_abs s). nra. }
  assert (M0 : 0 <= M) by (pose proof (Rabs_pos m); lra).
  replace (N + 11)%nat with (S (S (N + 9))) by lia. apply div_off; auto.
  - rewrite Rabs_mult, (Rabs_pos_eq W) by auto. nra.
  - apply off_fl; [rewrite Rabs_mult, (Rabs_pos_eq W) by auto; nra|]. apply off_weaken with (N + 9)%nat (Rabs W * (M + tiny)); auto.
    + apply Rmult_le_pos; [apply Rabs_pos|lra].
    + rewrite Rabs_pos_eq by auto. lra.
    + rewrite (Rmult_comm vi). apply off_scale. exact O.
Qed.
End Dgsm.
