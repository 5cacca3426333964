(** * Morris samples that went through a file. *)
From Coq Require Import Reals String List Arith ZArith Bool Lia Lra Psatz.
From Flocq Require Import Core.
From Verif Require Import Base Arrays ListFacts ModelGroups ModelScale ProofsScale Stats Sums SpecGroups SpecSobol SpecFF ProofsGroups ProofsSobol6 ProofsFF2
  ModelFast ModelMorris ModelMorrisAnalyze SpecMorris ProofsMorris1 ProofsMorris2 ProofsMorris6 ProofsMorris7 ProofsMorris8
  ModelDouble ModelDouble2 SpecDouble ProofsDouble ProofsDouble2 ProofsDouble3 ProofsDouble5 ProofsDouble6 ProofsDouble7
  ModelFiles SpecFiles ProofsFiles1.
Import ListNotations.
Local Open Scope nat_scope.

(** ** Numbers far enough apart stay apart *)

Lemma reread_apart : forall pr M x y, pr <= 14 -> (bpow radix2 (-1010) <= M)%R -> (Rabs x <= 2 * M)%R -> (Rabs y <= 2 * M)%R ->
  (4 * bpow radix10 (- Z.of_nat pr) * M <= y - x)%R -> (reread pr x < reread pr y)%R.
Proof.
  intros pr M x y P HM X Y H. set (t := bpow radix10 (- Z.of_nat pr)) in *.
  assert (T : (/ 100000000000000 <= t)%R). { change (/ 100000000000000)%R with (bpow radix10 (-14)). apply bpow_le. lia. }
  assert (B : forall z, (Rabs z <= 2 * M)%R -> (Rabs (reread pr z - z) <= (t + / 1000000000000000) * M)%R).
  { intros z Z. unfold reread, read_number. destruct (fl_err (printed pr z)) as (e & s & E & S & F). rewrite F.
    replace (printed pr z * (1 + e) + s - z)%R with ((printed pr z - z) + printed pr z * e + s)%R by ring.
    pose proof (printed_error pr z) as E1. fold t in E1. destruct (printed_magnitude pr z) as [_ E2].
    assert (A1 : (Rabs (printed pr z * e) <= 3 * M * bpow radix2 (-53))%R).
    { rewrite Rabs_mult. apply Rmult_le_compat; try apply Rabs_pos; lra. }
    assert (A2 : (Rabs s <= bpow radix2 (-65) * M)%R).
    { eapply Rle_trans; [exact S|]. apply Rle_trans with (bpow radix2 (-65) * bpow radix2 (-1010))%R; [rewrite <- bpow_plus; apply bpow_le; lia|].
      apply Rmult_le_compat_l; [apply bpow_ge_0|auto]. }
    assert (A3 : (/ 2 * (t * Rabs z) <= t * M)%R). { assert (t * Rabs z <= t * (2 * M))%R by (apply Rmult_le_compat_l; [unfold t; apply bpow_ge_0|auto]). lra. }
    eapply Rle_trans; [apply Rabs_triang|]. eapply Rle_trans; [apply Rplus_le_compat_r, Rabs_triang|].
    rewrite u_small in A1. change (bpow radix2 (-65)) with (/ 36893488147419103232)%R in A2.
    assert (0 <= M)%R by (pose proof (bpow_ge_0 radix2 (-1010)); lra). nra. }
  pose proof (B x X) as Bx. pose proof (B y Y) as By. apply Rabs_le_inv in Bx. apply Rabs_le_inv in By.
  assert (0 < M)%R by (pose proof (bpow_gt_0 radix2 (-1010)); lra). nra.
Qed.

(** ** The rounded coordinates of a trajectory *)
Section Sample.
Variables (p : problem) (ls : list string) (N levels : nat) (draws : nat -> draw) (pr : nat).
Hypothesis HP : morris_problem p ls.
Hypothesis HW : wide_doubles (p_bounds p).
Hypothesis L2 : 2 <= levels.
Hypothesis LU : (Z.of_nat levels <= 2 ^ 47)%Z.
Hypothesis HF : wide_for pr (p_bounds p).
Hypothesis PR : pr <> 15.

Lemma entries : forall v Ts, scaler (p_bounds p) v -> length Ts = N -> Forall (trajectory ls (fun _ => step levels)) Ts ->
  Forall (fun T => length T = length (pd_unique ls) + 1) Ts -> Forall (Forall (fun r => length r = length ls)) Ts ->
  forall g : R -> R, forall i j, i < N -> j < p_num_vars p -> exists x : nat -> R,
    (forall k, k < length (pd_unique ls) + 1 -> In (x k) (concat (concat Ts)) /\
      x_at (length (pd_unique ls) + 1) (map (map g) (map (to_physical_fl v) (map (map (phi levels)) (concat Ts)))) i k j
        = g (scale_fl (lower (p_bounds p) j) (upper (p_bounds p) j) (phi levels (x k)))) /\
    forall k, k + 1 < length (pd_unique ls) + 1 -> x (k + 1) = x k \/ Rabs (x (k + 1) - x k) = step levels.
Proof using HP L2 LU.
  clear PR HF HW. intros v Ts Hv HN HT HS HR g i j Hi Hj. pose proof HP as (Hls & Hn & Hp & HL & HB & Hdi). set (size := length (pd_unique ls) + 1) in *.
  destruct Hv as [Lv Hv]. specialize (Hv j ltac:(lia)).
  set (lo := lower (p_bounds p) j) in *. set (up := upper (p_bounds p) j) in *.
  assert (Hi' : i < length Ts) by lia. pose proof (nth_In Ts [] Hi') as HiT.
  rewrite Forall_forall in HT, HS, HR. pose proof (HT _ HiT) as (order & Ho). pose proof (HS _ HiT) as Hlen. pose proof (HR _ HiT) as Hrow. rewrite Forall_forall in Hrow.
  assert (ET : forall k, k < size -> In (nth k (nth i Ts []) []) (nth i Ts [])) by (intros; apply nth_In; lia).
  exists (fun k => nth j (nth k (nth i Ts []) []) 0%R).
  assert (Hx : forall k, k < size -> nth_error (nth k (nth i Ts []) []) j = Some (nth j (nth k (nth i Ts []) []) 0%R)).
  { intros k' Hk'. apply nth_error_nth'. rewrite (Hrow _ (ET k' Hk')). lia. }
  split.
  - intros k Hk. split.
    + apply in_concat. exists (nth k (nth i Ts []) []). split; [|eapply nth_error_In; apply Hx; auto].
      apply in_concat. exists (nth i Ts []). split; auto.
    + rewrite !map_map. rewrite concat_map, x_at_nth.
      * rewrite (nth_indep _ [] (map (fun r => map g (to_physical_fl v (map (phi levels) r))) [])) by (rewrite map_length; lia). rewrite map_nth.
        rewrite (nth_indep _ [] ((fun r => map g (to_physical_fl v (map (phi levels) r))) [])) by (rewrite map_length; lia).
        rewrite (map_nth (fun r => map g (to_physical_fl v (map (phi levels) r)))). apply nth_error_nth.
        rewrite nth_error_map, to_physical_fl_nth, nth_error_map, Hx, Hv by auto. auto.
      * unfold size; lia.
      * apply Forall_forall. intros T0 HT0. apply in_map_iff in HT0. destruct HT0 as (T1 & <- & HT1). rewrite map_length. auto.
      * auto.
  - intros k Hk. assert (Hjx : exists l, nth_error ls j = Some l) by (apply nth_error_lt_Some; lia). destruct Hjx as (l & Hjl).
    assert (Hr : exists r, nth_error order r = Some l). { apply In_nth_error. destruct Ho as (_ & HI & _). apply HI. eapply nth_error_In; eauto. }
    destruct Hr as (r & Hr). destruct (coord_path ls _ order _ j l r Ho Hjl Hr) as (s & a & Hs & Hp'). rewrite Hlen in Hp'.
    assert (Hst : (0 < step levels)%R). { pose proof (step_wide levels L2 LU). pose proof (bpow_gt_0 radix2 (-48)). lra. }
    rewrite !Hp' by lia. destruct (Nat.leb_spec (k + 1) r), (Nat.leb_spec k r); auto; try lia. right.
    replace (a + s * step levels - a)%R with (s * step levels)%R by ring. rewrite Rabs_mult, (Rabs_pos_eq (step levels)) by lra.
    destruct Hs as [-> | ->]; [rewrite Rabs_R1|rewrite Rabs_left by lra]; ring.
Qed.

(** Reading back keeps the order of the coordinates. *)
Lemma file_order : forall v Ts, scaler (p_bounds p) v -> length Ts = N -> Forall (trajectory ls (fun _ => step levels)) Ts ->
  Forall (fun T => length T = length (pd_unique ls) + 1) Ts -> Forall (Forall (fun r => length r = length ls)) Ts ->
  (forall x, In x (concat (concat Ts)) -> double (phi levels x) /\ (0 <= phi levels x <= 1)%R /\ (Rabs (phi levels x - x) <= bpow radix2 (-51))%R) ->
  same_order (length (pd_unique ls) + 1) N (p_num_vars p)
    (map (to_physical_fl v) (map (map (phi levels)) (concat Ts)))
    (map (map (reread pr)) (map (to_physical_fl v) (map (map (phi levels)) (concat Ts)))).
Proof.
  intros v Ts Hv HN HT HS HR HPhi i k j Hi Hk Hj. pose proof HP as (Hls & Hn & Hp & HL & HB & Hdi).
  destruct (entries v Ts Hv HN HT HS HR (fun x => x) i j Hi Hj) as (x & Ex & Sx). destruct (entries v Ts Hv HN HT HS HR (reread pr) i j Hi Hj) as (x' & Ex' & _).
  replace (map (map (fun x => x)) (map (to_physical_fl v) (map (map (phi levels)) (concat Ts)))) with (map (to_physical_fl v) (map (map (phi levels)) (concat Ts))) in Ex.
  2:{ symmetry. rewrite <- (map_id (map (to_physical_fl v) (map (map (phi levels)) (concat Ts)))) at 2. apply map_ext. intros a. apply map_id. }
  set (X := map (to_physical_fl v) (map (map (phi levels)) (concat Ts))) in *. set (size := length (pd_unique ls) + 1) in *.
  assert (XG : forall k, k < size -> x_at size (map (map (reread pr)) X) i k j = reread pr (x_at size X i k j)).
  { intros k0 Hk0. destruct (Ex k0 Hk0) as (I & E). destruct (Ex' k0 Hk0) as (I' & E'). unfold x_at in *.
    assert (Q : forall (l : list (list R)) (a b : nat), (exists y, nth_error l a = Some y /\ b < length y) -> nth b (nth a (map (map (reread pr)) l) []) 0%R = reread pr (nth b (nth a l []) 0%R)).
    { intros l a b (y & Hy & Hb). rewrite (nth_error_nth (map (map (reread pr)) l) a [] (x := map (reread pr) y)) by (rewrite nth_error_map, Hy; auto).
      rewrite (nth_error_nth l a [] Hy). rewrite (nth_indep _ 0%R (reread pr 0)) by (rewrite map_length; auto). apply map_nth. }
    apply Q. assert (LX : i * size + k0 < length X).
    { unfold X. rewrite !map_length. rewrite (ProofsMorris5.concat_length _ size) by auto. rewrite HN. nia. }
    destruct (nth_error_lt_Some _ LX) as (y & Hy). exists y. split; auto. unfold X in Hy. rewrite map_map, nth_error_map in Hy.
    destruct (nth_error (concat Ts) (i * size + k0)) as [r|] eqn:Er; [|discriminate]. injection Hy as <-.
    unfold to_physical_fl. destruct Hv as [Lv _].
    assert (Lr : length r = length ls). { apply nth_error_In in Er. apply in_concat in Er. destruct Er as (T & HT1 & Hr). rewrite Forall_forall in HR. specialize (HR T HT1). rewrite Forall_forall in HR. auto. }
    rewrite !length_map2, map_length. lia. }
  rewrite !XG by lia. destruct (Ex k ltac:(lia)) as (Ik & Ek). destruct (Ex (k + 1) ltac:(lia)) as (Ik1 & Ek1).
  destruct (Sx k Hk) as [S|S].
  { rewrite Ek, Ek1, S. split; split; intros; lra. }
  destruct (le_lt_dec pr 14) as [Hpr|Hpr].
  2:{ assert (DX : forall k, k < size -> double (x_at size X i k j)) by (intros k0 Hk0; rewrite (proj2 (Ex k0 Hk0)); apply double_fl).
      rewrite !reread_exact by (try lia; apply DX; lia). tauto. }
  destruct (HW j ltac:(lia)) as (Dl & Du & Wd). specialize (HF j ltac:(lia)).
  rewrite Ek, Ek1. destruct (HPhi _ Ik) as (D1 & R1 & A1). destruct (HPhi _ Ik1) as (D2 & R2 & A2).
  set (lo := lower (p_bounds p) j) in *. set (up := upper (p_bounds p) j) in *. set (M := Rmax (Rabs lo) (Rabs up)) in *.
  assert (ML : (Rabs lo <= M)%R) by apply Rmax_l. assert (MU : (Rabs up <= M)%R) by apply Rmax_r.
  assert (B : (lo < up)%R) by (pose proof (bpow_gt_0 radix2 (-1000)); lra).
  set (a := scale_fl lo up (phi levels (x k))). set (b := scale_fl lo up (phi levels (x (k + 1)))).
  pose proof (scale_accuracy lo up _ Dl Du R1) as C1. pose proof (scale_accuracy lo up _ Dl Du R2) as C2. fold a in C1. fold b in C2.
  pose proof (scale_bounds lo up _ Dl Du B R1) as B1. pose proof (scale_bounds lo up _ Dl Du B R2) as B2. fold a in B1. fold b in B2.
  pose proof (step_wide levels L2 LU) as SW.
  assert (M0 : (bpow radix2 (-1001) <= M)%R).
  { replace (bpow radix2 (-1001)) with (/ 2 * bpow radix2 (-1000))%R by (change (/ 2)%R with (bpow radix2 (-1)); rewrite <- bpow_plus; reflexivity).
    pose proof (Rle_abs up). pose proof (Rle_abs (- lo)). rewrite Rabs_Ropp in *. lra. }
  assert (M1 : (bpow radix2 (-1074) <= bpow radix2 (-73) * M)%R).
  { apply Rle_trans with (bpow radix2 (-73) * bpow radix2 (-1001))%R; [rewrite <- bpow_plus; apply bpow_le; lia|]. apply Rmult_le_compat_l; [apply bpow_ge_0|auto]. }
  assert (MP : (0 < M)%R) by (pose proof (bpow_gt_0 radix2 (-1001)); lra).
  assert (PW : powerRZ 10 (1 - Z.of_nat pr) = (10 * bpow radix10 (- Z.of_nat pr))%R).
  { change 10%R with (IZR radix10) at 1. rewrite <- bpow_powerRZ. change 10%R with (bpow radix10 1). rewrite <- bpow_plus. f_equal. }
  rewrite PW in HF. set (t := bpow radix10 (- Z.of_nat pr)) in *.
  assert (T14 : (/ 100000000000000 <= t)%R). { change (/ 100000000000000)%R with (bpow radix10 (-14)). apply bpow_le. lia. }
  change (bpow radix2 (-73)) with (/ 9444732965739290427392)%R in M1. change (bpow radix2 (-48)) with (/ 281474976710656)%R in SW.
  change (bpow radix2 (-51)) with (/ 2251799813685248)%R in *. change (bpow radix2 (-50)) with (/ 1125899906842624)%R in *.
  assert (Wle : (up - lo <= 2 * M)%R). { pose proof (Rle_abs up). pose proof (Rle_abs (- lo)). rewrite Rabs_Ropp in *. lra. }
  assert (Wp : (10 * t * M <= up - lo)%R) by lra. set (w := (up - lo)%R) in *. assert (Ew : w = (up - lo)%R) by reflexivity.
  apply Rabs_le_inv in A1. apply Rabs_le_inv in A2. apply Rabs_le_inv in C1. apply Rabs_le_inv in C2.
  assert (TM : (/ 100000000000000 * M <= t * M)%R) by (apply Rmult_le_compat_r; lra).
  assert (Ra : (Rabs a <= 2 * M)%R). { pose proof (Rle_abs up). pose proof (Rle_abs (- lo)). rewrite Rabs_Ropp in *. apply Rabs_le. lra. }
  assert (Rb : (Rabs b <= 2 * M)%R). { pose proof (Rle_abs up). pose proof (Rle_abs (- lo)). rewrite Rabs_Ropp in *. apply Rabs_le. lra. }
  assert (M10 : (bpow radix2 (-1010) <= M)%R) by (eapply Rle_trans; [|exact M0]; apply bpow_le; lia).
  assert (W0 : (0 < w)%R) by lra.
  destruct (Rle_or_lt 0 (x (k + 1)%nat - x k)) as [Sg|Sg].
  - rewrite Rabs_pos_eq in S by auto.
    assert (G : (w * (/ 2 - / 1125899906842624) <= w * (phi levels (x (k + 1)%nat) - phi levels (x k)))%R) by (apply Rmult_le_compat_l; lra).
    assert (Q : (4 * t * M <= b - a)%R) by nra. assert (0 < t * M)%R by (apply Rmult_lt_0_compat; lra).
    pose proof (reread_apart pr M a b Hpr M10 Ra Rb Q) as Lt. split; split; intros; lra.
  - rewrite Rabs_left in S by auto.
    assert (G : (w * (/ 2 - / 1125899906842624) <= w * (phi levels (x k) - phi levels (x (k + 1)%nat)))%R) by (apply Rmult_le_compat_l; lra).
    assert (Q : (4 * t * M <= a - b)%R) by nra. assert (0 < t * M)%R by (apply Rmult_lt_0_compat; lra).
    pose proof (reread_apart pr M b a Hpr M10 Rb Ra Q) as Lt. split; split; intros; lra.
Qed.
End Sample.

Lemma same_order_trans : forall size T D X X' X'', same_order size T D X X' -> same_order size T D X' X'' -> same_order size T D X X''.
Proof. intros size T D X X' X'' A B i k j Hi Hk Hj. destruct (A i k j Hi Hk Hj), (B i k j Hi Hk Hj). split; etransitivity; eauto. Qed.

(** ** Together *)

Theorem file_analysis : forall pr p ls N levels draws rnd score argsort nq tq chunk local,
  morris_problem p ls -> wide_doubles (p_bounds p) -> wide_for pr (p_bounds p) -> pr <> 15 -> 2 <= levels -> (Z.of_nat levels <= 2 ^ 47)%Z -> valid_draws ls levels draws ->
  exists p' X X', morris_sample rnd score argsort nq tq chunk p N levels None local draws = (p', Ok (InPlace (mkMat (p_num_vars p) X))) /\
    morris_sample_fl p N levels draws = Ok (mkMat (p_num_vars p) X') /\ length X' = length X /\
    forall q Y conf_level levels' resample, labels_of q ls -> length Y = length X ->
      morris_analyze nq q (mkMat (p_num_vars p) (reread_sample pr X')) Y conf_level false levels' resample
        = morris_analyze nq q (mkMat (p_num_vars p) X) Y conf_level false levels' resample.
Proof.
  intros pr p ls N levels draws rnd score argsort nq tq chunk local HP HW HF PR L2 LU HD.
  destruct (sample_both p ls N levels draws HP L2 LU HD) as (v & Ts & Hv & HN & HT & HS & HR & HPhi & E1 & E2).
  destruct (E1 rnd score argsort nq tq chunk local) as (p' & E). eexists p', _, _. split; [exact E|]. split; [exact E2|]. split; [rewrite !map_length; auto|].
  intros q Y conf_level levels' resample Hq HY. symmetry. apply (analysis_same nq q ls _ _ Y _ N); auto.
  - unfold reread_sample. rewrite HY, !map_length. auto.
  - rewrite HY, map_length, (ProofsMorris5.concat_length _ (length (pd_unique ls) + 1)), HN by auto. lia.
  - eapply same_order_trans; [apply (sample_order p ls N levels HP HW L2 LU v Ts); auto|]. apply (file_order p ls N levels draws pr); auto.
Qed.
