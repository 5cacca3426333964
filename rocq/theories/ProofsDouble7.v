(** * Analysing Morris samples computed in double precision. *)
From Coq Require Import Reals String List Arith ZArith Bool Lia Lra Psatz.
From Flocq Require Import Core.
From Verif Require Import Base Arrays ListFacts ModelGroups ModelScale ProofsScale Stats Sums SpecGroups SpecSobol SpecFF ProofsGroups ProofsSobol6 ProofsFF2
  ModelFast ModelMorris ModelMorrisAnalyze SpecMorris ProofsMorris1 ProofsMorris2 ProofsMorris6 ProofsMorris7 ProofsMorris8
  ModelDouble ModelDouble2 SpecDouble ProofsDouble ProofsDouble2 ProofsDouble3 ProofsDouble6.
Import ListNotations.
Local Open Scope nat_scope.

(** ** The analysis only looks at the order of consecutive coordinates *)

Definition same_order (size T D : nat) (X X' : list (list R)) : Prop :=
  forall i k j, i < T -> k + 1 < size -> j < D ->
    ((x_at size X i k j < x_at size X i (k + 1) j)%R <-> (x_at size X' i k j < x_at size X' i (k + 1) j)%R) /\
    ((x_at size X i (k + 1) j < x_at size X i k j)%R <-> (x_at size X' i (k + 1) j < x_at size X' i k j)%R).

Lemma Rltb_iff : forall a b c d, ((a < b)%R <-> (c < d)%R) -> Rltb a b = Rltb c d.
Proof. intros a b c d H. unfold Rltb. destruct (Rlt_dec a b), (Rlt_dec c d); tauto. Qed.

Lemma flags_same : forall size T D X X' i k j, same_order size T D X X' -> i < T -> k + 1 < size -> j < D ->
  increased size X i k j = increased size X' i k j /\ decreased size X i k j = decreased size X' i k j.
Proof.
  intros size T D X X' i k j S Hi Hk Hj. destruct (S i k j Hi Hk Hj) as (A & B). unfold increased, decreased.
  split; apply Rltb_iff; split; intros H.
  - assert (Q : (x_at size X i k j < x_at size X i (k + 1) j)%R) by lra. apply A in Q. lra.
  - assert (Q : (x_at size X' i k j < x_at size X' i (k + 1) j)%R) by lra. apply A in Q. lra.
  - assert (Q : (x_at size X i (k + 1) j < x_at size X i k j)%R) by lra. apply B in Q. lra.
  - assert (Q : (x_at size X' i (k + 1) j < x_at size X' i k j)%R) by lra. apply B in Q. lra.
Qed.

Lemma pad_before_ext : forall size f g k, (forall k, k + 1 < size -> f k = g k) -> pad_before size f k = pad_before size g k.
Proof.
  intros size f g k H. unfold pad_before. destruct k; auto. destruct (Nat.ltb_spec k (size - 1)); auto. cbn [andb]. apply H. lia.
Qed.
Lemma pad_after_ext : forall size f g k, (forall k, k + 1 < size -> f k = g k) -> pad_after size f k = pad_after size g k.
Proof.
  intros size f g k H. unfold pad_after. destruct (Nat.ltb_spec k (size - 1)); auto. cbn [andb]. apply H. lia.
Qed.

Lemma difference_same : forall size T D X X' Y i j, same_order size T D X X' -> i < T -> j < D -> difference size X Y i j = difference size X' Y i j.
Proof.
  intros size T D X X' Y i j S Hi Hj. unfold difference, reorganize.
  assert (HI : forall k, k + 1 < size -> increased size X i k j = increased size X' i k j) by (intros k Hk; apply (flags_same size T D X X'); auto).
  assert (HD : forall k, k + 1 < size -> decreased size X i k j = decreased size X' i k j) by (intros k Hk; apply (flags_same size T D X X'); auto).
  f_equal; apply sum_ext; intros k Hk; cbv beta zeta;
    rewrite (pad_before_ext size _ _ k HI), (pad_after_ext size _ _ k HD) || rewrite (pad_after_ext size _ _ k HI), (pad_before_ext size _ _ k HD); reflexivity.
Qed.

Lemma analysis_same : forall nq q ls X X' Y D N conf_level levels resample,
  labels_of q ls -> length X = length Y -> length X' = length Y -> length Y = N * (length (pd_unique ls) + 1) ->
  same_order (length (pd_unique ls) + 1) N D X X' ->
  morris_analyze nq q (mkMat D X) Y conf_level false levels resample = morris_analyze nq q (mkMat D X') Y conf_level false levels resample.
Proof.
  intros nq q ls X X' Y D N conf_level levels resample Hls HX HX' HY S. unfold morris_analyze.
  destruct (define_groups_cases q) as [[Hg (p' & E & H1 & H2 & H3 & H4 & H5 & H6)]|[(g & Hg & Hne & HL & E)|(g & Hg & Hne & HL & E)]]; rewrite E; auto.
  - assert (Eg : p_groups p' = Some ls). { destruct Hls as [(g & gs & Hgg & ->)|[_ ->]]; [destruct Hg; congruence|auto]. }
    rewrite Eg. f_equal. destruct (compute_delta levels) as [delta|e]; auto. cbn [bind].
    destruct (compute_groups_matrix_total ls) as [m Em]. rewrite Em. cbn [bind]. set (G := length (pd_unique ls)) in *.
    destruct (Nat.eq_dec N 0) as [->|N0]. { rewrite HY. rewrite Nat.mul_0_l, Nat.div_0_l by lia. reflexivity. }
    destruct (analyze_size N G ltac:(lia)) as [S1 S2]. rewrite HY, S1, S2. destruct (Nat.eqb_spec N 0); [lia|].
    replace (elementary_effects (G + 1) (rows (mkMat D X)) Y (cols (mkMat D X)) delta false)
      with (elementary_effects (G + 1) (rows (mkMat D X')) Y (cols (mkMat D X')) delta false); auto.
    unfold elementary_effects. cbn [rows cols]. rewrite HX, HX', HY, S1. destruct (negb _); auto. destruct (negb _); auto. f_equal. apply tab_ext.
    intros j i Hj Hi. f_equal. symmetry. apply (difference_same (G + 1) N D); auto.
  - assert (Eg : p_groups q = Some ls). { destruct Hls as [(g' & gs & Hgg & ->)|[[Hgg|Hgg] ->]]; congruence. }
    rewrite Eg. f_equal. destruct (compute_delta levels) as [delta|e]; auto. cbn [bind].
    destruct (compute_groups_matrix_total ls) as [m Em]. rewrite Em. cbn [bind]. set (G := length (pd_unique ls)) in *.
    destruct (Nat.eq_dec N 0) as [->|N0]. { rewrite HY. rewrite Nat.mul_0_l, Nat.div_0_l by lia. reflexivity. }
    destruct (analyze_size N G ltac:(lia)) as [S1 S2]. rewrite HY, S1, S2. destruct (Nat.eqb_spec N 0); [lia|].
    replace (elementary_effects (G + 1) (rows (mkMat D X)) Y (cols (mkMat D X)) delta false)
      with (elementary_effects (G + 1) (rows (mkMat D X')) Y (cols (mkMat D X')) delta false); auto.
    unfold elementary_effects. cbn [rows cols]. rewrite HX, HX', HY, S1. destruct (negb _); auto. destruct (negb _); auto. f_equal. apply tab_ext.
    intros j i Hj Hi. f_equal. symmetry. apply (difference_same (G + 1) N D); auto.
Qed.

(** ** Scaling the unit sample *)

Definition to_physical_fl (v : list (R * R)) (r : list R) : list R :=
  map2 (fun x b => fl (x + fst b)) (map2 (fun x b => fl (x * fl (snd b - fst b))) r v) v.

Lemma to_physical_fl_nth : forall v r j, nth_error (to_physical_fl v r) j =
  match nth_error r j, nth_error v j with Some x, Some (lo, up) => Some (scale_fl lo up x) | _, _ => None end.
Proof.
  intros. unfold to_physical_fl. rewrite !nth_error_map2. destruct (nth_error r j); auto. destruct (nth_error v j) as [[lo up]|]; auto.
Qed.

Lemma scale_fl_ok_box : forall m bounds, 0 < cols m -> length bounds = cols m -> good_box bounds ->
  exists v, scaler bounds v /\ scale_inplace_fl m bounds = Ok (mkMat (cols m) (map (to_physical_fl v) (rows m))).
Proof.
  intros m bounds Hc HL HB. pose proof HB as HB0. unfold good_box in HB. rewrite Forall_forall in HB.
  assert (Hp : ProofsScale.pairs bounds).
  { unfold ProofsScale.pairs. apply Forall_forall. intros r Hr. destruct (HB r Hr) as (lo & up & -> & _). simpl; eauto. }
  assert (Hn : bounds <> []) by (intros ->; simpl in HL; lia).
  destruct (bounds_columns_pairs bounds Hp Hn) as [lu Hlu]. destruct (bounds_columns_nth _ _ Hlu) as [Ll Hnth].
  assert (Hill : any_illegal lu = false).
  { destruct (any_illegal lu) eqn:E; auto. apply any_illegal_true in E. destruct E as (j & lo & up & Hj & Hle). apply Hnth in Hj. destruct Hj as [r Hr].
    apply nth_error_In in Hr. destruct (HB _ Hr) as (lo' & up' & E & Hlt). injection E as -> -> ->. lra. }
  exists lu. split.
  - split; [auto|]. intros j Hj. apply Hnth. exists []. apply good_box_nth; auto.
  - unfold scale_inplace_fl, check_bounds. rewrite Hlu. cbn [bind]. rewrite Hill, Hill.
    unfold broadcast. replace (length lu =? cols m) with true by (symmetry; apply Nat.eqb_eq; lia).
    unfold inplace. cbn [rows cols]. rewrite map_map. reflexivity.
Qed.

(** ** The sample *)
Section Sample.
Variables (p : problem) (ls : list string) (N levels : nat) (draws : nat -> draw).
Hypothesis HP : morris_problem p ls.
Hypothesis HW : wide_doubles (p_bounds p).
Hypothesis L2 : 2 <= levels.
Hypothesis LU : (Z.of_nat levels <= 2 ^ 47)%Z.
Hypothesis HD : valid_draws ls levels draws.

Lemma step_wide : (/ 2 + bpow radix2 (-48) <= step levels)%R.
Proof using L2 LU.
  clear HP HW HD. assert (A : (2 <= INR levels)%R) by (change 2%R with (INR 2); apply le_INR; auto).
  assert (B : (INR levels <= 140737488355328)%R). { rewrite INR_IZR_INZ. apply (IZR_le _ 140737488355328). auto. }
  unfold step. change (bpow radix2 (-48)) with (/ 281474976710656)%R. apply (Rmult_le_reg_r (2 * (INR levels - 1))); [lra|].
  unfold Rdiv. rewrite Rmult_assoc, Rinv_l by lra. nra.
Qed.

Lemma sample_both : exists v Ts, scaler (p_bounds p) v /\ length Ts = N /\ Forall (trajectory ls (fun _ => step levels)) Ts /\
  Forall (fun T => length T = length (pd_unique ls) + 1) Ts /\ Forall (Forall (fun r => length r = length ls)) Ts /\
  (forall x, In x (concat (concat Ts)) -> double (phi levels x) /\ (0 <= phi levels x <= 1)%R /\ (Rabs (phi levels x - x) <= bpow radix2 (-51))%R) /\
  (forall rnd score argsort nq tq chunk local, exists p', morris_sample rnd score argsort nq tq chunk p N levels None local draws
    = (p', Ok (InPlace (mkMat (p_num_vars p) (map (to_physical v) (concat Ts)))))) /\
  morris_sample_fl p N levels draws = Ok (mkMat (p_num_vars p) (map (to_physical_fl v) (map (map (phi levels)) (concat Ts)))).
Proof.
  assert (LU' : (Z.of_nat levels <= 2 ^ 52)%Z) by lia.
  destruct (sample_fl levels L2 LU' ls N draws HD) as (Ts & E & L & T & F & P).
  destruct (morris_problem_groups p ls HP) as (p1 & E1 & Eg & Ev & Eb & Ed & _).
  pose proof HP as (Hls & Hn & Hp & HL & HB & Hdi).
  destruct (scale_fl_ok_box (mkMat (length ls) (map (map (phi levels)) (concat Ts))) (p_bounds p)) as (v & Hv & Es); cbn [cols]; try congruence.
  exists v, Ts. split; auto. split; auto. split; auto. split.
  { eapply Forall_impl; [|exact T]. intros T0 (order & A & B & C & _). rewrite C. f_equal. apply distinct_count_unique. exists order. auto. }
  split. { eapply Forall_impl; [|exact T]. intros T0 (order & A & B & C & D & _). auto. }
  split; auto. split.
  - intros rnd score argsort nq tq chunk local.
    destruct (morris_sample_plain rnd score argsort nq tq chunk p ls N levels None local draws HP L2 HD (or_introl eq_refl)) as (p' & v' & Ts' & Hv' & E' & _ & _ & _ & R).
    exists p'. rewrite R. rewrite (scaler_unique _ v' v Hv' Hv). assert (concat Ts' = concat Ts) by congruence. rewrite H. auto.
  - unfold morris_sample_fl. rewrite E1. cbn [bind]. rewrite Eg, F. cbn [bind]. rewrite Ed, Hdi, Eb. rewrite concat_map in Es. rewrite concat_map, Es. cbn [cols rows]. rewrite Hn. auto.
Qed.

(** Exact and rounded coordinates change in the same direction. *)
Lemma sample_order : forall v Ts, scaler (p_bounds p) v -> length Ts = N -> Forall (trajectory ls (fun _ => step levels)) Ts ->
  Forall (fun T => length T = length (pd_unique ls) + 1) Ts -> Forall (Forall (fun r => length r = length ls)) Ts ->
  (forall x, In x (concat (concat Ts)) -> double (phi levels x) /\ (0 <= phi levels x <= 1)%R /\ (Rabs (phi levels x - x) <= bpow radix2 (-51))%R) ->
  same_order (length (pd_unique ls) + 1) N (p_num_vars p)
    (map (to_physical v) (concat Ts)) (map (to_physical_fl v) (map (map (phi levels)) (concat Ts))).
Proof.
  intros v Ts Hv HN HT HS HR HPhi i k j Hi Hk Hj. pose proof HP as (Hls & Hn & Hp & HL & HB & Hdi). set (size := length (pd_unique ls) + 1) in *.
  destruct Hv as [Lv Hv]. specialize (Hv j ltac:(lia)). destruct (HW j ltac:(lia)) as (Dl & Du & Wd).
  set (lo := lower (p_bounds p) j) in *. set (up := upper (p_bounds p) j) in *.
  assert (Hi' : i < length Ts) by lia. pose proof (nth_In Ts [] Hi') as HiT.
  rewrite Forall_forall in HT, HS, HR. pose proof (HT _ HiT) as (order & Ho). pose proof (HS _ HiT) as Hlen. pose proof (HR _ HiT) as Hrow. rewrite Forall_forall in Hrow.
  assert (ET : forall k, k < size -> In (nth k (nth i Ts []) []) (nth i Ts [])) by (intros; apply nth_In; lia).
  set (x := fun k => nth j (nth k (nth i Ts []) []) 0%R).
  assert (Hx : forall k, k < size -> nth_error (nth k (nth i Ts []) []) j = Some (x k)).
  { intros k' Hk'. apply nth_error_nth'. rewrite (Hrow _ (ET k' Hk')). lia. }
  assert (Px : forall k, k < size -> double (phi levels (x k)) /\ (0 <= phi levels (x k) <= 1)%R /\ (Rabs (phi levels (x k) - x k) <= bpow radix2 (-51))%R).
  { intros k' Hk'. apply HPhi. apply in_concat. exists (nth k' (nth i Ts []) []). split; [|eapply nth_error_In; apply Hx; auto].
    apply in_concat. exists (nth i Ts []). split; auto. }
  assert (Xe : forall k, k < size -> x_at size (map (to_physical v) (concat Ts)) i k j = (lo + x k * (up - lo))%R).
  { intros k' Hk'. rewrite concat_map, x_at_nth.
    - rewrite (nth_indep _ [] (map (to_physical v) [])) by (rewrite map_length; lia). rewrite map_nth.
      rewrite (nth_indep _ [] (to_physical v [])) by (rewrite map_length; lia). rewrite map_nth. apply nth_error_nth. rewrite to_physical_nth, Hx, Hv by auto. auto.
    - unfold size; lia.
    - apply Forall_forall. intros T0 HT0. apply in_map_iff in HT0. destruct HT0 as (T1 & <- & HT1). rewrite map_length. auto.
    - auto. }
  assert (Xf : forall k, k < size -> x_at size (map (to_physical_fl v) (map (map (phi levels)) (concat Ts))) i k j = scale_fl lo up (phi levels (x k))).
  { intros k' Hk'. rewrite map_map, concat_map, x_at_nth.
    - rewrite (nth_indep _ [] (map (fun r => to_physical_fl v (map (phi levels) r)) [])) by (rewrite map_length; lia). rewrite map_nth.
      rewrite (nth_indep _ [] ((fun r => to_physical_fl v (map (phi levels) r)) [])) by (rewrite map_length; lia).
      rewrite (map_nth (fun r => to_physical_fl v (map (phi levels) r))). apply nth_error_nth. rewrite to_physical_fl_nth, nth_error_map, Hx, Hv by auto. auto.
    - unfold size; lia.
    - apply Forall_forall. intros T0 HT0. apply in_map_iff in HT0. destruct HT0 as (T1 & <- & HT1). rewrite map_length. auto.
    - auto. }
  rewrite !Xe, !Xf by lia. assert (B : (lo < up)%R) by (pose proof (bpow_gt_0 radix2 (-1000)); lra).
  assert (Hjx : exists l, nth_error ls j = Some l) by (apply nth_error_lt_Some; lia). destruct Hjx as (l & Hjl).
  assert (Hr : exists r, nth_error order r = Some l). { apply In_nth_error. destruct Ho as (_ & HI & _). apply HI. eapply nth_error_In; eauto. }
  destruct Hr as (r & Hr). destruct (coord_path ls _ order _ j l r Ho Hjl Hr) as (s & a & Hs & Hp'). rewrite Hlen in Hp'.
  assert (Hup : forall y y', (exists k, k < size /\ y = x k) -> (exists k, k < size /\ y' = x k) -> y' = (y + step levels)%R ->
     (scale_fl lo up (phi levels y) < scale_fl lo up (phi levels y'))%R).
  { intros y y' (k1 & K1 & ->) (k2 & K2 & ->) Ey. destruct (Px k1 K1) as (D1 & R1 & A1). destruct (Px k2 K2) as (D2 & R2 & A2). apply scale_step; auto; try lra.
    pose proof step_wide as SW. apply Rabs_le_inv in A1. apply Rabs_le_inv in A2. change (bpow radix2 (-48)) with (/ 281474976710656)%R in SW.
    change (bpow radix2 (-51)) with (/ 2251799813685248)%R in *. change (bpow radix2 (-49)) with (/ 562949953421312)%R. lra. }
  assert (Hst : (0 < step levels)%R). { pose proof step_wide. pose proof (bpow_gt_0 radix2 (-48)). lra. }
  destruct (Nat.eq_dec k r) as [->|Ne].
  - assert (X1 : x r = a). { unfold x. rewrite Hp' by lia. rewrite Nat.leb_refl. auto. }
    assert (X2 : x (r + 1)%nat = (a + s * step levels)%R). { unfold x. rewrite Hp' by lia. destruct (Nat.leb_spec (r + 1) r); [lia|auto]. }
    assert (W : (0 < up - lo)%R) by lra.
    destruct Hs as [-> | ->].
    + assert (Q : (scale_fl lo up (phi levels (x r)) < scale_fl lo up (phi levels (x (r + 1)%nat)))%R) by (apply Hup; [exists r; split; [lia|auto]|exists (r + 1); auto|rewrite X1, X2; ring]).
      assert (Q2 : (x r < x (r + 1)%nat)%R) by (rewrite X1, X2; lra). split; split; intros; nra.
    + assert (Q : (scale_fl lo up (phi levels (x (r + 1)%nat)) < scale_fl lo up (phi levels (x r)))%R) by (apply Hup; [exists (r + 1); auto|exists r; split; [lia|auto]|rewrite X1, X2; ring]).
      assert (Q2 : (x (r + 1)%nat < x r)%R) by (rewrite X1, X2; lra). split; split; intros; nra.
  - assert (Q : x (k + 1) = x k). { unfold x. rewrite !Hp' by lia. destruct (Nat.leb_spec (k + 1) r), (Nat.leb_spec k r); auto; lia. }
    rewrite Q. split; split; intros; lra.
Qed.
End Sample.

Lemma physical_fl_double : forall v r x, In x (to_physical_fl v r) -> double x.
Proof. intros v r x H. unfold to_physical_fl in H. apply In_nth_error in H. destruct H as (j & H). rewrite nth_error_map2 in H.
  destruct (nth_error _ j); [|discriminate]. destruct (nth_error v j); [|discriminate]. injection H as <-. apply double_fl. Qed.

(** ** Together *)

Theorem analysis_unchanged : forall p ls N levels draws rnd score argsort nq tq chunk local,
  morris_problem p ls -> wide_doubles (p_bounds p) -> 2 <= levels -> (Z.of_nat levels <= 2 ^ 47)%Z -> valid_draws ls levels draws ->
  exists p' X X', morris_sample rnd score argsort nq tq chunk p N levels None local draws = (p', Ok (InPlace (mkMat (p_num_vars p) X))) /\
    morris_sample_fl p N levels draws = Ok (mkMat (p_num_vars p) X') /\ length X' = length X /\ (forall x, In x (concat X') -> double x) /\
    forall q Y conf_level levels' resample, labels_of q ls -> length Y = length X ->
      morris_analyze nq q (mkMat (p_num_vars p) X') Y conf_level false levels' resample = morris_analyze nq q (mkMat (p_num_vars p) X) Y conf_level false levels' resample.
Proof.
  intros p ls N levels draws rnd score argsort nq tq chunk local HP HW L2 LU HD.
  destruct (sample_both p ls N levels draws HP L2 LU HD) as (v & Ts & Hv & HN & HT & HS & HR & HF & E1 & E2).
  destruct (E1 rnd score argsort nq tq chunk local) as (p' & E). eexists p', _, _. split; [exact E|]. split; [exact E2|]. split; [rewrite !map_length; auto|]. split.
  - intros x Hx. apply in_concat in Hx. destruct Hx as (r & Hr & Hx). apply in_map_iff in Hr. destruct Hr as (r0 & <- & _). eapply physical_fl_double; eauto.
  - intros q Y conf_level levels' resample Hq HY. symmetry. apply (analysis_same nq q ls _ _ Y _ N); auto.
    + rewrite HY, !map_length. auto.
    + rewrite HY, map_length, (ProofsMorris5.concat_length _ (length (pd_unique ls) + 1)), HN by auto. lia.
    + apply sample_order; auto.
Qed.

Theorem effects_double : forall nq p q ls N levels draws f conf_level resample,
  morris_problem p ls -> wide_doubles (p_bounds p) -> 2 <= levels -> (Z.of_nat levels <= 2 ^ 47)%Z -> valid_draws ls levels draws ->
  labels_of q ls -> p_num_vars q = p_num_vars p -> (0 < conf_level < 1)%R -> 0 < N -> (forall j, valid_resample N (resample j)) ->
  exists Ts E out, morris_sample_fl p N levels draws = Ok (mkMat (p_num_vars p) (concat Ts)) /\ length Ts = N /\
    snd (morris_analyze nq q (mkMat (p_num_vars p) (concat Ts)) (map f (concat Ts)) conf_level false levels resample) = Ok out /\
    summarises nq conf_level resample ls N E out /\
    forall i j, i < N -> j < length ls -> forall e, is_effect (step levels) (nth i Ts []) (map f (nth i Ts [])) j e <-> e = E i j.
Proof.
  intros nq p q ls N levels draws f conf_level resample HP HW L2 LU HD Hq Hqn Hc HN0 Hre.
  destruct (sample_both p ls N levels draws HP L2 LU HD) as (v & Ts & Hv & HN & HT & HS & HR & HF & _ & E2).
  pose proof (sample_order p ls N levels HP HW L2 LU v Ts Hv HN HT HS HR HF) as SO.
  pose proof HP as (Hls & Hn & Hp & HL & HB & Hdi).
  set (g := fun r => to_physical_fl v (map (phi levels) r)) in *.
  set (Ts' := map (map g) Ts). set (Te := map (map (to_physical v)) Ts). set (size := length (pd_unique ls) + 1) in *.
  assert (EX : map (to_physical_fl v) (map (map (phi levels)) (concat Ts)) = concat Ts') by (unfold Ts'; rewrite map_map, concat_map; reflexivity).
  assert (EE : map (to_physical v) (concat Ts) = concat Te) by (unfold Te; rewrite concat_map; reflexivity).
  rewrite EX in *. rewrite EE in *.
  assert (SE : Forall (fun T => length T = size) Te).
  { unfold Te. apply Forall_forall. intros T HT0. apply in_map_iff in HT0. destruct HT0 as (T1 & <- & HT1). rewrite map_length. rewrite Forall_forall in HS. auto. }
  assert (SF : Forall (fun T => length T = size) Ts').
  { unfold Ts'. apply Forall_forall. intros T HT0. apply in_map_iff in HT0. destruct HT0 as (T1 & <- & HT1). rewrite map_length. rewrite Forall_forall in HS. auto. }
  assert (LE : length Te = N) by (unfold Te; rewrite map_length; auto). assert (LF : length Ts' = N) by (unfold Ts'; rewrite map_length; auto).
  destruct (effects_reported nq q ls (fun j => step levels * ranges (p_bounds p) j)%R Te (map (map f) Ts') conf_level levels resample) as (E & out & EO & Su & Hef).
  - auto.
  - lia.
  - lia.
  - auto.
  - auto.
  - intros E0. rewrite E0 in LE. simpl in LE. lia.
  - split.
    + unfold Te. apply Forall_forall. intros T HTi. apply in_map_iff in HTi. destruct HTi as (T0 & <- & HT0). rewrite Forall_forall in HT.
      apply (trajectory_scaled ls (fun _ => step levels)); auto. lia.
    + assert (G : forall (A B : list (list (list R))), Forall (fun T => length T = size) A -> Forall (fun T => length T = size) B -> length A = length B ->
        Forall2 (fun (T : list (list R)) (y : list R) => length y = length T) A (map (map f) B)).
      { induction A as [|a A IH]; intros [|b B] HA HB' HL'; try discriminate; cbn [map]; constructor.
        - inversion HA; inversion HB'; subst. rewrite map_length. congruence.
        - inversion HA; inversion HB'; subst. apply IH; auto. }
      apply G; auto. lia.
  - intros j Hj. pose proof (step_wide levels L2 LU) as SW. pose proof (bpow_gt_0 radix2 (-48)). destruct (good_box_nth (p_bounds p) j HB ltac:(lia)) as [_ Hlt].
    unfold ranges. apply Rmult_lt_0_compat; lra.
  - rewrite LE. auto.
  - rewrite Hqn in EO. exists Ts', E, out. split; [exact E2|]. split; auto.
    assert (EY : map f (concat Ts') = concat (map (map f) Ts')) by apply concat_map.
    split.
    { rewrite EY, <- EO. f_equal. symmetry. apply (analysis_same nq q ls _ _ _ _ N); auto.
      - rewrite <- EY, map_length. rewrite !(ProofsMorris5.concat_length _ size) by auto. lia.
      - rewrite <- EY, map_length. auto.
      - rewrite <- EY, map_length, (ProofsMorris5.concat_length _ size) by auto. lia. }
    rewrite LE in Su, Hef. split; auto. intros i j Hi Hj e. rewrite <- Hef by auto.
    assert (NY : nth i (map (map f) Ts') [] = map f (nth i Ts' [])). { rewrite (nth_indep _ [] (map f [])) by (rewrite map_length; lia). apply map_nth. }
    rewrite NY.
    assert (LTe : length (nth i Te []) = size) by (rewrite Forall_forall in SE; apply SE, nth_In; lia).
    assert (LTf : length (nth i Ts' []) = size) by (rewrite Forall_forall in SF; apply SF, nth_In; lia).
    assert (ord : forall r, r + 1 < size ->
      ((nth j (nth r (nth i Te []) []) 0 < nth j (nth (r + 1)%nat (nth i Te []) []) 0)%R <-> (nth j (nth r (nth i Ts' []) []) 0 < nth j (nth (r + 1)%nat (nth i Ts' []) []) 0)%R) /\
      ((nth j (nth (r + 1)%nat (nth i Te []) []) 0 < nth j (nth r (nth i Te []) []) 0)%R <-> (nth j (nth (r + 1)%nat (nth i Ts' []) []) 0 < nth j (nth r (nth i Ts' []) []) 0)%R)).
    { intros r Hr. assert (HJ : j < p_num_vars p) by lia. pose proof (SO i r j Hi Hr HJ) as S. rewrite !x_at_nth in S by (auto; lia). exact S. }
    unfold is_effect. split.
    + intros (r & a & b & Ha & Hb & Hc'). assert (Hr : r + 1 < size) by (rewrite <- LTf; eapply nth_error_Some_lt; eauto).
      exists r, (nth r (nth i Te []) []), (nth (r + 1) (nth i Te []) []).
      split; [apply nth_error_nth'; lia|]. split; [apply nth_error_nth'; lia|]. rewrite <- (nth_error_nth _ _ [] Ha), <- (nth_error_nth _ _ [] Hb) in Hc'.
      destruct (ord r Hr) as (O1 & O2). destruct Hc' as [[H1 H2]|[H1 H2]]; [left|right]; split; auto; [apply O1|apply O2]; auto.
    + intros (r & a & b & Ha & Hb & Hc'). assert (Hr : r + 1 < size) by (rewrite <- LTe; eapply nth_error_Some_lt; eauto).
      exists r, (nth r (nth i Ts' []) []), (nth (r + 1) (nth i Ts' []) []).
      split; [apply nth_error_nth'; lia|]. split; [apply nth_error_nth'; lia|]. rewrite <- (nth_error_nth _ _ [] Ha), <- (nth_error_nth _ _ [] Hb) in Hc'.
      destruct (ord r Hr) as (O1 & O2). destruct Hc' as [[H1 H2]|[H1 H2]]; [left|right]; split; auto; [apply O1|apply O2]; auto.
Qed.
