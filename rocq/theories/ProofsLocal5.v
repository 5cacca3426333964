(** * Morris: the local strategy in single precision. *)
From Coq Require Import Reals String List Arith ZArith Bool Lia Lra Psatz Permutation Sorted.
From Flocq Require Import Core.
From Verif Require Import Base Arrays ListFacts ModelGroups ModelScale ProofsScale Stats Sums SpecGroups SpecSobol SpecFF
  ProofsGroups ModelMorris ModelMorrisAnalyze SpecMorris ModelDouble ModelDouble4 ModelSingle SpecSingle ModelLocalSingle
  ProofsSingle ProofsSingle2 ProofsSingle3 ProofsSingle4 ProofsSingle5 ProofsMorris1 ProofsMorris3 ProofsMorris4 ProofsMorris5 ProofsMorris9
  ProofsLocal ProofsLocal3 ProofsLocal4.
Import ListNotations.
Local Open Scope R_scope.

Notation pairs := SpecMorris.pairs.

Section Single.
Variables a1 a2 a3 : nat -> tree.
Hypothesis A1 : arrangement a1.
Hypothesis A2 : arrangement a2.
Hypothesis A3 : arrangement a3.
Variable argsort : list R -> list nat.
Hypothesis AS : valid_argsort argsort.
Variable X : list (list R).
Variables g N D k : nat.
Hypothesis HX : trajectories_of N (g + 1) D X.
Hypothesis Sep : separated (bpow radix2 (-60)) X.
Hypothesis Hk : (2 <= k < N)%nat.

Let M := local_matrix_fl a1 a2 X g N.
Let q := quality D (g + 1) (k * (k - 1) / 2).
Let q0 := rd ^ (D + (g + 1) * (g + 1) + 2) * rs.

Lemma q0_01 : 0 <= q0 <= 1.
Proof. apply mult_01; [apply pow_01, rd_01|apply rs_01]. Qed.
Lemma q_q0 : forall p, (p <= k * (k - 1) / 2)%nat -> q <= q0 * rs ^ (p + 2).
Proof.
  intros p Hp. unfold q, q0, quality. rewrite Rmult_assoc. apply Rmult_le_compat_l; [apply pow_01, rd_01|].
  change (rs * rs ^ (p + 2)) with (rs ^ (S (p + 2))). apply pow_le1; [apply rs_01|lia].
Qed.
Lemma q_le_q0 : q <= q0.
Proof.
  apply Rle_trans with (q0 * rs ^ (0 + 2)); [apply q_q0; lia|]. pose proof q0_01. pose proof (pow_01 rs 2 rs_01).
  simpl (0 + 2)%nat. nra.
Qed.

Lemma entry_close : forall a b, (a < N)%nat -> (b < N)%nat ->
  0 <= dd X g a b /\ clear_of h60 (dm_at M a b) /\ within q0 (dd X g a b) (dm_at M a b).
Proof.
  intros a b Ha Hb. destruct HX as (LX & FX & D0 & S0).
  assert (BL : forall j, (j < N)%nat -> points D (g + 1) (block X (g + 1) j)).
  { intros j J. split; [apply (block_length _ X (g + 1) N); auto|]. rewrite List.Forall_forall in *. intros x Hx. apply FX. eapply block_in; eauto. }
  assert (Q : forall i j, (i < N)%nat -> (j < N)%nat ->
     0 <= dd X g i j /\ clear_of h60 (compute_distance_fl a1 a2 (block X (g + 1) i) (block X (g + 1) j)) /\
     within q0 (dd X g i j) (compute_distance_fl a1 a2 (block X (g + 1) i) (block X (g + 1) j))).
  { intros i j Hi Hj. apply distance_close; auto.
    - intros x y Hx Hy t u v Hu Hv. apply (Sep x y t); auto; eapply block_in; eauto.
    - apply compute_distance_spec. }
  unfold M, local_matrix_fl. rewrite dm_at_tab by auto. rewrite !traj_block.
  destruct (Nat.ltb_spec b a).
  - rewrite (dd_sym X g a b). apply Q; auto.
  - destruct (Nat.ltb_spec a b); [apply Q; auto|]. assert (a = b) by lia. subst b. rewrite dd_same.
    split; [lra|]. split; [left; auto|]. split; lra.
Qed.

Lemma score_near : forall c, (2 <= length c <= k)%nat -> (forall x, In x c -> (x < N)%nat) ->
  exists v, sum_distances (score_fl a3) M c = Ok v /\ within q (sqrt (sq X g c)) v.
Proof.
  intros c L H. unfold sum_distances. rewrite combinations_2.
  assert (P : forall (a b : nat) (l : list nat), In (a, b) (pairs l) -> In a l /\ In b l).
  { clear. induction l as [|x l IH]; simpl; [tauto|]. intros Q. apply in_app_iff in Q. destruct Q as [Q|Q].
    - apply in_map_iff in Q. destruct Q as (y & E & Hy). injection E as <- <-. auto.
    - apply IH in Q. tauto. }
  exists (score_fl a3 (map (fun yz => dm_at M (nth 0 yz 0%nat) (nth 1 yz 0%nat)) (map (fun ab => [fst ab; snd ab]) (pairs c)))).
  split; [destruct c as [|a [|b c]]; simpl in L; try lia; reflexivity|].
  rewrite map_map. cbn [nth].
  replace (sqrt (sq X g c)) with (length_of (map (fun ab => dd X g (fst ab) (snd ab)) (pairs c))).
  2: { unfold length_of, sq. change (fold_right Rplus 0) with Rsum. f_equal. f_equal. rewrite map_map. apply map_ext. intros. ring. }
  apply (within_weaken (q0 * rs ^ (length (map (fun ab => dd X g (fst ab) (snd ab)) (pairs c)) + 2))).
  - split; [apply quality_01|]. apply q_q0. rewrite map_length. pose proof (pairs_length _ c) as PL.
    apply Nat.div_le_lower_bound; [lia|]. rewrite PL. apply Nat.mul_le_mono; lia.
  - apply sqrt_pos.
  - unfold score_fl, f32. rewrite <- (round_0 radix2 (FLT_exp (-149) 24) ZnearestE). apply round_le; try typeclasses eauto. apply sqrt_pos.
  - apply score_close; auto; [apply q0_01|].
    assert (G : forall l, (forall ab, In ab l -> (fst ab < N)%nat /\ (snd ab < N)%nat) ->
      Forall2 (fun d f => 0 <= d /\ clear_of h60 f /\ within q0 d f)
        (map (fun ab => dd X g (fst ab) (snd ab)) l) (map (fun ab => dm_at M (fst ab) (snd ab)) l)).
    { induction l as [|ab l IH]; intros Hl; constructor.
      - destruct (Hl ab (or_introl eq_refl)). apply entry_close; auto.
      - apply IH. intros; apply Hl; simpl; auto. }
    apply G. intros (a, b) Hab. destruct (P _ _ _ Hab). simpl. auto.
Qed.

Lemma q_pos : 0 < q.
Proof.
  assert (forall e, (e < 0)%Z -> 0 < 1 - bpow radix2 e).
  { intros e He. assert (bpow radix2 e < bpow radix2 0) by (apply bpow_lt; lia). simpl in *. lra. }
  unfold q, quality. apply Rmult_lt_0_compat; apply pow_lt; apply H; lia.
Qed.

Theorem local_fl_close : exists c s, local_optimisation_fl a1 a2 a3 argsort X g N k = Ok c /\
  length c = k /\ (forall x, In x c -> (x < N)%nat) /\
  ((forall a b, (a < b)%nat -> (b < N)%nat -> block X (g + 1) a <> block X (g + 1) b) -> selection N k c) /\
  is_spread (fun x => x) length_of X (g + 1) c s /\
  forall c' s', selection N k c' -> is_spread (fun x => x) length_of X (g + 1) c' s' ->
    q ^ (2 * (k + 1)) * s' <= sqrt (INR (k - 1)) * s.
Proof.
  assert (HM : length M = N) by apply tab_length.
  assert (Hsq : forall r, In r M -> length r = length M).
  { intros r Hr. rewrite HM. unfold M, local_matrix_fl in Hr.
    match type of Hr with In _ (tab N N ?f) => pose proof (@tab_widths R N N f) as W end.
    rewrite List.Forall_forall in W. apply W; auto. }
  pose proof (quality_01 D (g + 1) (k * (k - 1) / 2)) as Hq. fold q in Hq.
  destruct (search_near argsort AS X g N D k HX Hk (score_fl a3) M q Hq HM Hsq) as (c & E & Lc & Rc & H).
  { intros a b Ha Hb. destruct (entry_close a b Ha Hb) as (P & C & W). apply (within_weaken q0); auto.
    - split; [tauto|apply q_le_q0].
    - apply (clear_pos h60); auto. apply h60_pos. }
  { apply score_near. }
  assert (Spread : forall c, is_spread (fun x => x) length_of X (g + 1) c (sqrt (sq X g c))).
  { intros c0. exists (map (fun ab => dd X g (fst ab) (snd ab)) (pairs c0)). split.
    - induction (pairs c0); constructor; auto. apply compute_distance_spec.
    - unfold length_of, sq. change (fold_right Rplus 0) with Rsum. f_equal. f_equal. rewrite map_map. apply map_ext. intros. ring. }
  exists c, (sqrt (sq X g c)). unfold local_optimisation_fl. rewrite (check_input_ok X g N D HX) by lia. cbn [bind].
  split; auto. split; auto. split; auto. split; [|split; auto].
  - intros Hd.
    destruct (local_search_ok (score_fl a3) argsort AS True M k) as (c2 & E2 & L2 & R2 & _ & S2); auto.
    + intros _ n m Hn Hm Hne. rewrite HM in Hn, Hm.
      change (dm_at M n n < dm_at M n m)%R.
      assert (E0 : dm_at M n n = 0).
      { unfold M, local_matrix_fl. rewrite dm_at_tab by auto. rewrite Nat.ltb_irrefl. auto. }
      rewrite E0. destruct (entry_close n m Hn Hm) as (P & _ & W & _).
      assert (Pd : 0 < dd X g n m).
      { destruct HX as (LX & FX & D0 & S0). apply (distance_positive (fun x => x) _ _ D); auto.
        - rewrite !(block_length _ X (g + 1) N); auto.
        - rewrite List.Forall_forall in *. intros x Hx. apply FX. eapply block_in; eauto.
        - rewrite List.Forall_forall in *. intros x Hx. apply FX. eapply block_in; eauto.
        - destruct (Nat.lt_ge_cases n m); [apply Hd; lia|]. intros Z. symmetry in Z. revert Z. apply Hd; lia. }
      pose proof q_pos. pose proof q_le_q0. nra.
    + lia.
    + rewrite E in E2. injection E2 as <-. split; auto.
  - intros c' s' Sc' Hs'. rewrite (is_spread_fun _ _ _ _ _ _ _ Hs' (Spread c')). specialize (H c' Sc').
    assert (Pq : 0 <= q ^ (2 * (k + 1))) by (apply pow_le; tauto).
    rewrite <- (sqrt_square (q ^ (2 * (k + 1)))) by auto. rewrite <- !sqrt_mult; try apply pos_INR; try apply sq_nonneg'; try nra.
    apply sqrt_le_1_alt. eapply Rle_trans; [|exact H]. apply Req_le. f_equal.
    rewrite <- pow_add, <- pow_mult. f_equal. lia.
Qed.
End Single.

Lemma loss_local : forall D n k, (Z.of_nat (D + n * n) <= 2 ^ 20)%Z -> (2 <= k <= 10)%nat ->
  1 <= (1 + bpow radix2 (-13)) * quality D n (k * (k - 1) / 2) ^ (2 * (k + 1)).
Proof.
  intros D n k H K. unfold quality. rewrite Rpow_mult_distr, <- !pow_mult. unfold rd, rs.
  assert (B1 : 1 - bpow radix2 (-28) <= (1 - bpow radix2 (-53)) ^ ((D + n * n + 2) * (2 * (k + 1)))).
  { eapply Rle_trans; [|apply bernoulli]. 2:{ split; [apply bpow_ge_0|]. change 1 with (bpow radix2 0). apply bpow_le. lia. }
    assert (INR ((D + n * n + 2) * (2 * (k + 1))) <= bpow radix2 25).
    { rewrite INR_IZR_INZ. change (bpow radix2 25) with (IZR (2 ^ 25)). apply IZR_le. nia. }
    assert (bpow radix2 25 * bpow radix2 (-53) = bpow radix2 (-28)) by (rewrite <- bpow_plus; reflexivity).
    pose proof (bpow_gt_0 radix2 (-53)). nra. }
  assert (B2 : 1 - 1056 * bpow radix2 (-24) <= (1 - bpow radix2 (-24)) ^ ((k * (k - 1) / 2 + 3) * (2 * (k + 1)))).
  { eapply Rle_trans; [|apply bernoulli]. 2:{ split; [apply bpow_ge_0|]. change 1 with (bpow radix2 0). apply bpow_le. lia. }
    assert (C : (k * (k - 1) / 2 <= 45)%nat) by (apply Nat.div_le_upper_bound; [lia|nia]).
    assert (INR ((k * (k - 1) / 2 + 3) * (2 * (k + 1))) <= 1056). { rewrite INR_IZR_INZ. apply IZR_le. nia. }
    pose proof (bpow_gt_0 radix2 (-24)). nra. }
  apply Rle_trans with ((1 + bpow radix2 (-13)) * ((1 - bpow radix2 (-28)) * (1 - 1056 * bpow radix2 (-24)))).
  - simpl. lra.
  - apply Rmult_le_compat_l. { pose proof (bpow_gt_0 radix2 (-13)). lra. } apply Rmult_le_compat; auto; simpl; lra.
Qed.

Theorem local_fl_near : forall a1 a2 a3 argsort X g N k D, arrangement a1 -> arrangement a2 -> arrangement a3 -> valid_argsort argsort ->
  trajectories_of N (g + 1) D X -> separated (bpow radix2 (-60)) X -> (2 <= k < N)%nat ->
  (Z.of_nat (D + (g + 1) * (g + 1)) <= 2 ^ 20)%Z -> (k <= 10)%nat ->
  exists c s, local_optimisation_fl a1 a2 a3 argsort X g N k = Ok c /\ length c = k /\ (forall x, In x c -> (x < N)%nat) /\
    ((forall a b, (a < b)%nat -> (b < N)%nat -> block X (g + 1) a <> block X (g + 1) b) -> selection N k c) /\
    is_spread (fun x => x) length_of X (g + 1) c s /\
    forall c' s', selection N k c' -> is_spread (fun x => x) length_of X (g + 1) c' s' ->
      s' <= (1 + bpow radix2 (-13)) * (sqrt (INR (k - 1)) * s).
Proof.
  intros a1 a2 a3 argsort X g N k D A1 A2 A3 HA HX Sep Hk HD K.
  destruct (local_fl_close a1 a2 a3 A1 A2 A3 argsort HA X g N D k HX Sep Hk) as (c & s & E & L & R & Sc & Hs & H).
  exists c, s. repeat (split; auto). intros c' s' Sc' Hs'. specialize (H c' s' Sc' Hs').
  pose proof (loss_local D (g + 1) k HD ltac:(lia)) as Q. set (z := quality D (g + 1) _ ^ _) in *. clearbody z.
  destruct Hs' as (ds & _ & ->). pose proof (length_of_nonneg ds) as P.
  assert (B : 0 <= 1 + bpow radix2 (-13)) by (pose proof (bpow_gt_0 radix2 (-13)); lra).
  apply Rle_trans with ((1 + bpow radix2 (-13)) * (z * length_of ds)); [|apply Rmult_le_compat_l; auto].
  rewrite <- Rmult_assoc. rewrite <- (Rmult_1_l (length_of ds)) at 1. apply Rmult_le_compat_r; auto.
Qed.

Theorem local_fl_sample : forall a1 a2 a3 argsort ls N levels draws G k, arrangement a1 -> arrangement a2 -> arrangement a3 -> valid_argsort argsort ->
  (2 <= levels)%nat -> (Z.of_nat levels <= 2 ^ 48)%Z -> valid_draws ls levels draws -> distinct_count ls G -> ls <> [] ->
  (2 <= k < N)%nat -> (Z.of_nat (length ls + (G + 1) * (G + 1)) <= 2 ^ 20)%Z -> (k <= 10)%nat ->
  exists X c s, sample_morris_fl ls N levels draws = Ok X /\ local_optimisation_fl a1 a2 a3 argsort X G N k = Ok c /\
    length c = k /\ (forall x, In x c -> (x < N)%nat) /\
    ((forall a b, (a < b)%nat -> (b < N)%nat -> block X (G + 1) a <> block X (G + 1) b) -> selection N k c) /\
    is_spread (fun x => x) length_of X (G + 1) c s /\
    forall c' s', selection N k c' -> is_spread (fun x => x) length_of X (G + 1) c' s' ->
      s' <= (1 + bpow radix2 (-13)) * (sqrt (INR (k - 1)) * s).
Proof.
  intros a1 a2 a3 argsort ls N levels draws G k A1 A2 A3 HA L2 LU V HG NE Hk HD K.
  destruct (sample_separated ls N levels draws L2 LU V) as (X & E & S).
  destruct (local_fl_near a1 a2 a3 argsort X G N k (length ls) A1 A2 A3 HA) as (c & s & Q); auto.
  - apply (sample_shape ls N levels draws); auto. lia.
  - exists X, c, s. split; auto.
Qed.

Theorem local_fl_checked : forall a1 a2 a3 argsort X g N k, length X <> (N * (g + 1))%nat \/ (forall r, In r X -> r = []) ->
  local_optimisation_fl a1 a2 a3 argsort X g N k = Err AssertionError.
Proof.
  intros a1 a2 a3 argsort X g N k H. unfold local_optimisation_fl, check_input_sample.
  destruct (Nat.eqb_spec (length X) ((g + 1) * N)) as [E|E]; [|reflexivity]. cbn [negb].
  destruct H as [H|H]; [exfalso; apply H; lia|].
  assert (Q : existsb (fun r : list R => negb (length r =? 0)%nat) X = false).
  { clear E. induction X as [|r X IH]; auto. simpl. rewrite (H r (or_introl eq_refl)). simpl. apply IH. intros; apply H; simpl; auto. }
  rewrite Q. reflexivity.
Qed.
