(** * The brute-force selection in rounded arithmetic is nearly optimal. *)
From Coq Require Import Reals String List Arith ZArith Bool Lia Lra Psatz Permutation Sorted.
From Flocq Require Import Core.
From Verif Require Import Base Arrays ListFacts ModelGroups ModelScale Stats Sums SpecGroups SpecSobol SpecFF ModelMorris ModelMorrisAnalyze SpecMorris ModelDouble ModelDouble4 ModelSingle SpecSingle.
From Verif Require Import ProofsScale ProofsMorris3 ProofsMorris5 ProofsDouble ProofsDouble5 ProofsSingle ProofsSingle2.
Import ListNotations.
Local Open Scope R_scope.

Notation pairs := SpecMorris.pairs.

Section Brute.
Variables arr_cdist arr_sum arr_einsum : nat -> tree.
Notation dist := (compute_distance_fl arr_cdist arr_sum).

(** The score the program computes for a combination. *)
Definition score_of (X : list (list R)) (size : nat) (c : list nat) : R :=
  score_fl arr_einsum (map (fun ab => dist (block X size (fst ab)) (block X size (snd ab))) (pairs c)).

Lemma combo_score_of : forall X g N k c, selection N k c ->
  combo_score (score_fl arr_einsum) (distance_matrix_fl arr_cdist arr_sum X g N) (combinations 2 (seq 0 k)) c = score_of X (g + 1) c.
Proof.
  intros X g N k c (L & Hin & Hs). rewrite <- L, combo_score_pairs. unfold score_of. f_equal. apply map_ext_in. intros (a, b) Hab.
  destruct (pairs_sorted _ _ _ Hs Hab) as (A & B & C). cbn [fst snd]. unfold distance_matrix_fl. rewrite dm_at_tab by auto.
  apply Nat.ltb_lt in A. rewrite A, !traj_block. reflexivity.
Qed.

Lemma selection_exists : forall N k, (k <= N)%nat -> selection N k (seq 0 k).
Proof.
  intros N k H. split; [apply seq_length|]. split.
  - intros x Hx. apply in_seq in Hx. lia.
  - clear. generalize 0%nat. induction k; intros a; simpl; constructor; auto. apply List.Forall_forall. intros x Hx. apply in_seq in Hx. lia.
Qed.

Lemma brute_force_fl_max : forall chunk X g N k D, trajectories_of N (g + 1) D X -> (1 <= k <= N)%nat -> (1 <= chunk)%nat ->
  exists c, brute_force_fl arr_cdist arr_sum arr_einsum chunk X g N k = Ok c /\ selection N k c /\
    forall c', selection N k c' -> score_of X (g + 1) c' <= score_of X (g + 1) c.
Proof.
  intros chunk X g N k D HX Hk Hc.
  unfold brute_force_fl, find_most_distant_fl. rewrite (check_input_ok X g N D HX) by lia. cbn [bind].
  set (M := distance_matrix_fl arr_cdist arr_sum X g N). set (cs := combinations k (seq 0 N)).
  set (f := combo_score (score_fl arr_einsum) M (combinations 2 (seq 0 k))).
  assert (Hne : cs <> []).
  { intros E. assert (Q : In (seq 0 k) cs) by (apply combinations_selection, selection_exists; lia). rewrite E in Q. auto. }
  assert (Hpos : (0 < length cs)%nat) by (destruct cs; [congruence|simpl; lia]).
  set (ch := if (length cs <? chunk)%nat then length cs else chunk).
  assert (Hch : (0 < ch)%nat) by (unfold ch; destruct (length cs <? chunk)%nat; lia).
  destruct (grouper_scores _ _ f 0%R ch Hch (length cs) cs [] 0 (Nat.le_refl _) eq_refl) as [n Hn].
  cbn [app] in Hn. rewrite Hn. cbn [bind snd].
  unfold find_maximum.
  destruct (argmax_spec (map f cs)) as (i & v & Ei & Hv & Hmax).
  { destruct cs; [congruence|discriminate]. }
  rewrite Ei. cbn [bind]. fold cs. rewrite nth_error_map' in Hv.
  destruct (nth_error cs i) as [c|] eqn:Ec; [|discriminate]. injection Hv as <-.
  assert (Hsel : selection N k c) by (apply combinations_selection; eapply nth_error_In; eauto).
  exists c. split; [rewrite sorted_id; [auto | apply Hsel]|]. split; auto.
  intros c' Hc'. rewrite <- (combo_score_of X g N k c' Hc'), <- (combo_score_of X g N k c Hsel).
  apply Hmax. apply (in_map f). apply combinations_selection; auto.
Qed.

Hypothesis A1 : arrangement arr_cdist.
Hypothesis A2 : arrangement arr_sum.
Hypothesis A3 : arrangement arr_einsum.

Lemma block_in : forall (X : list (list R)) size j x, In x (block X size j) -> In x X.
Proof. intros X size j x H. unfold block in H. rewrite <- (firstn_skipn (j * size) X), <- (firstn_skipn size (skipn (j * size) X)). apply in_or_app. right. apply in_or_app. left. exact H. Qed.

Lemma pairs_length : forall A (c : list A), (2 * length (pairs c) = length c * (length c - 1))%nat.
Proof. induction c as [|x c IH]; auto. cbn [pairs length]. rewrite app_length, map_length. nia. Qed.

Definition quality (D n p : nat) : R := rd ^ (D + n * n + 2) * rs ^ (p + 3).
Lemma quality_01 : forall D n p, 0 <= quality D n p <= 1.
Proof. intros. apply mult_01; apply pow_01; [apply rd_01|apply rs_01]. Qed.

Lemma spread_close : forall X g N D k c s, trajectories_of N (g + 1) D X -> separated (bpow radix2 (-60)) X -> selection N k c ->
  is_spread (fun x => x) length_of X (g + 1) c s -> within (quality D (g + 1) (length (pairs c))) s (score_of X (g + 1) c).
Proof.
  intros X g N D k c s (LX & FX & D0 & S0) Sep (Lc & Hin & Hs) (ds & F & ->). unfold quality, score_of.
  assert (LD : length (pairs c) = length ds) by (clear -F; induction F; simpl; auto).
  replace (length (pairs c) + 3)%nat with (1 + (length ds + 2))%nat by lia.
  rewrite (pow_add rs 1), pow_1, <- Rmult_assoc. apply score_close; auto.
  { apply mult_01; [apply pow_01, rd_01|apply rs_01]. }
  assert (P : forall ab, In ab (pairs c) -> (fst ab < N /\ snd ab < N)%nat).
  { intros (a, b) H. destruct (pairs_sorted _ _ _ Hs H) as (A & B & C). split; auto. }
  assert (BL : forall j, (j < N)%nat -> points D (g + 1) (block X (g + 1) j)).
  { intros j J. split; [apply (block_length _ X (g + 1) N); auto|]. rewrite List.Forall_forall in *. intros x Hx. apply FX. eapply block_in; eauto. }
  clear - F P BL Sep D0 S0 A1 A2. induction F as [|ab d ps ds H F IH]; constructor.
  - destruct (P ab (or_introl eq_refl)) as (Pa & Pb). apply distance_close; auto.
    intros x y Hx Hy j a b Ha Hb. apply (Sep x y j); auto; eapply block_in; eauto.
  - apply IH. intros; apply P; simpl; auto.
Qed.

Theorem brute_force_fl_close : forall chunk X g N k D, trajectories_of N (g + 1) D X -> separated (bpow radix2 (-60)) X -> (1 <= k <= N)%nat -> (1 <= chunk)%nat ->
  exists c s, brute_force_fl arr_cdist arr_sum arr_einsum chunk X g N k = Ok c /\ selection N k c /\
    is_spread (fun x => x) length_of X (g + 1) c s /\
    forall c' s', selection N k c' -> is_spread (fun x => x) length_of X (g + 1) c' s' ->
      (1 - bpow radix2 (-53)) ^ (2 * (D + (g + 1) * (g + 1) + 2)) * (1 - bpow radix2 (-24)) ^ (k * (k - 1) + 6) * s' <= s.
Proof.
  intros chunk X g N k D HX Sep Hk Hc. destruct (brute_force_fl_max chunk X g N k D HX Hk Hc) as (c & E & Sc & M).
  exists c. eexists. split; [exact E|]. split; auto. split; [apply (combo_score_spread (fun x => x) length_of X g N c k Sc)|].
  intros c' s' Sc' Hs'. set (s := combo_score _ _ _ _).
  assert (Hs : is_spread (fun x => x) length_of X (g + 1) c s) by (apply combo_score_spread; auto). clearbody s.
  pose proof (spread_close X g N D k c s HX Sep Sc Hs) as (W1 & W2). pose proof (spread_close X g N D k c' s' HX Sep Sc' Hs') as (W3 & W4).
  specialize (M c' Sc'). assert (L1 : length (pairs c) = length (pairs c')). { pose proof (pairs_length _ c). pose proof (pairs_length _ c'). destruct Sc as (? & _), Sc' as (? & _). rewrite H1 in H. rewrite H2 in H0. lia. }
  rewrite <- L1 in W3, W4. set (q := quality D (g + 1) (length (pairs c))) in *. pose proof (quality_01 D (g + 1) (length (pairs c))) as Q. fold q in Q.
  assert (T : q * q * s' <= s). { apply Rle_trans with (q * score_of X (g + 1) c); [|exact W2]. rewrite Rmult_assoc. apply Rmult_le_compat_l; [tauto|]. lra. }
  assert (EQ : q * q = rd ^ (2 * (D + (g + 1) * (g + 1) + 2)) * rs ^ (k * (k - 1) + 6)).
  { unfold q, quality. pose proof (pairs_length _ c) as PL. destruct Sc as (Lc & _). rewrite Lc in PL.
    replace (k * (k - 1) + 6)%nat with ((length (pairs c) + 3) + (length (pairs c) + 3))%nat by lia.
    replace (2 * (D + (g + 1) * (g + 1) + 2))%nat with ((D + (g + 1) * (g + 1) + 2) + (D + (g + 1) * (g + 1) + 2))%nat by lia. rewrite !pow_add. ring. }
  fold rd rs. rewrite <- EQ. exact T.
Qed.
End Brute.

(** ** Small designs *)
Lemma bernoulli : forall u n, 0 <= u <= 1 -> 1 - INR n * u <= (1 - u) ^ n.
Proof.
  intros u n U. induction n as [|n IH]; [simpl; lra|]. rewrite S_INR. cbn [pow]. pose proof (pos_INR n). nra.
Qed.

Lemma loss : forall D n k, (Z.of_nat (D + n * n) <= 2 ^ 20)%Z -> (k <= 10)%nat ->
  1 <= (1 + bpow radix2 (-17)) * ((1 - bpow radix2 (-53)) ^ (2 * (D + n * n + 2)) * (1 - bpow radix2 (-24)) ^ (k * (k - 1) + 6)).
Proof.
  intros D n k H K.
  assert (B1 : 1 - bpow radix2 (-31) <= (1 - bpow radix2 (-53)) ^ (2 * (D + n * n + 2))).
  { eapply Rle_trans; [|apply bernoulli]. 2:{ split; [apply bpow_ge_0|]. change 1 with (bpow radix2 0). apply bpow_le. lia. }
    assert (INR (2 * (D + n * n + 2)) <= bpow radix2 22).
    { rewrite INR_IZR_INZ. change (bpow radix2 22) with (IZR (2 ^ 22)). apply IZR_le. lia. }
    assert (bpow radix2 22 * bpow radix2 (-53) = bpow radix2 (-31)) by (rewrite <- bpow_plus; reflexivity).
    pose proof (bpow_gt_0 radix2 (-53)). nra. }
  assert (B2 : 1 - 96 * bpow radix2 (-24) <= (1 - bpow radix2 (-24)) ^ (k * (k - 1) + 6)).
  { eapply Rle_trans; [|apply bernoulli]. 2:{ split; [apply bpow_ge_0|]. change 1 with (bpow radix2 0). apply bpow_le. lia. }
    assert (INR (k * (k - 1) + 6) <= 96). { rewrite INR_IZR_INZ. apply IZR_le. nia. }
    pose proof (bpow_gt_0 radix2 (-24)). nra. }
  apply Rle_trans with ((1 + bpow radix2 (-17)) * ((1 - bpow radix2 (-31)) * (1 - 96 * bpow radix2 (-24)))).
  - simpl. lra.
  - apply Rmult_le_compat_l. { pose proof (bpow_gt_0 radix2 (-17)). lra. } apply Rmult_le_compat; auto; simpl; lra.
Qed.

Lemma length_of_nonneg : forall ds, 0 <= length_of ds.
Proof. intros. apply sqrt_pos. Qed.

Theorem brute_force_fl_near : forall a1 a2 a3 chunk X g N k D, arrangement a1 -> arrangement a2 -> arrangement a3 ->
  trajectories_of N (g + 1) D X -> separated (bpow radix2 (-60)) X -> (1 <= k <= N)%nat -> (1 <= chunk)%nat ->
  (Z.of_nat (D + (g + 1) * (g + 1)) <= 2 ^ 20)%Z -> (k <= 10)%nat ->
  exists c s, brute_force_fl a1 a2 a3 chunk X g N k = Ok c /\ selection N k c /\
    is_spread (fun x => x) length_of X (g + 1) c s /\
    forall c' s', selection N k c' -> is_spread (fun x => x) length_of X (g + 1) c' s' -> s' <= (1 + bpow radix2 (-17)) * s.
Proof.
  intros a1 a2 a3 chunk X g N k D A1 A2 A3 HX Sep Hk Hc HD K.
  destruct (brute_force_fl_close a1 a2 a3 A1 A2 A3 chunk X g N k D HX Sep Hk Hc) as (c & s & E & Sc & Hs & M).
  exists c, s. split; auto. split; auto. split; auto. intros c' s' Sc' Hs'. specialize (M c' s' Sc' Hs').
  pose proof (loss D (g + 1) k HD K) as L. set (z := (1 - bpow radix2 (-53)) ^ _ * _) in *. clearbody z.
  assert (P : 0 <= s') by (destruct Hs' as (ds & _ & ->); apply length_of_nonneg).
  pose proof (bpow_gt_0 radix2 (-17)) as B. set (b := bpow radix2 (-17)) in *. clearbody b. clear - M L P B.
  assert (s' <= (1 + b) * (z * s')) by nra. nra.
Qed.

Lemma coarse_separated : forall X, coarse X -> separated (bpow radix2 (-60)) X.
Proof.
  intros X C x y j a b Hx Hy Ha Hb. destruct (Req_dec a b) as [|NE]; [left; auto|right].
  assert (M : forall z v, In z X -> In v z -> exists m, v = IZR m * bpow radix2 (-60)).
  { intros z v Hz Hv. destruct (C z v Hz Hv) as (Dv & [->|V]); [exists 0%Z; ring|].
    apply FLT_format_generic in Dv; [|reflexivity]. destruct Dv as [[m e] H1 H2 H3]. unfold F2R in H1. simpl Fnum in *. simpl Fexp in *.
    assert (E : (-60 <= e)%Z).
    { destruct (Z_le_gt_dec (-60) e) as [|G]; auto. exfalso.
      assert (V2 : bpow radix2 (-8) <= v) by (simpl; lra). rewrite H1 in V2.
      assert (IZR m * bpow radix2 e < bpow radix2 53 * bpow radix2 (-61)).
      { apply Rlt_le_trans with (bpow radix2 53 * bpow radix2 e).
        - apply Rmult_lt_compat_r; [apply bpow_gt_0|]. change (bpow radix2 53) with (IZR (2 ^ 53)). apply IZR_lt. change (radix2 ^ 53)%Z with (2 ^ 53)%Z in H2. lia.
        - apply Rmult_le_compat_l; [apply bpow_ge_0|apply bpow_le; lia]. }
      rewrite <- bpow_plus in H. change (53 + -61)%Z with (-8)%Z in H. lra. }
    exists (m * 2 ^ (e + 60))%Z. rewrite mult_IZR, H1, Rmult_assoc. f_equal. change 2%Z with (radix_val radix2). rewrite IZR_Zpower by lia. rewrite <- bpow_plus. f_equal. lia. }
  destruct (M x a Hx (nth_error_In _ _ Ha)) as (m & ->). destruct (M y b Hy (nth_error_In _ _ Hb)) as (n & ->).
  rewrite <- Rmult_minus_distr_r, <- minus_IZR, Rabs_mult, (Rabs_pos_eq (bpow _ _)) by apply bpow_ge_0.
  assert (m <> n) by congruence. rewrite <- abs_IZR. assert (1 <= IZR (Z.abs (m - n))) by (apply IZR_le; lia).
  pose proof (bpow_gt_0 radix2 (-60)). nra.
Qed.
