(** * A selection that single precision cannot tell from a better one. *)
From Coq Require Import Reals String List Arith ZArith Bool Lia Lra Psatz Permutation Sorted.
From Flocq Require Import Core.
From Verif Require Import Base Arrays ListFacts ModelGroups ModelScale Stats Sums SpecGroups SpecSobol SpecFF ModelMorris ModelMorrisAnalyze SpecMorris ModelDouble ModelDouble4 ModelSingle SpecSingle.
From Verif Require Import ProofsScale ProofsMorris3 ProofsMorris5 ProofsDouble ProofsDouble5 ProofsSingle ProofsSingle2 ProofsSingle3.
Import ListNotations.
Local Open Scope R_scope.

Lemma brute_force_fl_scores : forall a1 a2 a3 chunk X g N k D, trajectories_of N (g + 1) D X -> (1 <= k <= N)%nat -> (1 <= chunk)%nat ->
  brute_force_fl a1 a2 a3 chunk X g N k = find_maximum (map (score_of a1 a2 a3 X (g + 1)) (combinations k (seq 0 N))) N k.
Proof.
  intros a1 a2 a3 chunk X g N k D HX Hk Hc.
  unfold brute_force_fl, find_most_distant_fl. rewrite (check_input_ok X g N D HX) by lia. cbn [bind].
  set (M := distance_matrix_fl a1 a2 X g N). set (cs := combinations k (seq 0 N)).
  set (f := combo_score (score_fl a3) M (combinations 2 (seq 0 k))).
  assert (Hne : cs <> []).
  { intros E. assert (Q : In (seq 0 k) cs) by (apply combinations_selection, selection_exists; lia). rewrite E in Q. auto. }
  assert (Hpos : (0 < length cs)%nat) by (destruct cs; [congruence|simpl; lia]).
  set (ch := if (length cs <? chunk)%nat then length cs else chunk).
  assert (Hch : (0 < ch)%nat) by (unfold ch; destruct (length cs <? chunk)%nat; lia).
  destruct (grouper_scores _ _ f 0%R ch Hch (length cs) cs [] 0 (Nat.le_refl _) eq_refl) as [n Hn].
  cbn [app] in Hn. rewrite Hn. cbn [bind snd]. f_equal. apply map_ext_in. intros c Hcs. apply combo_score_of. apply combinations_selection. exact Hcs.
Qed.

(** Multiples of 2^-26. *)
Definition q26 (m : Z) : R := IZR m * bpow radix2 (-26).
Lemma q26_double : forall m, (Z.abs m < 2 ^ 53)%Z -> double (q26 m).
Proof. intros. apply double_F; auto. lia. Qed.
Lemma q26_minus : forall a b, q26 a - q26 b = q26 (a - b).
Proof. intros. unfold q26. rewrite minus_IZR. ring. Qed.
Lemma q26_plus : forall a b, q26 a + q26 b = q26 (a + b).
Proof. intros. unfold q26. rewrite plus_IZR. ring. Qed.
Lemma q26_inj : forall a b, q26 a = q26 b -> a = b.
Proof. intros a b H. apply eq_IZR. apply Rmult_eq_reg_r in H; auto. pose proof (bpow_gt_0 radix2 (-26)). lra. Qed.
Lemma q26_lt : forall a b, (a < b)%Z -> q26 a < q26 b.
Proof. intros a b H. apply Rmult_lt_compat_r; [apply bpow_gt_0|apply IZR_lt; auto]. Qed.
Lemma q26_nonneg : forall a, (0 <= a)%Z -> 0 <= q26 a.
Proof. intros. apply Rmult_le_pos; [apply IZR_le; auto|apply bpow_ge_0]. Qed.
Lemma q26_sqrt : forall m, sqrt (q26 m * q26 m) = q26 (Z.abs m).
Proof.
  intros. replace (q26 m * q26 m) with (q26 (Z.abs m) * q26 (Z.abs m)).
  - apply sqrt_square, q26_nonneg. lia.
  - unfold q26. rewrite abs_IZR. pose proof (Rsqr_abs (IZR m)) as E. unfold Rsqr in E. nra.
Qed.
Lemma q26_square : forall m, (Z.abs m < 2 ^ 26)%Z -> double (q26 m * q26 m).
Proof.
  intros m H. replace (q26 m * q26 m) with (IZR (m * m) * bpow radix2 (-52)).
  - apply double_F; nia.
  - unfold q26. rewrite mult_IZR. change (-52)%Z with (-26 + -26)%Z. rewrite bpow_plus. ring.
Qed.
Lemma q26_euclid : forall a b, (Z.abs (a - b) < 2 ^ 26)%Z -> euclid_fl left_to_right [q26 a] [q26 b] = q26 (Z.abs (a - b)).
Proof.
  intros a b H. unfold euclid_fl, sum_by. cbn [map2 length]. change (left_to_right 1) with (Leaf 0). cbn [tsum_by nth].
  rewrite q26_minus, (fl_double (q26 _)) by (apply q26_double; lia). rewrite (fl_double (_ * _)) by (apply q26_square; auto).
  rewrite q26_sqrt. apply fl_double, q26_double. lia.
Qed.
Lemma q26_point : forall a b, point_distance [q26 a] [q26 b] = q26 (Z.abs (a - b)).
Proof.
  intros. unfold point_distance. cbn [combine map fold_right fst snd]. rewrite Rplus_0_r, q26_minus, <- q26_sqrt. f_equal. ring.
Qed.
Lemma two_points : forall a b c d, (a <> c)%Z -> (Z.abs (a - c) < 2 ^ 26)%Z -> (Z.abs (a - d) < 2 ^ 26)%Z -> (Z.abs (b - c) < 2 ^ 26)%Z -> (Z.abs (b - d) < 2 ^ 26)%Z ->
  compute_distance_fl left_to_right left_to_right [[q26 a]; [q26 b]] [[q26 c]; [q26 d]]
    = f32 (q26 (Z.abs (a - c) + Z.abs (a - d) + Z.abs (b - c) + Z.abs (b - d))).
Proof.
  intros a b c d NE H1 H2 H3 H4. unfold compute_distance_fl.
  assert (H : list_all2 (list_all2 Reqb) [[q26 a]; [q26 b]] [[q26 c]; [q26 d]] = true <-> [[q26 a]; [q26 b]] = [[q26 c]; [q26 d]]).
  { apply list_all2_eq. apply list_all2_eq. intros. apply Reqb_true. }
  destruct (list_all2 _ _ _); [exfalso; destruct H as (H & _); specialize (H eq_refl); injection H as E _; apply q26_inj in E; auto|]. clear H.
  cbn [map concat app]. rewrite !q26_euclid by auto. unfold sum_by. cbn [length]. change (left_to_right 4) with (Node (Node (Node (Leaf 0) (Leaf 1)) (Leaf 2)) (Leaf 3)).
  cbn [tsum_by nth]. rewrite q26_plus, (fl_double (q26 _)) by (apply q26_double; lia). rewrite q26_plus, (fl_double (q26 _)) by (apply q26_double; lia).
  rewrite q26_plus, (fl_double (q26 _)) by (apply q26_double; lia). reflexivity.
Qed.
Lemma two_exact : forall a b c d, (a <> c)%Z -> is_distance (fun x => x) [[q26 a]; [q26 b]] [[q26 c]; [q26 d]]
  (q26 (Z.abs (a - c) + Z.abs (a - d) + Z.abs (b - c) + Z.abs (b - d))).
Proof.
  intros a b c d NE. right. split; [intros E; injection E as E _; apply q26_inj in E; auto|].
  cbn [map fold_right]. rewrite !q26_point. rewrite !Rplus_0_r, !q26_plus. f_equal. lia.
Qed.

(** The trajectories (0, 1/2), (1/4, 3/4) and (1/4 + 2^-26, 3/4 + 2^-26). *)
Definition close_X : list (list R) :=
  [[q26 0]; [q26 33554432]; [q26 16777216]; [q26 50331648]; [q26 16777217]; [q26 50331649]].
Lemma close_shape : trajectories_of 3 2 1 close_X.
Proof. split; [reflexivity|]. split; [repeat constructor|lia]. Qed.

Lemma f32_down : forall m, (8388608 <= m < 16777216)%Z -> f32 (IZR m * bpow radix2 (-23) + bpow radix2 (-25)) = IZR m * bpow radix2 (-23).
Proof.
  intros m M. unfold f32. set (x := IZR m * bpow radix2 (-23) + bpow radix2 (-25)).
  assert (X1 : bpow radix2 0 <= x < bpow radix2 1).
  { assert (8388608 <= IZR m <= 16777215) by (split; apply IZR_le; lia). unfold x. simpl (bpow _ _). lra. }
  assert (CE : cexp radix2 (FLT_exp (-149) 24) x = (-23)%Z).
  { unfold cexp. rewrite (mag_unique_pos radix2 x 1) by exact X1. reflexivity. }
  unfold round, scaled_mantissa. rewrite CE. unfold F2R. cbn [Fnum Fexp]. f_equal. f_equal.
  apply Znearest_imp. unfold x. replace ((IZR m * bpow radix2 (-23) + bpow radix2 (-25)) * bpow radix2 (- -23) - IZR m) with (/ 4).
  - rewrite Rabs_pos_eq; lra.
  - simpl. lra.
Qed.
Lemma single_q : forall m, (Z.abs m < 2 ^ 24)%Z -> f32 (q26 (8 * m)) = IZR m * bpow radix2 (-23).
Proof.
  intros m H. replace (q26 (8 * m)) with (IZR m * bpow radix2 (-23)).
  - apply f32_single, single_F; auto. lia.
  - unfold q26. rewrite mult_IZR. change (-23)%Z with (3 + -26)%Z. rewrite bpow_plus. simpl (bpow radix2 3). lra.
Qed.
Lemma score_one : forall d, single (d * d) -> 0 <= d -> single d -> score_fl left_to_right [d] = d.
Proof.
  intros d S P Sd. unfold score_fl, sum_by. cbn [map length]. change (left_to_right 1) with (Leaf 0). cbn [tsum_by nth].
  rewrite (f32_single (d * d)) by auto. rewrite sqrt_square by auto. apply f32_single; auto.
Qed.

Lemma close_01 : score_of left_to_right left_to_right left_to_right close_X 2 [0; 1]%nat = 3 / 2.
Proof.
  unfold score_of. cbn [SpecMorris.pairs map app fst snd]. unfold block, close_X. cbn [Nat.mul Nat.add skipn firstn].
  rewrite two_points by (simpl; lia). cbn [Z.sub Z.opp Z.add Z.abs Z.pos_sub].
  change (q26 _) with (q26 (8 * 12582912)). rewrite single_q by lia.
  replace (IZR 12582912 * bpow radix2 (-23)) with (3 / 2) by (simpl; lra).
  apply score_one; [|lra|].
  - replace (3 / 2 * (3 / 2)) with (IZR 9 * bpow radix2 (-2)) by (simpl; lra). apply single_F; lia.
  - replace (3 / 2) with (IZR 3 * bpow radix2 (-1)) by (simpl; lra). apply single_F; lia.
Qed.
Lemma close_02 : score_of left_to_right left_to_right left_to_right close_X 2 [0; 2]%nat = 3 / 2.
Proof.
  unfold score_of. cbn [SpecMorris.pairs map app fst snd]. unfold block, close_X. cbn [Nat.mul Nat.add skipn firstn].
  rewrite two_points by (simpl; lia). change (q26 _) with (q26 100663298).
  replace (q26 100663298) with (IZR 12582912 * bpow radix2 (-23) + bpow radix2 (-25)) by (unfold q26; simpl; lra).
  rewrite f32_down by lia. replace (IZR 12582912 * bpow radix2 (-23)) with (3 / 2) by (simpl; lra).
  apply score_one; [|lra|].
  - replace (3 / 2 * (3 / 2)) with (IZR 9 * bpow radix2 (-2)) by (simpl; lra). apply single_F; lia.
  - replace (3 / 2) with (IZR 3 * bpow radix2 (-1)) by (simpl; lra). apply single_F; lia.
Qed.
Lemma close_12 : score_of left_to_right left_to_right left_to_right close_X 2 [1; 2]%nat = 1.
Proof.
  unfold score_of. cbn [SpecMorris.pairs map app fst snd]. unfold block, close_X. cbn [Nat.mul Nat.add skipn firstn].
  rewrite two_points by (simpl; lia). change (q26 _) with (q26 67108866).
  replace (q26 67108866) with (IZR 8388608 * bpow radix2 (-23) + bpow radix2 (-25)) by (unfold q26; simpl; lra).
  rewrite f32_down by lia. replace (IZR 8388608 * bpow radix2 (-23)) with 1 by (simpl; lra).
  assert (S1 : single 1). { replace 1 with (IZR 1 * bpow radix2 0) by (simpl; lra). apply single_F; lia. }
  apply score_one; [|lra|auto]. rewrite Rmult_1_r. auto.
Qed.

Theorem close_selected : forall chunk, (1 <= chunk)%nat ->
  brute_force_fl left_to_right left_to_right left_to_right chunk close_X 1 3 2 = Ok [0; 1]%nat.
Proof.
  intros chunk C. rewrite (brute_force_fl_scores _ _ _ chunk close_X 1 3 2 1 close_shape) by lia.
  change (combinations 2 (seq 0 3)) with [[0; 1]; [0; 2]; [1; 2]]%nat. cbn [map Nat.add]. rewrite close_01, close_02, close_12.
  unfold find_maximum, argmax. cbn [argmax_from].
  assert (E1 : Rltb (3 / 2) (3 / 2) = false) by (apply Rltb_false; lra).
  assert (E2 : Rltb (3 / 2) 1 = false) by (apply Rltb_false; lra). rewrite E1, E2. reflexivity.
Qed.

Theorem close_spreads : is_spread (fun x => x) length_of close_X 2 [0; 1]%nat (3 / 2) /\
  is_spread (fun x => x) length_of close_X 2 [0; 2]%nat (3 / 2 + / 33554432).
Proof.
  assert (L : forall d, 0 <= d -> length_of [d] = d). { intros d P. unfold length_of. cbn [map fold_right]. rewrite Rplus_0_r. apply sqrt_square. auto. }
  split; eexists [_]; (split; [constructor; [|constructor]; cbn [fst snd]; unfold block, close_X; cbn [Nat.mul Nat.add skipn firstn]; apply two_exact; lia|]).
  - change (q26 _) with (q26 100663296). replace (q26 100663296) with (3 / 2) by (unfold q26; simpl; lra). rewrite L; lra.
  - change (q26 _) with (q26 100663298). replace (q26 100663298) with (3 / 2 + / 33554432) by (unfold q26; simpl; lra). rewrite L; lra.
Qed.

Lemma close_coarse : coarse close_X.
Proof.
  intros x a Hx Ha. unfold close_X in Hx. cbn [In] in Hx.
  repeat (destruct Hx as [<-|Hx]; [destruct Ha as [<-|[]]; split; [apply q26_double; lia|]; try (left; unfold q26; lra); right; unfold q26; simpl; lra|]).
  destruct Hx.
Qed.
