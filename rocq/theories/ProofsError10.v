(** * Forward errors of sigma in double precision. *)
From Coq Require Import Reals String List Arith ZArith Bool Lia Lra Psatz Permutation.
From Flocq Require Import Core Relative.
From Verif Require Import Base Arrays ListFacts ModelGroups ModelScale ProofsScale SpecGroups Stats Sums ModelFast ModelMorris ModelMorrisAnalyze SpecMorris ModelDouble ModelDouble2 ModelDouble4 ModelDouble5 SpecDouble3 SpecError
  ProofsGroups ProofsMorris1 ProofsMorris7 ProofsRidge ProofsDouble ProofsDouble5 ProofsDouble10 ProofsDouble13 ProofsDouble14 ProofsDouble15 ProofsDouble16 ProofsDouble17 ProofsDouble19 ProofsDouble20 ProofsError ProofsError3 ProofsError6 ProofsError7 ProofsError9.
From Verif Require ProofsPawn5.
Import ListNotations.
Local Open Scope R_scope.

(** ** Distances *)
Definition size2 (d : R) (f : nat -> R) (l : list nat) : R := sqrt (Rsum (map (fun i => f i ^ 2) l) / d).
Lemma squares_nonneg : forall (f : nat -> R) l, 0 <= Rsum (map (fun i => f i ^ 2) l).
Proof. intros f l. apply Rsum_nonneg. intros x Hx. apply in_map_iff in Hx as (a & <- & _). apply pow2_ge_0. Qed.
Lemma size2_mono : forall d f g l, 0 < d -> (forall i, In i l -> Rabs (f i) <= Rabs (g i)) -> size2 d f l <= size2 d g l.
Proof.
  intros d f g l D H. apply sqrt_le_1_alt. unfold Rdiv. apply Rmult_le_compat_r; [left; apply Rinv_0_lt_compat; auto|].
  induction l as [|i l IH]; unfold Rsum in *; cbn [map fold_right]; [lra|]. apply Rplus_le_compat; [|apply IH; intros; apply H; right; auto].
  rewrite <- (pow2_abs (f i)), <- (pow2_abs (g i)). pose proof (H i (or_introl eq_refl)). pose proof (Rabs_pos (f i)). nra.
Qed.
Lemma size2_scale : forall d c f l, 0 < d -> 0 <= c -> size2 d (fun i => c * f i) l = c * size2 d f l.
Proof.
  intros d c f l D C. unfold size2. rewrite <- (sqrt_square c C) at 1. rewrite <- sqrt_mult_alt by nra. f_equal. unfold Rdiv. rewrite <- Rmult_assoc. f_equal. rewrite <- Rsum_map_scal. apply Rsum_ext. intros; ring.
Qed.
Lemma size2_plus : forall d f g l, 0 < d -> size2 d (fun i => f i + g i) l <= size2 d f l + size2 d g l.
Proof.
  intros d f g l D. unfold size2. pose proof (Rinv_0_lt_compat _ D) as PI. pose proof (squares_nonneg f l) as F. pose proof (squares_nonneg g l) as G. pose proof (cauchy_schwarz nat f g l) as CS.
  set (a := Rsum (map (fun i => f i ^ 2) l)) in *. set (b := Rsum (map (fun i => g i ^ 2) l)) in *. set (c := Rsum (map (fun x => f x * g x) l)) in *.
  assert (E : Rsum (map (fun i => (f i + g i) ^ 2) l) = a + 2 * c + b).
  { rewrite (Rsum_ext _ _ (fun i => (f i ^ 2 + 2 * (f i * g i)) + g i ^ 2)) by (intros; ring).
    rewrite (Rsum_map_plus _ (fun i => f i ^ 2 + 2 * (f i * g i)) (fun i => g i ^ 2)), (Rsum_map_plus _ (fun i => f i ^ 2) (fun i => 2 * (f i * g i))), Rsum_map_scal. reflexivity. }
  rewrite E. assert (A0 : 0 <= a / d) by (unfold Rdiv; apply Rmult_le_pos; lra). assert (B0 : 0 <= b / d) by (unfold Rdiv; apply Rmult_le_pos; lra).
  pose proof (sqrt_pos (a / d)) as PA. pose proof (sqrt_pos (b / d)) as PB. pose proof (sqrt_sqrt _ A0) as SA. pose proof (sqrt_sqrt _ B0) as SB.
  assert (K : c / d <= sqrt (a / d) * sqrt (b / d)).
  { rewrite <- sqrt_mult_alt by auto. apply Rsqr_incr_0_var; [|apply sqrt_pos]. rewrite Rsqr_sqrt by (apply Rmult_le_pos; auto). unfold Rsqr, Rdiv.
    replace (c * / d * (c * / d)) with (c ^ 2 * (/ d * / d)) by ring. replace (a * / d * (b * / d)) with (a * b * (/ d * / d)) by ring. apply Rmult_le_compat_r; [nra|exact CS]. }
  apply Rsqr_incr_0_var; [|lra]. rewrite Rsqr_sqrt.
  - unfold Rsqr. replace ((a + 2 * c + b) / d) with (a / d + 2 * (c / d) + b / d) by (field; lra). nra.
  - rewrite <- E. unfold Rdiv. apply Rmult_le_pos; [apply squares_nonneg|lra].
Qed.
Lemma size2_const : forall c l, 0 <= c -> forall d, 1 <= d -> INR (length l) <= 2 * d -> size2 d (fun _ => c) l <= 2 * c.
Proof.
  intros c l C d D L. unfold size2. replace (Rsum (map (fun _ : nat => c ^ 2) l)) with (INR (length l) * c ^ 2).
  - rewrite <- (sqrt_square (2 * c)) by lra. apply sqrt_le_1_alt. apply Rmult_le_reg_r with d; [lra|]. unfold Rdiv. rewrite Rmult_assoc, Rinv_l by lra. pose proof (pow2_ge_0 c). nra.
  - clear. induction l; unfold Rsum in *; cbn [map fold_right length]; [simpl; ring|]. rewrite S_INR, <- IHl. ring.
Qed.

(** ** Deviations *)
Definition spread (d : R) (f : nat -> R) (l : list nat) : R := size2 d (fun i => f i - mean (map f l)) l.
Lemma spread_le : forall d f l, 0 < d -> l <> [] -> spread d f l <= size2 d f l.
Proof.
  intros d f l D NE. apply sqrt_le_1_alt. unfold Rdiv. apply Rmult_le_compat_r; [left; apply Rinv_0_lt_compat; auto|].
  pose proof (sum_about (map f l) 0) as H. rewrite !map_map, map_length in H. specialize (H ltac:(destruct l; [congruence|discriminate])).
  rewrite (Rsum_ext _ (fun x => (f x - 0) ^ 2) (fun x => f x ^ 2)) in H by (intros; ring). pose proof (pow2_ge_0 (0 - mean (map f l))). pose proof (pos_INR (length l)). nra.
Qed.
Lemma spread_plus : forall d f g l, 0 < d -> l <> [] -> spread d (fun i => f i + g i) l <= spread d f l + size2 d g l.
Proof.
  intros d f g l D NE. eapply Rle_trans; [|apply Rplus_le_compat_l, (spread_le d g l D NE)]. unfold spread. eapply Rle_trans; [|apply size2_plus; auto].
  apply size2_mono; auto. intros i _. right. f_equal. unfold mean. rewrite !map_length, Rsum_map_plus. unfold Rdiv. ring.
Qed.
Lemma mean_abs_le : forall d f l, 0 < d <= INR (length l) -> mean (map (fun i => Rabs (f i)) l) <= size2 d f l.
Proof.
  intros d f l D. pose proof (cauchy_schwarz nat (fun i => Rabs (f i)) (fun _ => 1) l) as CS. pose proof (squares_nonneg f l) as F.
  rewrite (Rsum_ext _ (fun x => Rabs (f x) * 1) (fun x => Rabs (f x))) in CS by (intros; ring). rewrite (Rsum_ext _ (fun x => Rabs (f x) ^ 2) (fun x => f x ^ 2)) in CS by (intros; apply pow2_abs).
  replace (Rsum (map (fun _ : nat => 1 ^ 2) l)) with (INR (length l)) in CS by (clear; induction l; unfold Rsum in *; cbn [map fold_right length]; [simpl; ring|]; rewrite S_INR, IHl; ring).
  unfold mean. rewrite map_length. set (n := INR (length l)) in *. set (a := Rsum (map (fun x => f x ^ 2) l)) in *. set (s := Rsum (map (fun i => Rabs (f i)) l)) in *.
  unfold size2. fold a. apply Rsqr_incr_0_var; [|apply sqrt_pos]. rewrite Rsqr_sqrt by (unfold Rdiv; apply Rmult_le_pos; [auto|left; apply Rinv_0_lt_compat; lra]).
  unfold Rsqr. apply Rle_trans with (a / n).
  - replace (s / n * (s / n)) with (s ^ 2 / (n * n)) by (field; lra). replace (a / n) with (a * n / (n * n)) by (field; lra). unfold Rdiv. apply Rmult_le_compat_r; [left; apply Rinv_0_lt_compat; nra|exact CS].
  - unfold Rdiv. apply Rmult_le_compat_l; auto. apply Rinv_le_contravar; lra.
Qed.

(** The deviation of values [g] computed with [k] roundings from [E], itself computed. *)
Lemma sd_off : forall arr (g E : nat -> R) k l v, arrangement arr -> (2 <= length l)%nat -> (forall i, In i l -> double (g i) /\ off k (Rabs (E i) + tiny) (E i) (g i)) ->
  std1_fl arr (map g l) = Some v ->
  let d := INR (length l - 1) in
  off (2 * length l + 5 + k) (3 * size2 d E l + bpow radix2 (-455)) (spread d E l) v /\ spread d E l + tiny <= 3 * size2 d E l + bpow radix2 (-455).
Proof.
  intros arr g E k l v A L H V d. assert (D1 : 1 <= d) by (unfold d; change 1 with (INR 1); apply le_INR; lia). assert (NE : l <> []) by (intros ->; simpl in L; lia).
  assert (DN : INR (length l) = d + 1) by (unfold d; rewrite <- S_INR; f_equal; lia). pose proof tiny_pos as T. pose proof (err_pos k) as EK.
  set (Q := size2 d E l). assert (Q0 : 0 <= Q) by apply sqrt_pos. set (S := spread d E l). assert (S0 : 0 <= S) by apply sqrt_pos.
  assert (SQ : S <= Q) by (apply spread_le; auto; lra).
  assert (DD : size2 d (fun i => g i - E i) l <= err k * (Q + 2 * tiny)).
  { eapply Rle_trans; [apply (size2_mono d _ (fun i => err k * (Rabs (E i) + tiny))); [lra|]|].
    - intros i I. destruct (H i I) as (_ & O). unfold off in O. eapply Rle_trans; [exact O|]. apply Rle_abs.
    - rewrite size2_scale by (auto; lra). apply Rmult_le_compat_l; auto. eapply Rle_trans; [apply (size2_plus d (fun i => Rabs (E i)) (fun _ => tiny)); lra|].
      apply Rplus_le_compat; [|apply size2_const; lra]. apply size2_mono; [lra|]. intros i _. rewrite Rabs_Rabsolu. lra. }
  assert (DE : size2 d (fun i => E i - g i) l = size2 d (fun i => g i - E i) l) by (unfold size2; do 2 f_equal; apply Rsum_ext; intros; ring).
  assert (S1 : spread d g l <= S + err k * (Q + 2 * tiny)).
  { eapply Rle_trans; [|apply Rplus_le_compat_l, DD]. eapply Rle_trans; [|apply (spread_plus d E (fun i => g i - E i)); auto; lra]. right. unfold spread, size2. do 2 f_equal.
    rewrite (map_ext (fun i => E i + (g i - E i)) g) by (intros; ring). apply Rsum_ext. intros; ring. }
  assert (S2 : S <= spread d g l + err k * (Q + 2 * tiny)).
  { eapply Rle_trans; [|apply Rplus_le_compat_l, DD]. rewrite <- DE. eapply Rle_trans; [|apply (spread_plus d g (fun i => E i - g i)); auto; lra]. right. unfold S, spread, size2. do 2 f_equal.
    rewrite (map_ext (fun i => g i + (E i - g i)) E) by (intros; ring). apply Rsum_ext. intros; ring. }
  assert (MA : mean (map Rabs (map g l)) <= (1 + err k) * Q + err k * tiny).
  { rewrite map_map. apply Rle_trans with (mean (map (fun i => Rabs ((1 + err k) * Rabs (E i) + err k * tiny)) l)).
    - unfold mean. rewrite !map_length. unfold Rdiv. apply Rmult_le_compat_r; [left; apply Rinv_0_lt_compat; lra|]. apply Rsum_le. intros i I. destruct (H i I) as (_ & O). unfold off in O.
      eapply Rle_trans; [|apply Rle_abs]. replace (g i) with (E i + (g i - E i)) by ring. eapply Rle_trans; [apply Rabs_triang|]. lra.
    - rewrite (map_ext (fun i => Rabs ((1 + err k) * Rabs (E i) + err k * tiny)) (fun i => (1 + err k) * Rabs (E i) + err k * tiny)) by (intros i; apply Rabs_pos_eq; pose proof (Rabs_pos (E i)); nra).
      rewrite mean_plus by auto. apply Rplus_le_compat_r. replace (mean (map (fun i => (1 + err k) * Rabs (E i)) l)) with ((1 + err k) * mean (map (fun i => Rabs (E i)) l)).
      + apply Rmult_le_compat_l; [lra|]. apply mean_abs_le. lra.
      + unfold mean. rewrite !map_length, Rsum_map_scal. unfold Rdiv. ring. }
  assert (SD : sd1 (map g l) = Some (spread d g l)).
  { unfold sd1. rewrite map_length. destruct (length l <? 2)%nat eqn:LL; [apply Nat.ltb_lt in LL; lia|]. rewrite map_map. reflexivity. }
  assert (DG : List.Forall double (map g l)) by (apply Forall_forall; intros x X; apply in_map_iff in X as (i & <- & I); apply H; auto).
  pose proof (std1_error arr A (map g l) v _ DG V SD) as B. rewrite map_length in B. set (n := (2 * length l + 5)%nat) in *. set (S' := spread d g l) in *.
  pose proof (err_add n k) as EA. pose proof (err_pos n) as EN.
  assert (T4 : 4 * tiny + tiny <= bpow radix2 (-456)).
  { apply Rle_trans with (bpow radix2 3 * tiny); [simpl (bpow radix2 3); lra|]. unfold tiny. rewrite <- bpow_plus. apply bpow_le. lia. }
  assert (P5 : bpow radix2 (-455) = 2 * bpow radix2 (-456)) by (change 2 with (bpow radix2 1); rewrite <- bpow_plus; reflexivity).
  pose proof (bpow_gt_0 radix2 (-456)) as PB. set (q := bpow radix2 (-456)) in *. rewrite P5. split; [|lra].
  unfold off. replace (v - S) with ((v - S') + (S' - S)) by ring. eapply Rle_trans; [apply Rabs_triang|].
  assert (B2 : Rabs (S' - S) <= err k * (Q + 2 * tiny)) by (apply Rabs_le; lra).
  assert (B1 : err n * (S' + 2 * mean (map Rabs (map g l)) + q) <= err n * ((1 + err k) * (3 * Q + 2 * q))).
  { apply Rmult_le_compat_l; auto. set (e := err k) in *. assert (e * (4 * tiny) <= e * q) by (apply Rmult_le_compat_l; lra). nra. }
  assert (B3 : err k * (Q + 2 * tiny) <= err k * (3 * Q + 2 * q)) by (apply Rmult_le_compat_l; lra).
  replace (err (n + k)) with (err n * (1 + err k) + err k) by lra. set (W := 3 * Q + 2 * q) in *. nra.
Qed.

Lemma sigma_off : forall S nq p ls G N X Y cl levels resample out k x j E, proper p ls G N X Y -> (2 <= levels)%nat -> (Z.of_nat levels <= 2 ^ 52)%Z -> 0 < cl < 1 -> (2 <= N)%nat ->
  snd (morris_analyze_fl S nq p X Y cl false levels resample) = Ok out -> nth_error (m_names out) k = Some x -> members_of ls x [j] ->
  arrangement (s_einsum S) -> arrangement (s_over S) -> arrangement (s_within S) -> (forall r x, In r (rows X) -> In x r -> double x) -> (forall y, In y Y -> double y) ->
  one_move (G + 1) (rows X) j -> (forall i, (i < N)%nat -> is_effect (step levels) (block (rows X) (G + 1) i) (block Y (G + 1) i) j (E i)) ->
  let d := INR (N - 1) in
  exists sigma, nth_error (m_sigma out) k = Some (Some sigma) /\
    off (2 * N + p_num_vars p + 9) (3 * size2 d E (seq 0 N) + bpow radix2 (-455)) (spread d E (seq 0 N)) sigma.
Proof.
  intros S nq p ls G N X Y cl levels resample out k x j E (H1 & H2 & H3 & H4 & H5 & H6 & H7 & H8) L1 L2 Hc N2 Ho Hk Hjs AE AO AW DX DY OM HE d.
  assert (NL : levels <> 1%nat) by lia.
  destruct (shaped S nq p ls G N X Y cl false levels resample) as (p1 & m & Em & EG & Lm & Q); auto. cbv zeta in Q. rewrite Q in Ho. cbn [snd] in Ho. injection Ho as <-. cbn [m_names] in Hk.
  pose proof (members_spec _ _ _ _ _ Em Hk) as Hm. assert (Kk : (k < G)%nat) by (rewrite EG; apply nth_error_Some; congruence).
  pose proof (members_of_perm _ _ _ _ Hjs Hm) as PJ. apply Permutation_length_1_inv in PJ.
  pose proof (group_total _ _ _ k Em ltac:(lia)) as GT. rewrite PJ in GT. cbn [length] in GT.
  cbn [m_sigma]. unfold grouped_sigma_fl. rewrite nth_error_map', nth_error_seq, (proj2 (Nat.ltb_lt _ _) Kk). cbn [option_map Nat.add]. rewrite GT. cbn [Nat.eqb]. rewrite map_map.
  assert (JN : (j < p_num_vars p)%nat). { assert (J : In j (members m k)) by (rewrite PJ; left; auto). apply filter_In in J. destruct J as [J _]. apply in_seq in J. lia. }
  set (f := fun i => effect_fl S (G + 1) (rows X) Y (delta_fl levels) false i j). set (g := fun i => match f i with Some v => v | None => 0 end).
  assert (GE : forall i, In i (seq 0 N) -> f i = Some (g i) /\ double (g i) /\ off 4 (Rabs (E i) + tiny) (E i) (g i)).
  { intros i I. apply in_seq in I. destruct (effect_off S (G + 1) (rows X) Y AE ltac:(lia) DX DY levels i j (E i) L1 L2 OM (HE i ltac:(lia))) as (v & F & D & O). unfold g. fold f in F. change (f i = Some v) in F. rewrite F. auto. }
  assert (CF : fsd1_fl (s_over S) (col_fl S G (rows X) Y levels false N j) = std1_fl (s_over S) (map g (seq 0 N))).
  { unfold fsd1_fl. change (col_fl S G (rows X) Y levels false N j) with (map f (seq 0 N)). rewrite (all_some_total _ f g) by (intros i I; apply GE; auto). reflexivity. }
  destruct (std1_fl (s_over S) (map g (seq 0 N))) as [v|] eqn:V.
  2:{ unfold std1_fl in V. rewrite map_length, seq_length in V. destruct (N <? 2)%nat eqn:LL; [apply Nat.ltb_lt in LL; lia|discriminate]. }
  destruct (sd_off (s_over S) g E 4 (seq 0 N) v AO) as (O & W); [rewrite seq_length; auto|intros i I; destruct (GE i I); tauto|exact V|]. rewrite seq_length in O, W. fold d in O, W.
  assert (DV : double v). { unfold std1_fl in V. rewrite map_length, seq_length in V. destruct (N <? 2)%nat; [discriminate|]. injection V as <-. apply double_fl. }
  destruct (grouped_off (s_within S) (map (fun j => fsd1_fl (s_over S) (col_fl S G (rows X) Y levels false N j)) (seq 0 (p_num_vars p))) m k (fun _ => spread d E (seq 0 N)) (fun _ => 3 * size2 d E (seq 0 N) + bpow radix2 (-455)) (2 * N + 5 + 4) AW) as (s & E1 & O1).
  - rewrite PJ. discriminate.
  - rewrite PJ. intros i [<-|[]]. exists v. split; [|split; [exact DV|split; [rewrite Rabs_pos_eq by apply sqrt_pos; exact W|exact O]]].
    apply nth_error_nth. rewrite nth_error_map', nth_error_seq, (proj2 (Nat.ltb_lt _ _) JN). cbn [option_map Nat.add]. rewrite CF. reflexivity.
  - exists s. split; [f_equal; exact E1|]. rewrite PJ in O1. cbn [map] in O1. unfold mean, Rsum in O1. cbn [fold_right length INR] in O1. unfold Rdiv in O1. rewrite !Rplus_0_r, !Rinv_1, !Rmult_1_r in O1.
    replace (2 * N + p_num_vars p + 9)%nat with (2 * N + 5 + 4 + length m)%nat by lia. exact O1.
Qed.

(** ** Two values half of whose deviation is lost *)
Definition far : list R := [big; big + 2].
Lemma far_double : List.Forall double far.
Proof. repeat constructor; [apply big_double|]. replace (big + 2) with (2 * IZR 4503599627370497) by (unfold big; lra). apply ProofsPawn5.fl_twice. apply double_Z. discriminate. Qed.
Lemma far_sum : fl (big + (big + 2)) = 2 * big.
Proof. rewrite (fl_is 18014398509481986 1 18014398509481984 1); [unfold big; lra|unfold big; lra|vm_compute; reflexivity]. Qed.
Lemma far_mean : mean_fl left_to_right far = big.
Proof.
  unfold mean_fl, sum_fl, far, left_to_right. cbn [length Nat.sub comb tsum nth]. rewrite far_sum. replace (2 * big / INR 2) with big by (simpl; field). apply fl_double, big_double.
Qed.
Lemma far_sd : std1_fl left_to_right far = Some 2 /\ sd1 far = Some (sqrt 2).
Proof.
  split.
  - unfold std1_fl. change (length far) with 2%nat. cbn [Nat.ltb Nat.leb Nat.sub]. rewrite far_mean. f_equal. unfold far, squares_fl, sum_fl, left_to_right. cbn [map length Nat.sub comb tsum nth].
    replace (big - big) with 0 by ring. replace (big + 2 - big) with 2 by ring. rewrite fl_0. rewrite (fl_double 2) by (apply (double_Z 2); discriminate). rewrite Rmult_0_l, fl_0, Rplus_0_l.
    replace (2 * 2) with 4 by ring. rewrite !(fl_double 4) by (apply (double_Z 4); discriminate). replace (4 / INR 1) with 4 by (simpl; field). rewrite (fl_double 4) by (apply (double_Z 4); discriminate).
    replace 4 with (2 * 2) by ring. rewrite sqrt_square by lra. apply fl_double. apply (double_Z 2). discriminate.
  - unfold sd1, far, mean, Rsum. cbn [length Nat.ltb Nat.leb Nat.sub map fold_right]. do 2 f_equal. simpl. field.
Qed.
