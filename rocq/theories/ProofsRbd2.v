(** * RBD-FAST: the first-order ratio. *)
From Coq Require Import Reals String List Arith ZArith Bool Lia Lra Permutation Sorted.
From Verif Require Import Base Arrays ListFacts ModelGroups ModelScale ProofsScale Stats Sums ModelFast SpecFast ProofsFast2 ModelRbd SpecRbd ProofsRbd.
Import ListNotations.
Local Open Scope nat_scope.

Lemma sum_nonneg_zero : forall n (f : nat -> R), (forall i, i < n -> (0 <= f i)%R) -> sum n f = 0%R -> forall i, i < n -> f i = 0%R.
Proof.
  induction n; intros f H E i Hi; [lia|]. rewrite sum_S in E.
  assert (H1 : (0 <= f n)%R) by (apply H; lia).
  assert (H2 : (0 <= sum n f)%R).
  { clear - H. induction n; [rewrite sum_0; lra|]. rewrite sum_S. assert (0 <= f n)%R by (apply H; lia).
    assert (0 <= sum n f)%R by (apply IHn; intros; apply H; lia). lra. }
  assert (i < n \/ i = n) as [Hin| ->] by lia; [|lra]. apply IHn; auto; lra.
Qed.

Lemma const_dft : forall n q, 0 < q < n -> re n (fun _ => 1%R) q = 0%R /\ im n (fun _ => 1%R) q = 0%R.
Proof.
  intros n q Hq. assert (Hn : 0 < n) by lia. pose proof (parseval n Hn (fun _ => 1%R)) as P.
  assert (HN : (0 < INR n)%R) by (apply lt_0_INR; auto).
  assert (E0 : re n (fun _ => 1%R) 0 = INR n).
  { rewrite re_0. rewrite sum_const. lra. }
  assert (Z : sum n (fun k => if k =? 0 then 0 else (re n (fun _ => 1) k ^ 2 + im n (fun _ => 1) k ^ 2))%R = 0%R).
  { assert (ED : sum n (fun k => if k =? 0 then (re n (fun _ => 1) k ^ 2 + im n (fun _ => 1) k ^ 2) else 0)%R = (INR n ^ 2)%R).
    { rewrite (sum_delta n _ 0 Hn).
      - cbn [Nat.eqb]. rewrite E0, im_0. ring.
      - intros i Hi Hi0. destruct (Nat.eqb_spec i 0); [contradiction|auto]. }
    assert (ES : (sum n (fun k => if k =? 0 then 0 else (re n (fun _ => 1) k ^ 2 + im n (fun _ => 1) k ^ 2)) +
      sum n (fun k => if k =? 0 then (re n (fun _ => 1) k ^ 2 + im n (fun _ => 1) k ^ 2) else 0) = INR n * sum n (fun _ => 1 ^ 2))%R).
    { rewrite <- P, <- sum_plus. apply sum_ext. intros k Hk. destruct (k =? 0); ring. }
    rewrite (sum_const n (1 ^ 2)%R) in ES. rewrite ED in ES.
    replace (INR n * (INR n * 1 ^ 2))%R with (INR n ^ 2)%R in ES by ring. apply (Rplus_eq_reg_r (INR n ^ 2)%R). rewrite Rplus_0_l. exact ES. }
  assert (NN : forall i, i < n -> (0 <= (fun k => if k =? 0 then 0 else (re n (fun _ => 1) k ^ 2 + im n (fun _ => 1) k ^ 2)) i)%R).
  { intros i Hi. cbv beta. destruct (i =? 0); [apply Rle_refl|].
    pose proof (sq_nonneg (re n (fun _ => 1%R) i)). pose proof (sq_nonneg (im n (fun _ => 1%R) i)). lra. }
  pose proof (sum_nonneg_zero n _ NN Z q ltac:(lia)) as Zq.
  cbv beta in Zq. destruct (Nat.eqb_spec q 0); [lia|].
  pose proof (sq_nonneg (re n (fun _ => 1%R) q)). pose proof (sq_nonneg (im n (fun _ => 1%R) q)).
  split; apply Rsqr_0_uniq; unfold Rsqr; nra.
Qed.

Lemma power_re_im : forall y q, power y q = ((re (length y) (fun t => nth t y 0%R) q ^ 2 + im (length y) (fun t => nth t y 0%R) q ^ 2) / INR (length y) ^ 2)%R.
Proof. intros. reflexivity. Qed.

(** Adding a constant changes no power at the positive frequencies; scaling multiplies them. *)
Lemma re_affine : forall n q a b y, 0 < q < n -> re n (fun t => a * y t + b)%R q = (a * re n y q)%R /\ im n (fun t => a * y t + b)%R q = (a * im n y q)%R.
Proof.
  intros n q a b y Hq. destruct (const_dft n q Hq) as [Hr Hi]. unfold re, im in *. split.
  - rewrite (sum_ext n _ (fun t => a * (y t * cos (2 * PI * INR q * INR t / INR n)) + b * (1 * cos (2 * PI * INR q * INR t / INR n)))%R) by (intros; ring).
    rewrite sum_scal in Hr. rewrite sum_plus, !sum_scal, Hr. ring.
  - rewrite (sum_ext n _ (fun t => a * (y t * sin (2 * PI * INR q * INR t / INR n)) + b * (1 * sin (2 * PI * INR q * INR t / INR n)))%R) by (intros; ring).
    rewrite sum_scal in Hi. rewrite sum_plus, !sum_scal, Hi. ring.
Qed.

Lemma power_affine : forall y q a b, 0 < q < length y -> power (map (fun v => a * v + b)%R y) q = (a ^ 2 * power y q)%R.
Proof.
  intros y q a b Hq. rewrite !power_re_im, map_length.
  assert (E : forall f : nat -> R, (forall t, t < length y -> f t = (a * nth t y 0 + b)%R) ->
     re (length y) f q = (a * re (length y) (fun t => nth t y 0%R) q)%R /\ im (length y) f q = (a * im (length y) (fun t => nth t y 0%R) q)%R).
  { intros f Hf. destruct (re_affine (length y) q a b (fun t => nth t y 0%R) Hq) as [H1 H2].
    rewrite <- H1, <- H2. unfold re, im. split; apply sum_ext; intros t Ht; rewrite Hf; auto. }
  destruct (E (fun t => nth t (map (fun v => a * v + b)%R y) 0%R)) as [-> ->].
  - intros t Ht. rewrite (nth_indep _ 0%R (a * 0 + b)%R) by (rewrite map_length; auto). apply (map_nth (fun v => a * v + b)%R).
  - unfold Rdiv. ring.
Qed.

Definition weighted (y : list R) (q : nat) : R := ((if (length y =? 2 * q)%nat then 1 else 2) * power y q)%R.

Lemma periodogram_spec : forall y, y <> [] -> exists p0,
  periodogram y = p0 :: map (fun q => INR (length y) * weighted y q)%R (seq 1 (length y / 2)).
Proof.
  intros y Hy. unfold periodogram. assert (Hl : length y <> 0) by (destruct y; simpl; congruence).
  destruct (Nat.eqb_spec (length y) 0); [contradiction|]. rewrite Nat.add_1_r. cbn [seq map]. eexists. f_equal.
  apply map_ext_in. intros q Hq. apply in_seq in Hq. destruct (Nat.eqb_spec q 0); [lia|]. cbn [orb].
  pose proof (INR_length_pos _ y Hy) as HN.
  assert (E : ((dft_re (map (fun v => v - mean y) y) q ^ 2 + dft_im (map (fun v => v - mean y) y) q ^ 2) / INR (length y)
     = INR (length y) * power y q)%R).
  { assert (q < length y) by (pose proof (Nat.div_mod (length y) 2 ltac:(lia)); lia).
    transitivity (INR (length y) * power (map (fun v => 1 * v + - mean y)%R y) q)%R; [|rewrite power_affine by lia; ring].
    assert (EM : map (fun v => v - mean y)%R y = map (fun v => 1 * v + - mean y)%R y) by (apply map_ext; intros; ring).
    rewrite EM. unfold power, dft_re, dft_im. cbv zeta. rewrite map_length.
    set (A := Rsum _). set (B := Rsum (map _ _)). field. lra. }
  unfold weighted. destruct (Nat.eqb_spec (length y) (2 * q)); rewrite E; ring.
Qed.

Lemma weighted_nonneg : forall y q, (0 <= weighted y q)%R.
Proof. intros. unfold weighted. pose proof (power_nonneg y q). destruct (_ =? _); lra. Qed.

Lemma nyquist_power : forall y h, y <> [] -> length y = 2 * h -> power y h = ((alternating y / INR (length y)) ^ 2)%R.
Proof.
  intros y h Hy Hh. pose proof (INR_length_pos _ y Hy) as HN. unfold power, alternating. cbv zeta.
  assert (Hz : forall t : nat, (2 * PI * INR h * INR t / INR (length y) = INR t * PI)%R).
  { intros t. rewrite Hh in *. rewrite mult_INR in *. simpl (INR 2) in *. field. intros E. rewrite E in HN. lra. }
  assert (HC : forall t, cos (INR t * PI) = ((-1) ^ t)%R /\ sin (INR t * PI) = 0%R).
  { induction t as [|t [IHc IHs]]; [simpl; rewrite Rmult_0_l, cos_0, sin_0; auto|]. rewrite S_INR.
    replace ((INR t + 1) * PI)%R with (INR t * PI + PI)%R by ring. rewrite neg_cos, neg_sin, IHc, IHs. simpl. split; ring. }
  rewrite (Rsum_ext _ (fun t => nth t y 0 * cos (2 * PI * INR h * INR t / INR (length y)))%R (fun t => (-1) ^ t * nth t y 0)%R (seq 0 (length y)))
    by (intros t Ht; rewrite Hz, (proj1 (HC t)); ring).
  rewrite (Rsum_ext _ (fun t => nth t y 0 * sin (2 * PI * INR h * INR t / INR (length y)))%R (fun _ => 0)%R (seq 0 (length y)))
    by (intros t Ht; rewrite Hz, (proj2 (HC t)); ring).
  rewrite Rsum_const. field. lra.
Qed.

Lemma total_variance : forall y, y <> [] -> Rsum (map (weighted y) (seq 1 (length y / 2))) = var y.
Proof.
  intros y Hy. assert (Hl : length y <> 0) by (destruct y; simpl; congruence).
  destruct (Nat.Even_or_Odd (length y)) as [HE|HO].
  - pose proof (visible_variance_even y Hy HE) as HV. destruct HE as [h Hh].
    assert (E2 : length y / 2 = (h - 1) + 1) by (rewrite Hh, Nat.mul_comm, Nat.div_mul by lia; lia).
    assert (Ev : (length y - 1) / 2 = h - 1) by (symmetry; apply Nat.div_unique with 1; lia).
    unfold band, visible in HV. rewrite Ev in HV. rewrite E2, seq_app, map_app, Rsum_app. cbn [seq map Rsum].
    replace (1 + (h - 1)) with h by lia. unfold weighted at 2. destruct (Nat.eqb_spec (length y) (2 * h)); [|lia].
    rewrite nyquist_power by auto.
    rewrite (Rsum_ext _ _ (fun q => 2 * power y q)%R).
    + rewrite Rsum_map_scal. change (fun q : nat => power y q) with (power y). rewrite HV. unfold Rsum. simpl fold_right. lra.
    + intros q Hq. apply in_seq in Hq. unfold weighted. destruct (Nat.eqb_spec (length y) (2 * q)); [lia|auto].
  - pose proof (visible_variance_odd y HO) as HV. destruct HO as [h Hh].
    assert (E2 : length y / 2 = h) by (symmetry; apply Nat.div_unique with 1; lia).
    assert (Ev : (length y - 1) / 2 = h) by (symmetry; apply Nat.div_unique with 0; lia).
    unfold band, visible in HV. rewrite Ev in HV. rewrite E2.
    rewrite (Rsum_ext _ _ (fun q => 2 * power y q)%R).
    + rewrite Rsum_map_scal. change (fun q : nat => power y q) with (power y). lra.
    + intros q Hq. apply in_seq in Hq. unfold weighted. destruct (Nat.eqb_spec (length y) (2 * q)); [lia|auto].
Qed.

Lemma firstn_seq : forall n a k, firstn k (seq a n) = seq a (Nat.min k n).
Proof. induction n; intros a k; destruct k; simpl; auto. f_equal. apply IHn. Qed.

(** Undefined exactly for constant outputs, otherwise the share of the first M frequencies. *)
Lemma first_order_spec : forall y M,
  ((y = [] \/ var y = 0%R) -> compute_first_order y M = None) /\
  (y <> [] -> var y <> 0%R -> compute_first_order y M = Some (share y M) /\ (0 <= share y M <= 1)%R).
Proof.
  intros y M. destruct y as [|y0 y'] eqn:Ey.
  { split; [|congruence]. intros _. unfold compute_first_order, slice. simpl. rewrite firstn_nil. simpl. unfold fdiv.
    rewrite (proj2 (Reqb_true 0 0) eq_refl). reflexivity. }
  rewrite <- Ey. assert (Hy : y <> []) by (rewrite Ey; discriminate). clear Ey y0 y'.
  destruct (periodogram_spec y Hy) as [p0 EP]. pose proof (INR_length_pos _ y Hy) as HN.
  assert (EC : compute_first_order y M = fdiv (INR (length y) * Rsum (map (weighted y) (seq 1 (Nat.min M (length y / 2))))) (INR (length y) * var y)).
  { unfold compute_first_order. rewrite EP. unfold slice. cbn [skipn length]. rewrite Nat.add_sub.
    f_equal.
    - rewrite firstn_map, firstn_seq. rewrite Rsum_map_scal. reflexivity.
    - rewrite firstn_all2 by (rewrite !map_length; lia). rewrite Rsum_map_scal, total_variance by auto. reflexivity. }
  rewrite EC. unfold fdiv. split.
  - intros [E|E]; [contradiction|]. rewrite E, Rmult_0_r, (proj2 (Reqb_true 0 0) eq_refl). reflexivity.
  - intros _ Hv. rewrite (proj2 (Reqb_false _ 0)) by (apply Rmult_integral_contrapositive; split; [lra|auto]).
    pose proof (var_nonneg y) as Hv0. assert (Hvp : (0 < var y)%R) by lra.
    assert (ES : (INR (length y) * Rsum (map (weighted y) (seq 1 (Nat.min M (length y / 2)))) / (INR (length y) * var y))%R = share y M).
    { unfold share. fold (weighted y). change (fun q => ((if (length y =? 2 * q)%nat then 1 else 2) * power y q)%R) with (weighted y). field. lra. }
    rewrite ES. split; auto. rewrite <- ES.
    replace (INR (length y) * Rsum (map (weighted y) (seq 1 (Nat.min M (length y / 2)))) / (INR (length y) * var y))%R
      with (Rsum (map (weighted y) (seq 1 (Nat.min M (length y / 2)))) / var y)%R by (field; lra).
    assert (H0 : (0 <= Rsum (map (weighted y) (seq 1 (Nat.min M (length y / 2)))))%R).
    { apply Rsum_nonneg. intros x Hx. apply in_map_iff in Hx. destruct Hx as (q & <- & _). apply weighted_nonneg. }
    assert (H1 : (Rsum (map (weighted y) (seq 1 (Nat.min M (length y / 2)))) <= var y)%R).
    { rewrite <- (total_variance y Hy).
      replace (length y / 2) with (Nat.min M (length y / 2) + (length y / 2 - Nat.min M (length y / 2))) at 2 by lia.
      rewrite seq_app, map_app, Rsum_app.
      assert (0 <= Rsum (map (weighted y) (seq (1 + Nat.min M (length y / 2)) (length y / 2 - Nat.min M (length y / 2)))))%R.
      { apply Rsum_nonneg. intros x Hx. apply in_map_iff in Hx. destruct Hx as (q & <- & _). apply weighted_nonneg. }
      lra. }
    split; [apply Rdiv_nonneg; auto|]. apply Rmult_le_reg_r with (var y); auto.
    unfold Rdiv. rewrite Rmult_assoc, Rinv_l by auto. lra.
Qed.
