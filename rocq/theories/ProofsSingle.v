(** * Relative errors of sums and roots of numbers that are 0 or not tiny. *)
From Coq Require Import Reals List Arith ZArith Bool Lia Lra Psatz Permutation.
From Flocq Require Import Core Relative.
From Verif Require Import Base Arrays Stats ModelDouble ModelDouble4 ModelSingle ProofsDouble.
Import ListNotations.
Local Open Scope R_scope.

(** [x] and [y] agree up to the factor [r], in both directions. *)
Definition within (r x y : R) : Prop := r * x <= y /\ r * y <= x.

Lemma within_refl : forall r x, 0 <= r <= 1 -> 0 <= x -> within r x x.
Proof. intros. split; nra. Qed.
Lemma within_weaken : forall r q x y, 0 <= q <= r -> 0 <= x -> 0 <= y -> within r x y -> within q x y.
Proof. intros r q x y H X Y [A B]. split; nra. Qed.
Lemma within_trans : forall r q x y z, 0 <= r -> 0 <= q -> within r x y -> within q y z -> within (r * q) x z.
Proof.
  intros r q x y z R Q [A B] [C D]. split.
  - apply Rle_trans with (q * y); [|exact C]. replace (r * q * x) with (q * (r * x)) by ring. apply Rmult_le_compat_l; auto.
  - apply Rle_trans with (r * y); [|exact B]. rewrite Rmult_assoc. apply Rmult_le_compat_l; auto.
Qed.
Lemma within_plus : forall r x y x' y', within r x y -> within r x' y' -> within r (x + x') (y + y').
Proof. intros r x y x' y' [A B] [C D]. split; lra. Qed.
Lemma within_square : forall r x y, 0 <= r -> 0 <= x -> 0 <= y -> within r x y -> within (r * r) (x * x) (y * y).
Proof.
  intros r x y R X Y [A B]. split.
  - replace (r * r * (x * x)) with ((r * x) * (r * x)) by ring. apply Rmult_le_compat; auto; apply Rmult_le_pos; auto.
  - replace (r * r * (y * y)) with ((r * y) * (r * y)) by ring. apply Rmult_le_compat; auto; apply Rmult_le_pos; auto.
Qed.
Lemma within_root : forall r x y, 0 <= r -> 0 <= x -> 0 <= y -> within (r * r) x y -> within r (sqrt x) (sqrt y).
Proof.
  intros r x y R X Y [A B]. split.
  - rewrite <- (sqrt_square r) by auto. rewrite <- sqrt_mult by nra. apply sqrt_le_1_alt. exact A.
  - rewrite <- (sqrt_square r) by auto. rewrite <- sqrt_mult by nra. apply sqrt_le_1_alt. exact B.
Qed.

(** 0, or at least [h]. *)
Definition clear_of (h x : R) : Prop := x = 0 \/ h <= x.
Lemma clear_weaken : forall h h' x, h' <= h -> clear_of h x -> clear_of h' x.
Proof. intros h h' x H [E|E]; [left|right]; lra. Qed.
Lemma clear_pos : forall h x, 0 <= h -> clear_of h x -> 0 <= x.
Proof. intros h x H [E|E]; lra. Qed.
Lemma clear_plus : forall h x y, 0 <= h -> clear_of h x -> clear_of h y -> clear_of h (x + y).
Proof. intros h x y H [->|A] [->|B]; [left|right|right|right]; lra. Qed.
Lemma clear_square : forall h x, 0 <= h -> clear_of h x -> clear_of (h * h) (x * x).
Proof. intros h x H [->|A]; [left; ring|right; apply Rmult_le_compat; auto]. Qed.
Lemma clear_root : forall h x, 0 <= h -> clear_of (h * h) x -> clear_of h (sqrt x).
Proof. intros h x H [->|A]; [left; apply sqrt_0|right]. rewrite <- (sqrt_square h) by auto. apply sqrt_le_1_alt. exact A. Qed.

(** A rounding that is accurate for numbers from [h] on. *)
Definition accurate (rnd : R -> R) (r h : R) : Prop :=
  rnd 0 = 0 /\ forall x, h <= x -> h <= rnd x /\ within r x (rnd x).

Section Rounding.
Variable rnd : R -> R.
Variables r h : R.
Hypothesis R01 : 0 <= r <= 1.
Hypothesis H0 : 0 <= h.
Hypothesis acc : accurate rnd r h.

Lemma accurate_step : forall x, clear_of h x -> clear_of h (rnd x) /\ within r x (rnd x).
Proof.
  intros x [->|A].
  - rewrite (proj1 acc). split; [left; auto|split; lra].
  - destruct (proj2 acc x A) as (B & C). split; [right; auto|auto].
Qed.

Lemma accurate_chain : forall q x y, 0 <= q -> within q x y -> clear_of h y -> within (q * r) x (rnd y).
Proof. intros q x y Q A B. eapply within_trans; [auto|apply R01|exact A|apply accurate_step; auto]. Qed.

Lemma pow_le1 : forall a b, (a <= b)%nat -> r ^ b <= r ^ a.
Proof.
  intros a b L. replace b with (a + (b - a))%nat by lia. rewrite pow_add. assert (0 <= r ^ a) by (apply pow_le; tauto).
  assert (r ^ (b - a) <= 1). { rewrite <- (pow1 (b - a)). apply pow_incr. auto. } nra.
Qed.

Lemma tsum_accurate : forall q xs ys t, 0 <= q ->
  (forall i, In i (leaves t) -> 0 <= nth i xs 0 /\ clear_of h (nth i ys 0) /\ within q (nth i xs 0) (nth i ys 0)) ->
  0 <= Rsum (map (fun i => nth i xs 0) (leaves t)) /\ clear_of h (tsum_by rnd t ys) /\
  within (q * r ^ (length (leaves t) - 1)) (Rsum (map (fun i => nth i xs 0) (leaves t))) (tsum_by rnd t ys).
Proof.
  intros q xs ys t Q. induction t as [i|a IHa b IHb]; intros H.
  - cbn [leaves map length Nat.sub tsum_by pow]. unfold Rsum. cbn [fold_right]. rewrite Rplus_0_r, Rmult_1_r. apply H. left. auto.
  - cbn [leaves tsum_by] in *. destruct IHa as (A1 & A2 & A3); [intros; apply H, in_or_app; auto|].
    destruct IHb as (B1 & B2 & B3); [intros; apply H, in_or_app; auto|].
    rewrite map_app, Rsum_app. assert (C : clear_of h (tsum_by rnd a ys + tsum_by rnd b ys)) by (apply clear_plus; auto).
    split; [lra|]. split; [apply accurate_step; auto|].
    assert (La : (0 < length (leaves a))%nat). { clear. induction a; simpl; [lia|]. rewrite app_length. lia. }
    assert (Lb : (0 < length (leaves b))%nat). { clear. induction b; simpl; [lia|]. rewrite app_length. lia. }
    rewrite app_length. set (m := (length (leaves a) + length (leaves b) - 2)%nat).
    replace (length (leaves a) + length (leaves b) - 1)%nat with (S m) by lia. cbn [pow]. rewrite (Rmult_comm r), <- Rmult_assoc.
    assert (Pm : forall e, 0 <= r ^ e) by (intros; apply pow_le; tauto).
    assert (W : forall e x y, (e <= m)%nat -> 0 <= x -> 0 <= y -> within (q * r ^ e) x y -> within (q * r ^ m) x y).
    { intros e x y L X Y. apply within_weaken; auto. split; [apply Rmult_le_pos; auto|]. apply Rmult_le_compat_l; auto. apply pow_le1. auto. }
    apply accurate_chain; auto; [apply Rmult_le_pos; auto|]. apply within_plus.
    + apply (W (length (leaves a) - 1)%nat); auto; [lia|apply (clear_pos h); auto].
    + apply (W (length (leaves b) - 1)%nat); auto; [lia|apply (clear_pos h); auto].
Qed.

Lemma tsum_nil : forall t, tsum_by rnd t [] = 0.
Proof. induction t as [i|a IHa b IHb]; cbn [tsum_by]; [destruct i; auto|]. rewrite IHa, IHb, Rplus_0_r. apply acc. Qed.

Lemma sum_accurate : forall q arr xs ys, 0 <= q -> arrangement arr ->
  Forall2 (fun x y => 0 <= x /\ clear_of h y /\ within q x y) xs ys ->
  0 <= Rsum xs /\ clear_of h (sum_by rnd arr ys) /\ within (q * r ^ (length xs - 1)) (Rsum xs) (sum_by rnd arr ys).
Proof.
  intros q arr xs ys Q A F. assert (L : length xs = length ys) by (clear -F; induction F; simpl; auto). unfold sum_by.
  destruct (Nat.eq_dec (length xs) 0) as [Z|NZ].
  - destruct xs; [|discriminate]. destruct ys; [|discriminate]. rewrite tsum_nil. unfold Rsum. cbn.
    split; [lra|]. split; [left; auto|]. split; lra.
  - specialize (A (length ys) ltac:(lia)).
    assert (E : Rsum (map (fun i => nth i xs 0) (leaves (arr (length ys)))) = Rsum xs).
    { rewrite (Rsum_perm _ _ (Permutation_map _ A)), <- L. f_equal. symmetry. clear. induction xs as [|x xs IH]; auto.
      cbn [length seq map]. f_equal; auto. rewrite <- seq_shift, map_map. exact IH. }
    assert (LL : length (leaves (arr (length ys))) = length xs) by (rewrite (Permutation_length A), seq_length; auto).
    rewrite <- E, <- LL. apply tsum_accurate; auto. intros i Hi.
    assert (I : (i < length xs)%nat). { apply (Permutation_in _ A), in_seq in Hi. lia. }
    clear -F I. revert i I. induction F as [|x y xs ys H F IH]; intros i I; [simpl in I; lia|]. destruct i; cbn [nth]; [exact H|]. apply IH. simpl in I. lia.
Qed.
End Rounding.

(** ** Double and single precision *)
Lemma within_error : forall u x y, 0 <= u <= 1 -> 0 <= x -> Rabs (y - x) <= u * x -> within (1 - u) x y.
Proof. intros u x y U X A. apply Rabs_le_inv in A. split; nra. Qed.

Lemma fl_accurate : forall h, double h -> bpow radix2 (-1022) <= h -> accurate fl (1 - bpow radix2 (-53)) h.
Proof.
  intros h D B. split; [apply fl_double, double_0|]. intros x X. pose proof (bpow_gt_0 radix2 (-1022)) as P. split; [apply fl_ge; auto|].
  destruct (fl_rel x) as (e & E1 & E2). { rewrite Rabs_pos_eq by lra. lra. }
  apply within_error; [|lra|].
  - split; [apply bpow_ge_0|]. change 1 with (bpow radix2 0). apply bpow_le. lia.
  - rewrite E2. replace (x * (1 + e) - x) with (e * x) by ring. rewrite Rabs_mult, (Rabs_pos_eq x) by lra. apply Rmult_le_compat_r; lra.
Qed.

Global Instance prec24 : Prec_gt_0 24 := eq_refl.
Global Instance vfexp32 : Valid_exp (FLT_exp (-149) 24) := FLT_exp_valid (-149) 24.
Lemma f32_mono : forall x y, x <= y -> f32 x <= f32 y.
Proof. intros. apply round_le; auto with typeclass_instances. Qed.
Lemma f32_single : forall x, single x -> f32 x = x.
Proof. intros. apply round_generic; auto with typeclass_instances. Qed.
Lemma single_F : forall m e, (Z.abs m < 2 ^ 24)%Z -> (-149 <= e)%Z -> single (IZR m * bpow radix2 e).
Proof.
  intros m e Hm He. change (single (F2R (Float radix2 m e))). apply generic_format_FLT. exists (Float radix2 m e); auto.
Qed.
Lemma single_bpow : forall e, (-149 <= e)%Z -> single (bpow radix2 e).
Proof. intros. replace (bpow radix2 e) with (IZR 1 * bpow radix2 e) by ring. apply single_F; auto. reflexivity. Qed.
Lemma double_bpow : forall e, (-1074 <= e)%Z -> double (bpow radix2 e).
Proof. intros. replace (bpow radix2 e) with (IZR 1 * bpow radix2 e) by ring. apply double_F; auto. reflexivity. Qed.

Lemma f32_accurate : forall h, single h -> bpow radix2 (-126) <= h -> accurate f32 (1 - bpow radix2 (-24)) h.
Proof.
  intros h D B. split.
  - apply f32_single. replace 0 with (IZR 0 * bpow radix2 0) by ring. apply single_F; [reflexivity|lia].
  - intros x X. pose proof (bpow_gt_0 radix2 (-126)) as P. split; [rewrite <- (f32_single h) by auto; apply f32_mono; auto|].
    destruct (relative_error_N_FLT_ex radix2 (-149) 24 ltac:(reflexivity) (fun t => negb (Z.even t)) x) as (e & E1 & E2).
    { rewrite Rabs_pos_eq by lra. simpl (-149 + 24 - 1)%Z. lra. }
    apply within_error; [|lra|].
    + split; [apply bpow_ge_0|]. change 1 with (bpow radix2 0). apply bpow_le. lia.
    + unfold f32. rewrite E2. replace (x * (1 + e) - x) with (e * x) by ring. rewrite Rabs_mult, (Rabs_pos_eq x) by lra. apply Rmult_le_compat_r; [lra|].
      eapply Rle_trans; [exact E1|]. simpl. lra.
Qed.
