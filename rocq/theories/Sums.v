(** * Finite sums over index ranges, and the discrete Parseval identity. *)
From Coq Require Import Reals List Arith Lia Lra Permutation.
From Verif Require Import Base Stats.
Import ListNotations.
Local Open Scope R_scope.

(** [sum n f] = f 0 + ... + f (n-1). *)
Definition sum (n : nat) (f : nat -> R) : R := Rsum (map f (seq 0 n)).

Lemma sum_S : forall n f, sum (S n) f = sum n f + f n.
Proof.
  intros. unfold sum. rewrite seq_S, map_app, Rsum_app. simpl. lra.
Qed.
Lemma sum_0 : forall f, sum 0 f = 0.
Proof. reflexivity. Qed.

Lemma sum_ext : forall n f g, (forall i, (i < n)%nat -> f i = g i) -> sum n f = sum n g.
Proof. intros. apply Rsum_ext. intros i Hi. apply in_seq in Hi. apply H. lia. Qed.

Lemma sum_plus : forall n f g, sum n (fun i => f i + g i) = sum n f + sum n g.
Proof. intros. apply Rsum_map_plus. Qed.
Lemma sum_minus : forall n f g, sum n (fun i => f i - g i) = sum n f - sum n g.
Proof. intros. apply Rsum_map_minus. Qed.
Lemma sum_scal : forall n c f, sum n (fun i => c * f i) = c * sum n f.
Proof. intros. apply Rsum_map_scal. Qed.
Lemma sum_const : forall n c, sum n (fun _ => c) = INR n * c.
Proof. intros. unfold sum. rewrite Rsum_const, seq_length. auto. Qed.
Lemma sum_zero : forall n f, (forall i, (i < n)%nat -> f i = 0) -> sum n f = 0.
Proof. intros n f H. rewrite (sum_ext n f (fun _ => 0) H), sum_const. lra. Qed.
Lemma sum_nonneg : forall n f, (forall i, (i < n)%nat -> 0 <= f i) -> 0 <= sum n f.
Proof.
  intros n f H. apply Rsum_nonneg. intros x Hx. apply in_map_iff in Hx. destruct Hx as (i & <- & Hi).
  apply in_seq in Hi. apply H. lia.
Qed.

Lemma sum_swap : forall n m f, sum n (fun i => sum m (fun j => f i j)) = sum m (fun j => sum n (fun i => f i j)).
Proof.
  induction n; intros m f.
  - rewrite sum_0. symmetry. apply sum_zero. auto.
  - rewrite sum_S, IHn. rewrite <- sum_plus. apply sum_ext. intros. rewrite sum_S. auto.
Qed.

Lemma sum_mult : forall n m f g, sum n f * sum m g = sum n (fun i => sum m (fun j => f i * g j)).
Proof.
  intros. rewrite (sum_ext n (fun i => sum m (fun j => f i * g j)) (fun i => sum m g * f i)).
  - rewrite sum_scal. ring.
  - intros i Hi. rewrite sum_scal. ring.
Qed.

Lemma sum_delta : forall n f k, (k < n)%nat -> (forall i, (i < n)%nat -> i <> k -> f i = 0) -> sum n f = f k.
Proof.
  induction n; intros f k Hk H; [lia|]. rewrite sum_S. destruct (Nat.eq_dec k n) as [->|Hne].
  - rewrite (sum_zero n). lra. intros i Hi. apply H; lia.
  - rewrite (IHn f k) by (auto with zarith; lia). rewrite (H n) by lia. lra.
Qed.

Lemma sum_list : forall (y : list R), Rsum y = sum (length y) (fun t => nth t y 0).
Proof.
  induction y; simpl; auto. unfold sum in *. simpl. rewrite <- seq_shift, map_map. rewrite IHy. auto.
Qed.
Lemma sum_list_map : forall A (d : A) (f : A -> R) (y : list A),
  Rsum (map f y) = sum (length y) (fun t => f (nth t y d)).
Proof.
  induction y; simpl; auto. unfold sum in *. simpl. rewrite <- seq_shift, map_map. rewrite IHy. auto.
Qed.

(** Reversing the range. *)
Lemma Rsum_rev_seq : forall h a f,
  Rsum (map f (seq (S a) h)) = Rsum (map (fun q => f (a + h + 1 - q)%nat) (seq 1 h)).
Proof.
  induction h; intros a f; [reflexivity|].
  rewrite (seq_S h 1), map_app, Rsum_app. cbn [seq map Rsum fold_right].
  fold (Rsum (map f (seq (S (S a)) h))). rewrite IHh.
  replace (a + S h + 1 - (1 + h))%nat with (S a) by lia.
  rewrite (Rsum_ext _ (fun q => f (S a + h + 1 - q)%nat) (fun q => f (a + S h + 1 - q)%nat)).
  - simpl. lra.
  - intros q Hq. f_equal. lia.
Qed.

(** Summing over a subset. *)
Lemma Rsum_incl : forall A (f : A -> R) l l', NoDup l -> incl l l' -> (forall x, In x l' -> 0 <= f x) ->
  Rsum (map f l) <= Rsum (map f l').
Proof.
  induction l as [|a l IH]; intros l' ND Hi Hf.
  - simpl. apply Rsum_nonneg. intros x Hx. apply in_map_iff in Hx. destruct Hx as (y & <- & Hy). auto.
  - inversion ND; subst. destruct (in_split a l') as (l1 & l2 & ->); [apply Hi; simpl; auto|].
    rewrite (Rsum_perm (map f (l1 ++ a :: l2)) (map f (a :: l1 ++ l2))).
    + simpl. apply Rplus_le_compat_l. apply IH; auto.
      * intros x Hx. assert (Hx' := Hi x (or_intror Hx)). apply in_app_or in Hx'. apply in_or_app.
        destruct Hx' as [|[->|]]; auto. contradiction.
      * intros x Hx. apply Hf. apply in_app_or in Hx. apply in_or_app. simpl. tauto.
    + apply Permutation_map. apply Permutation_sym, Permutation_middle.
Qed.

(** Variance as mean square minus squared mean. *)
Lemma var_alt : forall l, l <> [] ->
  var l = Rsum (map (fun x => x ^ 2) l) / INR (length l) - (Rsum l / INR (length l)) ^ 2.
Proof.
  intros l H. pose proof (INR_length_pos _ l H). unfold var. unfold mean at 1. rewrite map_length.
  rewrite (Rsum_ext _ _ (fun x => (x ^ 2 - (2 * mean l) * x) + mean l ^ 2)) by (intros; ring).
  rewrite Rsum_map_plus, Rsum_map_minus, Rsum_const, Rsum_scal. unfold mean.
  field. lra.
Qed.

(** ** Discrete Fourier transform *)
Section Fourier.
Variable n : nat.
Hypothesis Hn : (0 < n)%nat.
Let N := INR n.
Lemma N_pos : 0 < N.
Proof. apply lt_0_INR. auto. Qed.

Lemma dirichlet : forall x m, 2 * sin (x / 2) * sum m (fun q => cos (INR q * x))
  = sin (INR m * x - x / 2) + sin (x / 2).
Proof.
  intros x. induction m.
  - rewrite sum_0. simpl. replace (0 * x - x / 2) with (- (x / 2)) by lra. rewrite sin_neg. lra.
  - rewrite sum_S, Rmult_plus_distr_l, IHm, S_INR.
    replace ((INR m + 1) * x - x / 2) with (INR m * x + x / 2) by lra.
    rewrite sin_plus, sin_minus. lra.
Qed.

Lemma cos_orth : forall d, (0 < d < n)%nat -> sum n (fun q => cos (INR q * (2 * PI * INR d / N))) = 0.
Proof.
  intros d Hd. pose proof N_pos as HN. set (x := 2 * PI * INR d / N).
  assert (Hs : 0 < sin (x / 2)).
  { assert (0 < INR d < N) by (split; [apply lt_0_INR|apply lt_INR]; lia).
    assert (Q : 0 < INR d / N < 1).
    { split; [apply Rdiv_lt_0_compat; lra|]. apply Rmult_lt_reg_r with N; auto.
      unfold Rdiv. rewrite Rmult_assoc, Rinv_l by lra. lra. }
    pose proof PI_RGT_0. replace (x / 2) with (PI * (INR d / N)) by (unfold x; field; lra).
    apply sin_gt_0; nra. }
  pose proof (dirichlet x n) as E.
  replace (INR n * x - x / 2) with (- (x / 2) + 2 * INR d * PI) in E by (unfold x, N; field; fold N; lra).
  rewrite sin_period, sin_neg in E.
  apply Rmult_eq_reg_l with (2 * sin (x / 2)); lra.
Qed.

Lemma cos_orth2 : forall s t, (s < n)%nat -> (t < n)%nat ->
  sum n (fun q => cos (2 * PI * INR q * INR s / N - 2 * PI * INR q * INR t / N)) = if Nat.eq_dec s t then N else 0.
Proof.
  intros s t Hs Ht. pose proof N_pos. destruct (Nat.eq_dec s t) as [->|Hne].
  - rewrite (sum_ext n _ (fun _ => 1)).
    + rewrite sum_const. fold N. lra.
    + intros. rewrite Rminus_diag_eq by auto. apply cos_0.
  - assert (G : forall a b, (a < n)%nat -> (b < a)%nat ->
      sum n (fun q => cos (2 * PI * INR q * INR a / N - 2 * PI * INR q * INR b / N)) = 0).
    { intros a b Ha Hb. rewrite <- (cos_orth (a - b)) by lia. apply sum_ext. intros q Hq. f_equal.
      rewrite minus_INR by lia. field. lra. }
    destruct (Nat.lt_ge_cases t s); [apply G; auto|].
    rewrite <- (G t s) by lia. apply sum_ext. intros q Hq. rewrite <- cos_neg. f_equal. lra.
Qed.

Definition re (y : nat -> R) (q : nat) : R := sum n (fun t => y t * cos (2 * PI * INR q * INR t / N)).
Definition im (y : nat -> R) (q : nat) : R := sum n (fun t => y t * sin (2 * PI * INR q * INR t / N)).

(** Parseval's identity. *)
Lemma parseval : forall y, sum n (fun q => re y q ^ 2 + im y q ^ 2) = N * sum n (fun t => y t ^ 2).
Proof.
  intros y.
  rewrite (sum_ext n _ (fun q => sum n (fun s => sum n (fun t =>
    (y s * y t) * cos (2 * PI * INR q * INR s / N - 2 * PI * INR q * INR t / N))))).
  2:{ intros q Hq. replace (re y q ^ 2 + im y q ^ 2) with (re y q * re y q + im y q * im y q) by ring.
      unfold re, im. rewrite !sum_mult, <- sum_plus. apply sum_ext. intros s Hs.
      rewrite <- sum_plus. apply sum_ext. intros t Ht. rewrite cos_minus. ring. }
  rewrite sum_swap, <- sum_scal. apply sum_ext. intros s Hs. rewrite sum_swap.
  rewrite (sum_delta n _ s Hs).
  - rewrite sum_scal, cos_orth2 by auto. destruct (Nat.eq_dec s s); [ring|congruence].
  - intros t Ht Hne. rewrite sum_scal, cos_orth2 by auto. destruct (Nat.eq_dec s t); [congruence|ring].
Qed.

(** The coefficients of a real signal come in conjugate pairs. *)
Lemma re_sym : forall y q, (q <= n)%nat -> re y (n - q) = re y q.
Proof.
  intros y q Hq. pose proof N_pos. apply sum_ext. intros t Ht. f_equal. rewrite minus_INR by auto. fold N.
  replace (2 * PI * (N - INR q) * INR t / N) with (- (2 * PI * INR q * INR t / N) + 2 * INR t * PI) by (field; lra).
  rewrite cos_period. apply cos_neg.
Qed.
Lemma im_sym : forall y q, (q <= n)%nat -> im y (n - q) = - im y q.
Proof.
  intros y q Hq. pose proof N_pos. unfold im.
  rewrite (sum_ext n _ (fun t => (-1) * (y t * sin (2 * PI * INR q * INR t / N)))).
  - rewrite sum_scal. lra.
  - intros t Ht. rewrite minus_INR by auto. fold N.
    replace (2 * PI * (N - INR q) * INR t / N) with (- (2 * PI * INR q * INR t / N) + 2 * INR t * PI) by (field; lra).
    rewrite sin_period, sin_neg. ring.
Qed.

Lemma re_0 : forall y, re y 0 = sum n y.
Proof.
  intros. apply sum_ext. intros. replace (2 * PI * INR 0 * INR i / N) with 0 by (simpl; unfold Rdiv; ring).
  rewrite cos_0. ring.
Qed.
Lemma im_0 : forall y, im y 0 = 0.
Proof.
  intros. apply sum_zero. intros. replace (2 * PI * INR 0 * INR i / N) with 0 by (simpl; unfold Rdiv; ring).
  rewrite sin_0. ring.
Qed.

(** The positive-frequency half of the spectrum. *)
Lemma half_spectrum : forall y h, (n = 2 * h + 1)%nat ->
  2 * Rsum (map (fun q => re y q ^ 2 + im y q ^ 2) (seq 1 h)) = N * sum n (fun t => y t ^ 2) - sum n y ^ 2.
Proof.
  intros y h E. rewrite <- parseval. unfold sum at 1.
  replace (seq 0 n) with (0%nat :: seq 1 h ++ seq (S h) h).
  - cbn [map Rsum fold_right]. rewrite map_app. fold (Rsum (map (fun q => re y q ^ 2 + im y q ^ 2) (seq 1 h) ++
      map (fun q => re y q ^ 2 + im y q ^ 2) (seq (S h) h))).
    rewrite Rsum_app, (Rsum_rev_seq h h), re_0, im_0. cbv beta.
    rewrite (Rsum_ext _ (fun q => re y (h + h + 1 - q) ^ 2 + im y (h + h + 1 - q) ^ 2)
      (fun q => re y q ^ 2 + im y q ^ 2)).
    + ring.
    + intros q Hq. apply in_seq in Hq. replace (h + h + 1 - q)%nat with (n - q)%nat by lia.
      rewrite re_sym, im_sym by lia. ring.
  - rewrite E. replace (2 * h + 1)%nat with (S (h + h)) by lia. cbn [seq]. f_equal. rewrite seq_app. f_equal.
Qed.

Lemma half_spectrum_even : forall y h, (n = 2 * h + 2)%nat ->
  2 * Rsum (map (fun q => re y q ^ 2 + im y q ^ 2) (seq 1 h))
  = N * sum n (fun t => y t ^ 2) - sum n y ^ 2 - sum n (fun t => (-1) ^ t * y t) ^ 2.
Proof.
  intros y h E. rewrite <- parseval. unfold sum at 1.
  assert (HN : N = 2 * INR (S h)).
  { unfold N. rewrite E. replace (2 * h + 2)%nat with (2 * S h)%nat by lia. rewrite mult_INR. reflexivity. }
  pose proof N_pos as HN0.
  assert (A : forall t, 2 * PI * INR (S h) * INR t / N = 0 + INR t * PI).
  { intros. rewrite HN. field. lra. }
  assert (C : forall t, cos (0 + INR t * PI) = (-1) ^ t /\ sin (0 + INR t * PI) = 0).
  { induction t.
    - simpl. rewrite Rmult_0_l, Rplus_0_l, cos_0, sin_0. auto.
    - rewrite S_INR. replace (0 + (INR t + 1) * PI) with ((0 + INR t * PI) + PI) by ring.
      rewrite neg_cos, neg_sin. destruct IHt as [-> ->]. simpl. split; ring. }
  assert (M1 : re y (S h) = sum n (fun t => (-1) ^ t * y t)).
  { apply sum_ext. intros t Ht. rewrite A, (proj1 (C t)). ring. }
  assert (M2 : im y (S h) = 0).
  { apply sum_zero. intros t Ht. rewrite A, (proj2 (C t)). ring. }
  replace (seq 0 n) with (0%nat :: seq 1 h ++ (S h :: seq (S (S h)) h)).
  - cbn [map Rsum fold_right]. rewrite map_app. fold (Rsum (map (fun q => re y q ^ 2 + im y q ^ 2) (seq 1 h) ++
      map (fun q => re y q ^ 2 + im y q ^ 2) (S h :: seq (S (S h)) h))).
    rewrite Rsum_app. cbn [map Rsum fold_right].
    fold (Rsum (map (fun q => re y q ^ 2 + im y q ^ 2) (seq (S (S h)) h))).
    rewrite (Rsum_rev_seq h (S h)), re_0, im_0, M1, M2. cbv beta.
    rewrite (Rsum_ext _ (fun q => re y (S h + h + 1 - q) ^ 2 + im y (S h + h + 1 - q) ^ 2)
      (fun q => re y q ^ 2 + im y q ^ 2)).
    + ring.
    + intros q Hq. apply in_seq in Hq. replace (S h + h + 1 - q)%nat with (n - q)%nat by lia.
      rewrite re_sym, im_sym by lia. ring.
  - rewrite E. replace (2 * h + 2)%nat with (S (h + S h)) by lia. cbn [seq]. f_equal.
    rewrite seq_app. reflexivity.
Qed.
End Fourier.
