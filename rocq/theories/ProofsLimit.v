(** * Averages over a box as limits of means over grids. *)
From Coq Require Import Reals String List Arith Lia Lra Psatz.
From Verif Require Import Base Stats SpecIntegral ProofsIntegral SpecExpect ProofsExpect SpecLimit ProofsPoincare ProofsPoincare2.
Import ListNotations.
Local Open Scope R_scope.

Notation average := SpecIntegral.average.

Lemma Rabs_le_between : forall x e, Rabs x <= e -> - e <= x <= e.
Proof. intros x e H. pose proof (Rle_abs x). pose proof (Rle_abs (- x)). rewrite Rabs_Ropp in *. lra. Qed.

(** ** One interval cut into equal cells *)
Lemma integral_split : forall f a c b v, a <= c <= b -> integral f a b v -> exists v1 v2, integral f a c v1 /\ integral f c b v2 /\ v = v1 + v2.
Proof.
  intros f a c b v H I. pose proof I as I0. destruct I as (p & E).
  pose (p1 := RiemannInt_P22 p H). pose (p2 := RiemannInt_P23 p H).
  exists (RiemannInt p1), (RiemannInt p2). split; [exists p1; reflexivity|]. split; [exists p2; reflexivity|].
  apply (integral_unique f a b); auto. apply (integral_chasles f a c b); [exists p1; reflexivity|exists p2; reflexivity].
Qed.

Lemma integral_le : forall f g a b v w, a <= b -> (forall x, a <= x <= b -> f x <= g x) -> integral f a b v -> integral g a b w -> v <= w.
Proof.
  intros f g a b v w L H F G. pose proof (integral_lin g f a b (-1) w v G F) as I. apply integral_nonneg in I; auto; [lra|].
  intros x Hx. specialize (H x Hx). lra.
Qed.

Lemma integral_near : forall f a b v y e, a <= b -> integral f a b v -> (forall x, a <= x <= b -> Rabs (f x - y) <= e) -> Rabs (v - (b - a) * y) <= e * (b - a).
Proof.
  intros f a b v y e L I H.
  assert (v <= (y + e) * (b - a)).
  { apply (integral_le f (fun _ => y + e) a b); auto; [|apply integral_const]. intros x Hx. specialize (H x Hx). apply Rabs_le_between in H. lra. }
  assert ((y - e) * (b - a) <= v).
  { apply (integral_le (fun _ => y - e) f a b); auto; [|apply integral_const]. intros x Hx. specialize (H x Hx). apply Rabs_le_between in H. lra. }
  apply Rabs_le. lra.
Qed.

Lemma cells : forall n lo w h v e (y : nat -> R), 0 <= w -> integral h lo (lo + INR n * w) v ->
  (forall k x, (k < n)%nat -> lo + INR k * w <= x <= lo + (INR k + 1) * w -> Rabs (h x - y k) <= e) ->
  Rabs (v - w * Rsum (map y (seq 0 n))) <= e * (INR n * w).
Proof.
  induction n as [|n IH]; intros lo w h v e y W I H.
  - simpl in I. replace (lo + 0 * w) with lo in I by ring. assert (v = 0).
    { apply (integral_unique h lo lo); auto. exists (RiemannInt_P7 h lo). apply RiemannInt_P9. }
    subst v. simpl. unfold Rsum. simpl. rewrite Rmult_0_r, Rminus_0_r, Rabs_R0. lra.
  - pose proof (pos_INR n) as PN. rewrite S_INR in *. destruct (integral_split h lo (lo + w) (lo + (INR n + 1) * w) v) as (v1 & v2 & I1 & I2 & ->); auto.
    { split; [lra|]. nra. }
    rewrite <- cons_seq, <- seq_shift, map_cons, map_map. unfold Rsum. cbn [fold_right]. fold (Rsum (map (fun x => y (S x)) (seq 0 n))).
    assert (A1 : Rabs (v1 - (lo + w - lo) * y 0%nat) <= e * (lo + w - lo)).
    { apply (integral_near h); auto; [lra|]. intros x Hx. apply (H 0%nat); [lia|]. simpl. lra. }
    assert (A2 : Rabs (v2 - w * Rsum (map (fun x => y (S x)) (seq 0 n))) <= e * (INR n * w)).
    { apply (IH (lo + w) w h); auto.
      - replace (lo + w + INR n * w) with (lo + (INR n + 1) * w) by ring. auto.
      - intros k x K Hx. apply (H (S k)); [lia|]. rewrite S_INR. lra. }
    replace (lo + w - lo) with w in A1 by ring.
    replace (v1 + v2 - w * (y 0%nat + Rsum (map (fun x => y (S x)) (seq 0 n)))) with ((v1 - w * y 0%nat) + (v2 - w * Rsum (map (fun x => y (S x)) (seq 0 n)))) by ring.
    eapply Rle_trans; [apply Rabs_triang|]. lra.
Qed.

(** ** Grids *)
Definition grid1 (n : nat) (i : R * R) : @law R := map (fun k => (fst i + INR k * ((snd i - fst i) / INR n), / INR n)) (seq 0 n).
Definition grid (n : nat) (b : box) : list (@law R) := map (grid1 n) b.

Lemma grid_probability : forall n b, (0 < n)%nat -> Forall probability (grid n b).
Proof.
  intros n b N. apply Forall_forall. intros d Hd. apply in_map_iff in Hd. destruct Hd as (i & <- & _).
  assert (0 < INR n) by (apply lt_0_INR; auto). split.
  - intros v w Hv. apply in_map_iff in Hv. destruct Hv as (k & E & _). injection E as _ <-. left. apply Rinv_0_lt_compat. auto.
  - unfold total_weight, grid1. rewrite map_map. simpl. change (fold_right Rplus 0) with Rsum.
    rewrite Rsum_const, seq_length. field. lra.
Qed.

Lemma grid_length : forall n b, length (grid n b) = length b.
Proof. intros. apply map_length. Qed.

(** The expectation over a grid only looks at points of the box. *)
Lemma expect_grid_ext : forall n b f g, proper b -> (0 < n)%nat -> (forall x, inside b x -> f x = g x) -> expect (grid n b) f = expect (grid n b) g.
Proof.
  intros n b. induction b as [|i b IH]; intros f g P N H; [simpl; apply H; constructor|].
  inversion P as [|? ? Pi Pb]; subst. cbn [grid map expect]. fold (grid n b). f_equal. apply map_ext_in. intros vw Hv. f_equal.
  apply IH; auto. intros x Hx. apply H. constructor; auto. apply in_map_iff in Hv. destruct Hv as (k & <- & K). apply in_seq in K. simpl.
  assert (0 < INR n) by (apply lt_0_INR; auto). pose proof (pos_INR k). assert (INR k <= INR n) by (apply le_INR; lia).
  assert (0 <= INR k * ((snd i - fst i) / INR n)) by (apply Rmult_le_pos; auto; apply Rlt_le, Rdiv_lt_0_compat; lra).
  assert (INR k * ((snd i - fst i) / INR n) <= snd i - fst i); [|lra].
  apply Rle_trans with (INR n * ((snd i - fst i) / INR n)); [|right; field; lra]. apply Rmult_le_compat_r; auto. apply Rlt_le, Rdiv_lt_0_compat; lra.
Qed.

Lemma expect_grid_le : forall n b f g, proper b -> (0 < n)%nat -> (forall x, inside b x -> f x <= g x) -> expect (grid n b) f <= expect (grid n b) g.
Proof.
  intros n b f g P N H. assert (0 <= expect (grid n b) (fun x => Rmax 0 (g x - f x))).
  { apply expect_nonneg; [apply grid_probability; auto|]. intros. apply Rmax_l. }
  rewrite (expect_grid_ext n b (fun x => Rmax 0 (g x - f x)) (fun x => g x - f x)) in H0; auto.
  - rewrite expect_minus in H0. lra.
  - intros x Hx. specialize (H x Hx). rewrite Rmax_right; lra.
Qed.

Lemma expect_grid_near : forall n b f g e, proper b -> (0 < n)%nat -> (forall x, inside b x -> Rabs (f x - g x) <= e) ->
  Rabs (expect (grid n b) f - expect (grid n b) g) <= e.
Proof.
  intros n b f g e P N H. rewrite <- expect_minus.
  assert (A : expect (grid n b) (fun x => f x - g x) <= expect (grid n b) (fun _ => e)).
  { apply expect_grid_le; auto. intros x Hx. specialize (H x Hx). apply Rabs_le_between in H. lra. }
  assert (B : expect (grid n b) (fun _ => - e) <= expect (grid n b) (fun x => f x - g x)).
  { apply expect_grid_le; auto. intros x Hx. specialize (H x Hx). apply Rabs_le_between in H. lra. }
  rewrite expect_const in A, B by (apply grid_probability; auto). apply Rabs_le. lra.
Qed.

Lemma average_near : forall b f g v w e, proper b -> (forall x, inside b x -> Rabs (f x - g x) <= e) -> average b f v -> average b g w -> Rabs (v - w) <= e.
Proof.
  intros b f g v w e P H F G.
  assert (v <= e + 1 * w).
  { apply (average_le b f (fun x => e + 1 * g x)); auto; [|apply average_lin; auto; apply average_const]. intros x Hx. specialize (H x Hx). apply Rabs_le_between in H. lra. }
  assert (w <= e + 1 * v).
  { apply (average_le b g (fun x => e + 1 * f x)); auto; [|apply average_lin; auto; apply average_const]. intros x Hx. specialize (H x Hx). apply Rabs_le_between in H. lra. }
  apply Rabs_le. lra.
Qed.

Definition steady (b : box) (f : list R -> R) (d e : R) : Prop := forall x y, inside b x -> inside b y -> near d x y -> Rabs (f x - f y) <= e.

Lemma near_refl : forall d x, 0 <= d -> near d x x.
Proof. intros d x D. induction x; constructor; auto. rewrite Rminus_eq_0, Rabs_R0. auto. Qed.

(** The mean over a grid is near the average. *)
Lemma grid_near : forall n b f v d e, (0 < n)%nat -> proper b -> 0 <= d -> 0 <= e -> Forall (fun i => (snd i - fst i) / INR n <= d) b -> steady b f d e -> average b f v ->
  Rabs (expect (grid n b) f - v) <= INR (length b) * e.
Proof.
  intros n b. induction b as [|(lo, hi) b IH]; intros f v d e N P D E W S A.
  - simpl in A |- *. subst v. rewrite Rminus_eq_0, Rabs_R0. lra.
  - destruct A as (h & H & I). inversion P as [|? ? Pi Pb]; subst. inversion W as [|? ? Wi Wb]; subst. simpl in Pi, Wi.
    assert (PN : 0 < INR n) by (apply lt_0_INR; auto). set (w := (hi - lo) / INR n) in *.
    assert (PW : 0 < w) by (apply Rdiv_lt_0_compat; lra). assert (EW : INR n * w = hi - lo) by (unfold w; field; lra).
    cbn [grid map]. fold (grid n b). rewrite expect_cons. unfold grid1. rewrite map_map. cbn [fst snd]. fold w.
    set (y := fun k => expect (grid n b) (fun x => f (lo + INR k * w :: x))).
    match goal with |- Rabs (?s - v) <= _ => replace s with (/ INR n * Rsum (map y (seq 0 n))) by (rewrite <- Rsum_map_scal; reflexivity) end.
    assert (C : Rabs (v * (hi - lo) - w * Rsum (map y (seq 0 n))) <= (INR (length b) * e + e) * (INR n * w)).
    { apply (cells n lo w h); [lra|rewrite EW; replace (lo + (hi - lo)) with hi by ring; auto|].
      intros k x K Hx.
      assert (PK : 0 <= INR k) by apply pos_INR. assert (KN : INR k + 1 <= INR n) by (rewrite <- S_INR; apply le_INR; lia).
      assert (G1 : lo <= lo + INR k * w <= hi) by nra. assert (G2 : lo <= x <= hi) by nra.
      replace (h x - y k) with ((h x - h (lo + INR k * w)) + (h (lo + INR k * w) - y k)) by ring.
      eapply Rle_trans; [apply Rabs_triang|]. rewrite Rplus_comm. apply Rplus_le_compat.
      - rewrite <- Rabs_Ropp. replace (- (h (lo + INR k * w) - y k)) with (y k - h (lo + INR k * w)) by ring.
        apply (IH _ _ d e); auto. intros a c Ha Hc NC. apply S; [constructor; auto|constructor; auto|]. constructor; auto. rewrite Rminus_eq_0, Rabs_R0. auto.
      - apply (average_near b (fun xs => f (x :: xs)) (fun xs => f (lo + INR k * w :: xs))); auto.
        intros xs Hxs. apply S; [constructor; auto|constructor; auto|]. constructor; [|apply near_refl; auto].
        apply Rabs_le. lra. }
    cbn [length]. rewrite S_INR.
    replace (/ INR n * Rsum (map y (seq 0 n)) - v) with (- ((v * (hi - lo) - w * Rsum (map y (seq 0 n))) / (hi - lo))) by (unfold w; field; lra).
    rewrite Rabs_Ropp. unfold Rdiv. rewrite Rabs_mult, (Rabs_right (/ (hi - lo))) by (apply Rle_ge, Rlt_le, Rinv_0_lt_compat; lra).
    apply (Rmult_le_reg_r (hi - lo)); [lra|]. rewrite Rmult_assoc, Rinv_l, Rmult_1_r by lra. rewrite EW in C. lra.
Qed.
