(** * numpy statistics over the reals: sum, mean, variance, peak-to-peak, and their laws.

    Nothing here models a SALib function; these are the numpy primitives used by the analysers.
    [fval] results use [None] for nan/inf. *)
From Coq Require Import Reals List Arith Bool Lia Lra Permutation.
From Verif Require Import Base ModelScale ProofsScale.
Import ListNotations.
Local Open Scope R_scope.

(** np.sum *)
Definition Rsum (l : list R) : R := fold_right Rplus 0 l.
(** np.mean of a non-empty array (numpy gives nan on an empty one; callers never pass one). *)
Definition mean (l : list R) : R := Rsum l / INR (length l).
(** np.var (ddof = 0). *)
Definition var (l : list R) : R := mean (map (fun x => (x - mean l) ^ 2) l).
(** np.std (ddof = 0). *)
Definition sd (l : list R) : R := sqrt (var l).
(** np.max / np.min / np.ptp of a non-empty array. *)
Definition maxl (l : list R) : R := match l with [] => 0 | x :: r => fold_left Rmax r x end.
Definition minl (l : list R) : R := match l with [] => 0 | x :: r => fold_left Rmin r x end.
Definition ptp (l : list R) : R := maxl l - minl l.
(** Division producing nan/inf on a zero divisor. *)
Definition fdiv (a b : R) : fval := if Reqb b 0 then None else Some (a / b).
(** np.std(ddof=1) of an array that may contain nan; nan for fewer than two values. *)
Definition sd1 (l : list R) : fval :=
  if (length l <? 2)%nat then None
  else Some (sqrt (Rsum (map (fun x => (x - mean l) ^ 2) l) / INR (length l - 1))).

(** ** Sums *)
Lemma Rsum_app : forall l l', Rsum (l ++ l') = Rsum l + Rsum l'.
Proof. induction l; simpl; intros; [lra|]. rewrite IHl. lra. Qed.

Lemma Rsum_map_plus : forall A (f g : A -> R) l,
  Rsum (map (fun x => f x + g x) l) = Rsum (map f l) + Rsum (map g l).
Proof. induction l; simpl; [lra|]. rewrite IHl. lra. Qed.

Lemma Rsum_map_minus : forall A (f g : A -> R) l,
  Rsum (map (fun x => f x - g x) l) = Rsum (map f l) - Rsum (map g l).
Proof. induction l; simpl; [lra|]. rewrite IHl. lra. Qed.

Lemma Rsum_map_scal : forall A (f : A -> R) c l,
  Rsum (map (fun x => c * f x) l) = c * Rsum (map f l).
Proof. induction l; simpl; [lra|]. rewrite IHl. lra. Qed.

Lemma Rsum_scal : forall c l, Rsum (map (fun x => c * x) l) = c * Rsum l.
Proof. induction l; simpl; [lra|]. rewrite IHl. lra. Qed.

Lemma Rsum_const : forall A (c : R) (l : list A), Rsum (map (fun _ => c) l) = INR (length l) * c.
Proof.
  induction l; simpl Rsum; [simpl; lra|]. cbn [length]. rewrite S_INR. simpl map. simpl Rsum.
  rewrite IHl. lra.
Qed.

Lemma Rsum_nonneg : forall l, (forall x, In x l -> 0 <= x) -> 0 <= Rsum l.
Proof.
  induction l; simpl; intros H; [lra|].
  assert (0 <= a) by auto. assert (0 <= Rsum l) by auto. lra.
Qed.

Lemma Rsum_zero_nonneg : forall l, (forall x, In x l -> 0 <= x) -> Rsum l = 0 ->
  forall x, In x l -> x = 0.
Proof.
  induction l; simpl; intros H Hs x Hx; [tauto|].
  assert (0 <= a) by auto. assert (0 <= Rsum l) by (apply Rsum_nonneg; auto).
  destruct Hx as [->|Hx]; [lra|]. apply IHl; auto. lra.
Qed.

Lemma Rsum_le : forall A (f g : A -> R) l, (forall x, In x l -> f x <= g x) ->
  Rsum (map f l) <= Rsum (map g l).
Proof.
  induction l; simpl; intros H; [lra|].
  assert (f a <= g a) by auto. assert (Rsum (map f l) <= Rsum (map g l)) by auto. lra.
Qed.

Lemma Rsum_perm : forall l l', Permutation l l' -> Rsum l = Rsum l'.
Proof. induction 1; simpl; lra. Qed.

Lemma Rsum_ext : forall A (f g : A -> R) l, (forall x, In x l -> f x = g x) ->
  Rsum (map f l) = Rsum (map g l).
Proof. induction l; simpl; intros; auto. rewrite H, IHl; auto. Qed.

Lemma Rsum_abs : forall l, Rabs (Rsum l) <= Rsum (map Rabs l).
Proof.
  induction l; simpl; [rewrite Rabs_R0; lra|].
  eapply Rle_trans; [apply Rabs_triang|]. lra.
Qed.

Lemma INR_length_pos : forall A (l : list A), l <> [] -> 0 < INR (length l).
Proof. destruct l; [congruence|]. intros _. apply lt_0_INR. simpl; lia. Qed.

Lemma Rdiv_nonneg : forall a b, 0 <= a -> 0 < b -> 0 <= a / b.
Proof. intros. apply Rmult_le_pos; auto. left. apply Rinv_0_lt_compat; auto. Qed.

Lemma mean_nonneg : forall l, (forall x, In x l -> 0 <= x) -> 0 <= mean l.
Proof.
  intros l H. unfold mean. destruct l as [|x l]; [simpl; unfold Rdiv; lra|].
  apply Rdiv_nonneg; [apply Rsum_nonneg; auto | apply INR_length_pos; congruence].
Qed.

Lemma mean_zero : forall l, (forall x, In x l -> x = 0) -> mean l = 0.
Proof.
  intros l H. unfold mean.
  assert (E : Rsum l = 0).
  { induction l; simpl; auto. rewrite (H a) by (simpl; auto). rewrite IHl; [lra|].
    intros x Hx. apply H. simpl; auto. }
  rewrite E. unfold Rdiv. lra.
Qed.

Lemma mean_map_scal : forall A (f : A -> R) c l, mean (map (fun x => c * f x) l) = c * mean (map f l).
Proof. intros. unfold mean. rewrite Rsum_map_scal, !map_length. unfold Rdiv. lra. Qed.

Lemma mean_map_affine : forall a b l, l <> [] -> mean (map (fun x => a * x + b) l) = a * mean l + b.
Proof.
  intros a b l H. unfold mean. rewrite map_length, Rsum_map_plus, Rsum_scal, Rsum_const.
  field. apply Rgt_not_eq. apply INR_length_pos; auto.
Qed.

Lemma mean_const : forall A (c : R) (l : list A), l <> [] -> mean (map (fun _ => c) l) = c.
Proof.
  intros A c l H. unfold mean. rewrite Rsum_const, map_length. field.
  apply Rgt_not_eq. apply INR_length_pos; auto.
Qed.

Lemma mean_all : forall l c, l <> [] -> (forall x, In x l -> x = c) -> mean l = c.
Proof.
  intros l c Hn H. rewrite <- (mean_const R c l Hn). f_equal.
  rewrite <- (map_id l) at 1. apply map_ext_in. auto.
Qed.

(** ** Variance *)
Lemma sq_nonneg : forall x, 0 <= x ^ 2.
Proof. intros. replace (x ^ 2) with (x * x) by ring. nra. Qed.

Lemma var_nonneg : forall l, 0 <= var l.
Proof.
  intros. unfold var. apply mean_nonneg. intros x Hx. apply in_map_iff in Hx.
  destruct Hx as (y & <- & _). apply sq_nonneg.
Qed.

Lemma var_affine : forall a b l, l <> [] -> var (map (fun x => a * x + b) l) = a ^ 2 * var l.
Proof.
  intros a b l H. unfold var. rewrite mean_map_affine by auto. rewrite map_map.
  rewrite <- mean_map_scal. f_equal. apply map_ext. intros x. ring.
Qed.

Lemma var_zero_iff : forall l, l <> [] -> (var l = 0 <-> forall x y, In x l -> In y l -> x = y).
Proof.
  intros l Hn. split.
  - intros H. assert (forall x, In x l -> x = mean l).
    { intros x Hx. unfold var, mean at 1 in H. rewrite map_length in H.
      assert (Hs : Rsum (map (fun x => (x - mean l) ^ 2) l) = 0).
      { assert (INR (length l) <> 0) by (apply Rgt_not_eq, INR_length_pos; auto).
        apply Rmult_eq_reg_r with (/ INR (length l)).
        - unfold Rdiv in H. rewrite H. lra.
        - apply Rinv_neq_0_compat; auto. }
      assert (Hz : (x - mean l) ^ 2 = 0).
      { apply (Rsum_zero_nonneg _) with (x := (x - mean l) ^ 2) in Hs; auto.
        - intros z Hz. apply in_map_iff in Hz. destruct Hz as (w & <- & _). apply sq_nonneg.
        - apply in_map_iff. eauto. }
      assert (x - mean l = 0) by (replace ((x - mean l)^2) with ((x - mean l) * (x - mean l)) in Hz by ring; nra).
      lra. }
    intros x y Hx Hy. rewrite (H0 x), (H0 y); auto.
  - intros H. unfold var. apply mean_zero. intros z Hz. apply in_map_iff in Hz.
    destruct Hz as (x & <- & Hx).
    assert (mean l = x) by (apply mean_all; auto).
    rewrite H0. ring.
Qed.

(** ** Peak to peak *)
Lemma fold_Rmax_ge : forall l x, x <= fold_left Rmax l x /\
  forall y, In y l -> y <= fold_left Rmax l x.
Proof.
  induction l; simpl; intros x; [split; [lra|tauto]|].
  destruct (IHl (Rmax x a)) as [H1 H2]. split.
  - eapply Rle_trans; [apply Rmax_l|]. eauto.
  - intros y [->|Hy]; auto. eapply Rle_trans; [apply Rmax_r|]. eauto.
Qed.

Lemma fold_Rmax_in : forall l x, fold_left Rmax l x = x \/ In (fold_left Rmax l x) l.
Proof.
  induction l; simpl; intros x; auto.
  destruct (IHl (Rmax x a)) as [H|H]; auto.
  rewrite H. unfold Rmax. destruct (Rle_dec x a); auto.
Qed.

Lemma fold_Rmin_le : forall l x, fold_left Rmin l x <= x /\
  forall y, In y l -> fold_left Rmin l x <= y.
Proof.
  induction l; simpl; intros x; [split; [lra|tauto]|].
  destruct (IHl (Rmin x a)) as [H1 H2]. split.
  - eapply Rle_trans; [|apply Rmin_l]. eauto.
  - intros y [->|Hy]; auto. eapply Rle_trans; [|apply Rmin_r]. eauto.
Qed.

Lemma fold_Rmin_in : forall l x, fold_left Rmin l x = x \/ In (fold_left Rmin l x) l.
Proof.
  induction l; simpl; intros x; auto.
  destruct (IHl (Rmin x a)) as [H|H]; auto.
  rewrite H. unfold Rmin. destruct (Rle_dec x a); auto.
Qed.

Lemma maxl_spec : forall l, l <> [] -> In (maxl l) l /\ forall y, In y l -> y <= maxl l.
Proof.
  intros [|x l] H; [congruence|]. unfold maxl. split.
  - simpl. destruct (fold_Rmax_in l x) as [->|]; auto.
  - destruct (fold_Rmax_ge l x) as [H1 H2]. intros y [->|Hy]; auto.
Qed.

Lemma minl_spec : forall l, l <> [] -> In (minl l) l /\ forall y, In y l -> minl l <= y.
Proof.
  intros [|x l] H; [congruence|]. unfold minl. split.
  - simpl. destruct (fold_Rmin_in l x) as [->|]; auto.
  - destruct (fold_Rmin_le l x) as [H1 H2]. intros y [->|Hy]; auto.
Qed.

Lemma ptp_zero_iff : forall l, l <> [] -> (ptp l = 0 <-> forall x y, In x l -> In y l -> x = y).
Proof.
  intros l Hn. destruct (maxl_spec l Hn) as [Hmi Hm]. destruct (minl_spec l Hn) as [Hni Hnn].
  unfold ptp. split.
  - intros H x y Hx Hy. pose proof (Hm x Hx). pose proof (Hnn x Hx).
    pose proof (Hm y Hy). pose proof (Hnn y Hy). lra.
  - intros H. rewrite (H (maxl l) (minl l)) by auto. lra.
Qed.

Lemma ptp_var : forall l, l <> [] -> (ptp l = 0 <-> var l = 0).
Proof. intros l H. rewrite ptp_zero_iff, var_zero_iff by auto. tauto. Qed.

Lemma ptp_nonneg : forall l, 0 <= ptp l.
Proof.
  intros [|x l]; [unfold ptp; simpl; lra|].
  destruct (maxl_spec (x :: l)) as [_ Hm]; [congruence|].
  destruct (minl_spec (x :: l)) as [_ Hn]; [congruence|].
  pose proof (Hm x (or_introl eq_refl)). pose proof (Hn x (or_introl eq_refl)).
  unfold ptp. lra.
Qed.

Lemma sd_zero_iff : forall l, l <> [] -> (sd l = 0 <-> forall x y, In x l -> In y l -> x = y).
Proof.
  intros l H. rewrite <- var_zero_iff by auto. unfold sd. split; intros E.
  - apply sqrt_eq_0; auto. apply var_nonneg.
  - rewrite E. apply sqrt_0.
Qed.

Lemma sd_affine : forall a b l, l <> [] -> sd (map (fun x => a * x + b) l) = Rabs a * sd l.
Proof.
  intros. unfold sd. rewrite var_affine by auto.
  rewrite sqrt_mult; [|apply sq_nonneg|apply var_nonneg].
  f_equal. replace (a ^ 2) with (Rsqr a) by (unfold Rsqr; ring). apply sqrt_Rsqr_abs.
Qed.

Lemma sd_nonneg : forall l, 0 <= sd l.
Proof. intros. apply sqrt_pos. Qed.
