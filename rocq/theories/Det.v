(** * Determinants of real matrices (given as functions) by expansion along the last row. *)
From Coq Require Import Reals List Arith Bool Lia Lra.
From Verif Require Import Sums.
Local Open Scope R_scope.

(** The [j]-th column that is left when column [k] is removed. *)
Definition skip (k j : nat) : nat := if (j <? k)%nat then j else S j.

Fixpoint det (n : nat) (A : nat -> nat -> R) : R :=
  match n with
  | O => 1
  | S m => sum (S m) (fun k => (-1) ^ (m + k) * A m k * det m (fun i j => A i (skip k j)))
  end.

Ltac ltb_cases := repeat match goal with |- context [(?a <? ?b)%nat] => destruct (Nat.ltb_spec a b) | H : context [(?a <? ?b)%nat] |- _ => destruct (Nat.ltb_spec a b) end.

Lemma skip_lt : forall k j n, (j < n)%nat -> (skip k j < S n)%nat.
Proof. intros. unfold skip. ltb_cases; lia. Qed.

Lemma det_ext : forall n A B, (forall i j, (i < n)%nat -> (j < n)%nat -> A i j = B i j) -> det n A = det n B.
Proof.
  induction n; intros A B H; [reflexivity|]. cbn [det]. apply sum_ext. intros k Hk. rewrite (H n k) by lia. f_equal.
  apply IHn. intros i j Hi Hj. apply H; [lia|apply skip_lt; auto].
Qed.

Definition unskip (k c : nat) : nat := if (c <? k)%nat then c else (c - 1)%nat.
Lemma unskip_skip : forall k l, unskip k (skip k l) = l.
Proof. intros. unfold unskip, skip. ltb_cases; lia. Qed.

Lemma sum_skip : forall n k f, (k <= n)%nat -> sum n (fun l => f (skip k l)) = sum (S n) (fun c => if (c =? k)%nat then 0 else f c).
Proof.
  induction n; intros k f Hk.
  - replace k with O by lia. unfold sum, Stats.Rsum. simpl. lra.
  - rewrite sum_S. rewrite (sum_S (S n)). destruct (Nat.eq_dec k (S n)) as [->|N].
    + rewrite Nat.eqb_refl, Rplus_0_r. rewrite <- (sum_S n (fun l => f (skip (S n) l))). apply sum_ext. intros i Hi.
      destruct (Nat.eqb_spec i (S n)); [lia|]. unfold skip. ltb_cases; [auto|lia].
    + rewrite IHn by lia. f_equal. destruct (Nat.eqb_spec (S n) k); [lia|]. unfold skip. ltb_cases; [lia|auto].
Qed.

Lemma antisymmetric_sum : forall n G, (forall a b, (a < n)%nat -> (b < n)%nat -> G a b = - G b a) -> sum n (fun a => sum n (fun b => G a b)) = 0.
Proof.
  intros n G H. assert (E : sum n (fun a => sum n (fun b => G a b)) = - sum n (fun a => sum n (fun b => G a b))).
  { rewrite sum_swap at 1. replace (- sum n (fun a => sum n (fun b => G a b))) with (-1 * sum n (fun a => sum n (fun b => G a b))) by ring.
    rewrite <- sum_scal. apply sum_ext. intros a Ha. rewrite <- sum_scal. apply sum_ext. intros b Hb. rewrite H by auto. ring. }
  lra.
Qed.

(** Equal last rows. *)
Lemma det_last_two : forall m A, (forall k, (k < S (S m))%nat -> A m k = A (S m) k) -> det (S (S m)) A = 0.
Proof.
  intros m A H.
  set (G := fun k c => if (c =? k)%nat then 0 else
    (-1) ^ (S m + k) * (-1) ^ (m + unskip k c) * A (S m) k * A (S m) c * det m (fun i j => A i (skip k (skip (unskip k c) j)))).
  transitivity (sum (S (S m)) (fun k => sum (S (S m)) (fun c => G k c))).
  - cbn [det]. apply sum_ext. intros k Hk. rewrite <- sum_scal.
    set (f := fun c => (-1) ^ (S m + k) * (-1) ^ (m + unskip k c) * A (S m) k * A (S m) c * det m (fun i j => A i (skip k (skip (unskip k c) j)))).
    transitivity (sum (S m) (fun l => f (skip k l))).
    + apply sum_ext. intros l Hl. unfold f. rewrite unskip_skip. rewrite H by (apply skip_lt; auto). ring.
    + rewrite sum_skip by lia. apply sum_ext. intros c Hc. unfold G. auto.
  - apply antisymmetric_sum. intros a b Ha Hb.
    assert (W : forall a b, (a < b)%nat -> G a b = - G b a).
    { clear. intros a b L. unfold G. destruct (Nat.eqb_spec b a); [lia|]. destruct (Nat.eqb_spec a b); [lia|].
      assert (Ua : unskip a b = (b - 1)%nat) by (unfold unskip; ltb_cases; lia). assert (Ub : unskip b a = a) by (unfold unskip; ltb_cases; lia).
      rewrite Ua, Ub.
      rewrite (det_ext m (fun i j => A i (skip a (skip (b - 1) j))) (fun i j => A i (skip b (skip a j)))).
      - destruct b as [|q]; [lia|]. replace (S q - 1)%nat with q by lia. rewrite !pow_add. simpl pow. ring.
      - intros i j _ _. f_equal. unfold skip. ltb_cases; lia. }
    destruct (Nat.lt_trichotomy a b) as [L|[->|L]]; [auto| |rewrite (W b a) by auto; ring].
    unfold G. rewrite Nat.eqb_refl. ring.
Qed.

Definition setrow (A : nat -> nat -> R) (r : nat) (v : nat -> R) : nat -> nat -> R := fun i j => if (i =? r)%nat then v j else A i j.

Lemma det_linear : forall n A r a b u v, (r < n)%nat ->
  det n (setrow A r (fun j => a * u j + b * v j)) = a * det n (setrow A r u) + b * det n (setrow A r v).
Proof.
  induction n; intros A r a b u v Hr; [lia|]. cbn [det]. rewrite <- !sum_scal, <- sum_plus. apply sum_ext. intros k Hk.
  destruct (Nat.eq_dec r n) as [->|N].
  - assert (E : forall w, det n (fun i j => setrow A n w i (skip k j)) = det n (fun i j => A i (skip k j))).
    { intros w. apply det_ext. intros i j Hi Hj. unfold setrow. destruct (Nat.eqb_spec i n); [lia|auto]. }
    rewrite !E. unfold setrow. rewrite Nat.eqb_refl. ring.
  - assert (E : forall w, setrow A r w n k = A n k) by (intros; unfold setrow; destruct (Nat.eqb_spec n r); [lia|auto]).
    rewrite !E. change (fun i j => setrow A r (fun j0 => a * u j0 + b * v j0) i (skip k j)) with
      (setrow (fun i j => A i (skip k j)) r (fun j => a * (fun j => u (skip k j)) j + b * (fun j => v (skip k j)) j)).
    rewrite IHn by lia. unfold setrow. ring.
Qed.

Definition swaprows (A : nat -> nat -> R) (q : nat) : nat -> nat -> R :=
  fun i j => if (i =? q)%nat then A (S q) j else if (i =? S q)%nat then A q j else A i j.

Lemma det_swap : forall n A q, (S q < n)%nat -> det n (swaprows A q) = - det n A.
Proof.
  induction n; intros A q Hq; [lia|]. destruct (Nat.eq_dec (S q) n) as [E|N].
  - subst n.
    set (B := fun u v => det (S (S q)) (setrow (setrow A q u) (S q) v)).
    assert (L1 : forall a b u u' v, B (fun j => a * u j + b * u' j) v = a * B u v + b * B u' v).
    { intros. unfold B. rewrite (det_ext _ _ (setrow (setrow A (S q) v) q (fun j => a * u j + b * u' j))).
      - rewrite det_linear by lia. f_equal; f_equal; apply det_ext; intros i j _ _; unfold setrow; destruct (Nat.eqb_spec i q), (Nat.eqb_spec i (S q)); auto; lia.
      - intros i j _ _. unfold setrow. destruct (Nat.eqb_spec i q), (Nat.eqb_spec i (S q)); auto; lia. }
    assert (L2 : forall a b u v v', B u (fun j => a * v j + b * v' j) = a * B u v + b * B u v') by (intros; unfold B; apply det_linear; lia).
    assert (Z : forall u, B u u = 0).
    { intros. unfold B. apply det_last_two. intros k _. unfold setrow. rewrite !Nat.eqb_refl. destruct (Nat.eqb_spec q (S q)); auto. }
    assert (A1 : det (S (S q)) A = B (A q) (A (S q))).
    { unfold B. apply det_ext. intros i j _ _. unfold setrow. destruct (Nat.eqb_spec i (S q)); [subst; auto|]. destruct (Nat.eqb_spec i q); [subst; auto|auto]. }
    assert (A2 : det (S (S q)) (swaprows A q) = B (A (S q)) (A q)).
    { unfold B. apply det_ext. intros i j _ _. unfold setrow, swaprows. destruct (Nat.eqb_spec i q), (Nat.eqb_spec i (S q)); subst; auto; lia. }
    rewrite A1, A2. set (u := A q). set (v := A (S q)).
    pose proof (Z (fun j => 1 * u j + 1 * v j)) as S0. rewrite L1, !L2, !Z in S0. lra.
  - cbn [det]. replace (- sum (S n) (fun k => (-1) ^ (n + k) * A n k * det n (fun i j => A i (skip k j)))) with
      (-1 * sum (S n) (fun k => (-1) ^ (n + k) * A n k * det n (fun i j => A i (skip k j)))) by ring.
    rewrite <- sum_scal. apply sum_ext. intros k Hk.
    assert (E : swaprows A q n k = A n k) by (unfold swaprows; destruct (Nat.eqb_spec n q), (Nat.eqb_spec n (S q)); auto; lia).
    rewrite E. change (fun i j => swaprows A q i (skip k j)) with (swaprows (fun i j => A i (skip k j)) q). rewrite IHn by lia. ring.
Qed.

Lemma det_equal_rows : forall t n A q, (q + S t < n)%nat -> (forall k, (k < n)%nat -> A q k = A (q + S t)%nat k) -> det n A = 0.
Proof.
  induction t; intros n A q Hn H.
  - pose proof (det_swap n A q ltac:(lia)) as W. rewrite (det_ext n _ A) in W; [lra|]. intros i j Hi Hj. unfold swaprows.
    replace (q + 1)%nat with (S q) in H by lia.
    destruct (Nat.eqb_spec i q); [subst; symmetry; apply H; auto|]. destruct (Nat.eqb_spec i (S q)); [subst; apply H; auto|auto].
  - pose proof (det_swap n A (q + S t) ltac:(lia)) as W. rewrite (IHt n (swaprows A (q + S t)) q) in W; [lra|lia|].
    intros k Hk. unfold swaprows. rewrite Nat.eqb_refl. destruct (Nat.eqb_spec q (q + S t)); [lia|]. destruct (Nat.eqb_spec q (S (q + S t))); [lia|].
    rewrite H by auto. f_equal. lia.
Qed.

(** Replacing the last row by an earlier one. *)
Lemma det_last_repeated : forall n A q, (q < n)%nat -> sum (S n) (fun k => (-1) ^ (n + k) * A q k * det n (fun i j => A i (skip k j))) = 0.
Proof.
  intros n A q Hq. rewrite <- (det_equal_rows (n - q - 1) (S n) (setrow A n (A q)) q).
  - cbn [det]. apply sum_ext. intros k Hk. unfold setrow at 1. rewrite Nat.eqb_refl. f_equal. apply det_ext. intros i j Hi Hj. unfold setrow.
    destruct (Nat.eqb_spec i n); [lia|auto].
  - lia.
  - intros k Hk. replace (q + S (n - q - 1))%nat with n by lia. unfold setrow. rewrite Nat.eqb_refl. destruct (Nat.eqb_spec q n); [lia|auto].
Qed.
