(** * Enhanced HDMR: the orthonormal polynomials. *)
From Coq Require Import Reals String List Arith ZArith Bool Lia Lra Psatz Sorted Permutation.
From Verif Require Import Base Arrays ListFacts ModelGroups ModelScale ProofsScale Stats Sums Det ModelFast ModelMorris ModelMorrisAnalyze ModelDgsm ModelPawn
  ProofsHdmr2 ProofsHdmr3 ProofsHdmr4 ModelHdmr ModelEhdmr SpecEhdmr.
Import ListNotations.
Local Open Scope R_scope.

Lemma sum_first : forall n f, sum (S n) f = f 0%nat + sum n (fun k => f (S k)).
Proof. intros. unfold sum. cbn [seq map]. rewrite <- seq_shift, map_map. reflexivity. Qed.

(** ** Polynomials *)

Definition peval (n : nat) (a : nat -> R) (x : R) : R := sum n (fun k => a k * x ^ k).

Lemma peval_shift : forall n a x, peval (S n) a x = a 0%nat + x * peval n (fun k => a (S k)) x.
Proof.
  intros. unfold peval. rewrite sum_first, <- sum_scal. f_equal; [simpl; ring|]. apply sum_ext. intros. simpl. ring.
Qed.

Lemma divide : forall m a r, exists b, b m = a (S m) /\ forall x, peval (S (S m)) a x = (x - r) * peval (S m) b x + peval (S (S m)) a r.
Proof.
  induction m; intros a r.
  - exists (fun _ => a 1%nat). split; auto. intros x. unfold peval, sum. simpl. ring.
  - destruct (IHm (fun k => a (S k)) r) as (b & B1 & B2). exists (fun k => match k with O => peval (S (S m)) (fun k => a (S k)) r | S k => b k end).
    split; auto. intros x. rewrite (peval_shift (S (S m)) a x), (B2 x), (peval_shift (S (S m)) a r).
    rewrite (peval_shift (S m) (fun k => match k with O => peval (S (S m)) (fun k => a (S k)) r | S k => b k end) x).
    change (fun k : nat => b k) with b. ring.
Qed.

Lemma root_count : forall m a l, a m <> 0 -> NoDup l -> (forall x, In x l -> peval (S m) a x = 0) -> (length l <= m)%nat.
Proof.
  induction m; intros a l Ha ND H.
  - destruct l as [|x l]; auto. exfalso. apply Ha. specialize (H x (or_introl eq_refl)). unfold peval, sum in H. simpl in H. lra.
  - destruct l as [|r l]; [simpl; lia|]. inversion ND; subst. destruct (divide m a r) as (b & B1 & B2). simpl. apply le_n_S. apply (IHm b).
    + rewrite B1. auto.
    + auto.
    + intros x Hx. assert (E : peval (S (S m)) a x = 0) by (apply H; right; auto). rewrite B2, (H r (or_introl eq_refl)) in E.
      destruct (Rmult_integral (x - r) (peval (S m) b x)); [lra| |auto]. exfalso. apply H2. replace r with x by lra. auto.
Qed.

Lemma vanishing : forall l m, (length l <= m)%nat -> exists a, a m = 1 /\ (forall k, (m < k)%nat -> a k = 0) /\ forall x, In x l -> peval (S m) a x = 0.
Proof.
  intros l m. revert l. induction m; intros l L.
  - destruct l; [|simpl in L; lia]. exists (fun k => if (k =? 0)%nat then 1 else 0). split; auto. split; [|intros x []].
    intros k Hk. destruct (Nat.eqb_spec k 0); [lia|auto].
  - assert (X : exists r l', (length l' <= m)%nat /\ forall x, In x l -> x = r \/ In x l').
    { destruct l as [|r l]; [exists 0, []; split; [simpl; lia|intros x []]|]. exists r, l. split; [simpl in L; lia|]. intros x [->|H]; auto. }
    destruct X as (r & l' & L' & X). destruct (IHm l' L') as (a & A1 & A2 & A3).
    exists (fun k => match k with O => - r * a 0%nat | S q => a q - r * a (S q) end). split; [|split].
    + rewrite A1, A2 by lia. ring.
    + intros [|k] Hk; [lia|]. rewrite !A2 by lia. ring.
    + intros x Hx. rewrite peval_shift.
      assert (E : - r * a 0%nat + x * peval (S m) (fun k => a k - r * a (S k)) x = (x - r) * peval (S m) a x).
      { assert (E1 : peval (S m) (fun k => a k - r * a (S k)) x = peval (S m) a x - r * peval (S m) (fun k => a (S k)) x).
        { unfold peval. rewrite <- sum_scal, <- sum_minus. apply sum_ext. intros. ring. }
        assert (E2 : peval (S m) a x = a 0%nat + x * peval (S m) (fun k => a (S k)) x).
        { rewrite <- peval_shift. unfold peval. rewrite (sum_S (S m)). rewrite A2 by lia. ring. }
        rewrite E1. transitivity (x * peval (S m) a x - r * (a 0%nat + x * peval (S m) (fun k => a (S k)) x)); [ring|]. rewrite <- E2. ring. }
      rewrite E. destruct (X x Hx) as [->|Hx']; [ring|]. rewrite A3 by auto. ring.
Qed.

(** ** Orthogonality *)

Section Column.
Variable xs : list R.
Hypothesis NE : xs <> [].
Definition avg (f : R -> R) : R := Rsum (map f xs) / INR (length xs).

Lemma avg_ext : forall f g, (forall x, In x xs -> f x = g x) -> avg f = avg g.
Proof. intros f g H. unfold avg. f_equal. apply Rsum_ext. auto. Qed.
Lemma avg_sum : forall n (a : nat -> R) (g : nat -> R -> R), avg (fun x => sum n (fun k => a k * g k x)) = sum n (fun k => a k * avg (g k)).
Proof.
  intros n a g. unfold avg, Rdiv. rewrite Rmult_comm. rewrite <- Rsum_map_scal.
  rewrite (Rsum_ext _ _ (fun x => sum n (fun k => (/ INR (length xs)) * (a k * g k x)))) by (intros; rewrite sum_scal; auto).
  transitivity (sum n (fun k => Rsum (map (fun x => / INR (length xs) * (a k * g k x)) xs))).
  - clear. induction xs as [|x l IH]; [symmetry; apply sum_zero; auto|]. cbn [map]. transitivity (sum n (fun k => / INR (length (x :: l)) * (a k * g k x)) + sum n (fun k => Rsum (map (fun x0 => / INR (length (x :: l)) * (a k * g k x0)) l))).
    + change (Rsum (?u :: ?v)) with (u + Rsum v). f_equal. generalize (/ INR (length (x :: l))). intros q. clear.
      induction l as [|y l IH]; [symmetry; apply sum_zero; auto|]. cbn [map]. change (Rsum (?u :: ?v)) with (u + Rsum v). rewrite IH, <- sum_plus. apply sum_ext. intros. reflexivity.
    + rewrite <- sum_plus. apply sum_ext. intros. reflexivity.
  - apply sum_ext. intros k Hk. rewrite Rsum_map_scal, Rsum_map_scal. ring.
Qed.

Lemma avg_pow : forall q k, avg (fun x => x ^ q * x ^ k) = moments xs q k.
Proof. intros. unfold avg, moments, moment. f_equal. apply Rsum_ext. intros. symmetry. apply pow_add. Qed.

(** The Hankel determinants and the polynomials without their scale. *)
Definition D (m : nat) : R := det m (moments xs).
Definition nc (m k : nat) : R := (-1) ^ (m + k) * det m (fun a b => moments xs a (skip k b)).
Definition Np (m : nat) (x : R) : R := peval (S m) (nc m) x.

Lemma Np_pow : forall m q, avg (fun x => x ^ q * Np m x) = sum (S m) (fun k => (-1) ^ (m + k) * moments xs q k * det m (fun a b => moments xs a (skip k b))).
Proof.
  intros m q. unfold Np, peval. rewrite (avg_ext _ (fun x => sum (S m) (fun k => nc m k * (x ^ q * x ^ k)))).
  - rewrite avg_sum. apply sum_ext. intros k Hk. rewrite avg_pow. unfold nc. ring.
  - intros x _. rewrite <- sum_scal. apply sum_ext. intros. ring.
Qed.
Lemma Np_low : forall m q, (q < m)%nat -> avg (fun x => x ^ q * Np m x) = 0.
Proof. intros m q H. rewrite Np_pow. apply det_last_repeated. auto. Qed.
Lemma Np_top : forall m, avg (fun x => x ^ m * Np m x) = D (S m).
Proof. intros m. rewrite Np_pow. reflexivity. Qed.
Lemma nc_lead : forall m, nc m m = D m.
Proof.
  intros m. unfold nc, D. replace ((-1) ^ (m + m)) with 1; [|replace (m + m)%nat with (2 * m)%nat by lia; rewrite pow_1_even; auto]. rewrite Rmult_1_l.
  apply det_ext. intros i j Hi Hj. unfold skip. destruct (Nat.ltb_spec j m); [auto|lia].
Qed.

(** Against a polynomial of degree at most [m]. *)
Lemma Np_peval : forall m a, avg (fun x => peval (S m) a x * Np m x) = a m * D (S m).
Proof.
  intros m a. rewrite (avg_ext _ (fun x => sum (S m) (fun k => a k * (x ^ k * Np m x)))).
  - rewrite avg_sum, sum_S, Np_top, sum_zero; [ring|]. intros k Hk. rewrite Np_low by auto. ring.
  - intros x _. unfold peval. rewrite (Rmult_comm _ (Np m x)), <- sum_scal. apply sum_ext. intros. ring.
Qed.
Lemma Np_low_peval : forall m n a, (n <= m)%nat -> avg (fun x => peval n a x * Np m x) = 0.
Proof.
  intros m n a H. rewrite (avg_ext _ (fun x => sum n (fun k => a k * (x ^ k * Np m x)))).
  - rewrite avg_sum. apply sum_zero. intros k Hk. rewrite Np_low by lia. ring.
  - intros x _. unfold peval. rewrite (Rmult_comm _ (Np m x)), <- sum_scal. apply sum_ext. intros. ring.
Qed.
Lemma Np_norm : forall m, avg (fun x => Np m x * Np m x) = D m * D (S m).
Proof. intros m. unfold Np at 1. rewrite Np_peval, nc_lead. auto. Qed.
Lemma Np_orth : forall m m', m <> m' -> avg (fun x => Np m x * Np m' x) = 0.
Proof.
  intros m m' H. destruct (Nat.lt_ge_cases m m').
  - apply Np_low_peval. lia.
  - rewrite (avg_ext _ (fun x => Np m' x * Np m x)) by (intros; ring). apply Np_low_peval. lia.
Qed.

(** ** When the determinants are positive *)

Lemma length_pos : 0 < INR (length xs).
Proof. apply lt_0_INR. destruct xs; [congruence|simpl; lia]. Qed.

Lemma avg_square_zero : forall f, avg (fun x => f x * f x) = 0 -> forall x, In x xs -> f x = 0.
Proof.
  intros f H x Hx. unfold avg in H. pose proof length_pos as L.
  assert (Z : Rsum (map (fun x => f x * f x) xs) = 0).
  { apply (Rmult_eq_reg_r (/ INR (length xs))); [|apply Rinv_neq_0_compat; lra]. rewrite Rmult_0_l. exact H. }
  clear - Z Hx. induction xs as [|y l IH]; [destruct Hx|]. cbn [map] in Z. change (Rsum (?u :: ?v)) with (u + Rsum v) in Z.
  assert (P : 0 <= Rsum (map (fun x => f x * f x) l)).
  { apply Rsum_nonneg. intros v Hv. apply in_map_iff in Hv. destruct Hv as (z & <- & _). nra. }
  destruct Hx as [->|Hx]; [nra|]. apply IH; auto. nra.
Qed.
Lemma avg_square_nonneg : forall f, 0 <= avg (fun x => f x * f x).
Proof.
  intros f. unfold avg. pose proof length_pos. apply Rmult_le_pos; [|left; apply Rinv_0_lt_compat; auto].
  apply Rsum_nonneg. intros v Hv. apply in_map_iff in Hv. destruct Hv as (z & <- & _). nra.
Qed.

(** At least [m] different values. *)
Definition values (m : nat) : Prop := exists l, NoDup l /\ incl l xs /\ length l = m.
Lemma values_le : forall m m', (m <= m')%nat -> values m' -> values m.
Proof.
  intros m m' H (l & H1 & H2 & H3). exists (firstn m l). split; [|split].
  - rewrite <- (firstn_skipn m l) in H1. clear - H1. induction (firstn m l); [constructor|]. inversion H1; subst. constructor; auto.
    intros Q. apply H2. apply in_app_iff; auto.
  - intros x Hx. apply H2. rewrite <- (firstn_skipn m l). apply in_app_iff; auto.
  - rewrite firstn_length. lia.
Qed.
Lemma D_one : D 1 = 1.
Proof.
  unfold D. cbn [det]. unfold sum. cbn. unfold moments, moment. cbn [Nat.add].
  assert (E : Rsum (map (fun x => x ^ 0) xs) = INR (length xs)).
  { rewrite (Rsum_ext _ _ (fun _ => 1)) by auto. rewrite Rsum_const. ring. }
  rewrite E. pose proof length_pos. field. lra.
Qed.
Lemma D_pos : forall m, values (S m) -> 0 < D (S m).
Proof.
  induction m; intros V; [rewrite D_one; lra|].
  assert (P : 0 < D (S m)) by (apply IHm; eapply values_le; [|eauto]; lia).
  assert (Q : 0 <= D (S m) * D (S (S m))) by (rewrite <- Np_norm; apply avg_square_nonneg).
  destruct (Req_dec (D (S (S m))) 0) as [Z|Z]; [|nra]. exfalso.
  assert (E : avg (fun x => Np (S m) x * Np (S m) x) = 0) by (rewrite Np_norm, Z; ring).
  destruct V as (l & V1 & V2 & V3). pose proof (root_count (S m) (nc (S m)) l) as RC. rewrite nc_lead in RC.
  specialize (RC ltac:(lra) V1). assert (length l <= S m)%nat; [|lia]. apply RC. intros x Hx. apply (avg_square_zero _ E). auto.
Qed.
Lemma D_zero : forall m, ~ values (S m) -> D (S m) = 0.
Proof.
  intros m V. set (l := nodup Req_EM_T xs).
  assert (L : (length l <= m)%nat).
  { destruct (Nat.le_gt_cases (length l) m) as [|G]; auto. exfalso. apply V. eapply values_le with (m' := length l); [lia|]. exists l.
    split; [apply NoDup_nodup|]. split; auto. intros x Hx. apply nodup_In in Hx. auto. }
  destruct (vanishing l m L) as (a & A1 & A2 & A3).
  pose proof (Np_peval m a) as E. rewrite A1, Rmult_1_l in E. rewrite <- E. unfold avg.
  rewrite (Rsum_ext _ _ (fun _ => 0)); [rewrite Rsum_const; unfold Rdiv; ring|].
  intros x Hx. rewrite A3; [ring|]. apply nodup_In. auto.
Qed.
Lemma values_dec : forall m, values m \/ ~ values m.
Proof.
  intros m. destruct (Nat.le_gt_cases m (length (nodup Req_EM_T xs))) as [G|G].
  - left. eapply values_le; [exact G|]. exists (nodup Req_EM_T xs). split; [apply NoDup_nodup|]. split; auto. intros x Hx. apply nodup_In in Hx. auto.
  - right. intros (l & H1 & H2 & H3). assert (length l <= length (nodup Req_EM_T xs))%nat; [|lia]. apply NoDup_incl_length; auto.
    intros x Hx. apply nodup_In. auto.
Qed.

Lemma det_ij_D : forall j, det_ij xs j = D (S j) * D (S (S j)).
Proof. reflexivity. Qed.

Lemma poly_columns_iff : forall p, (1 <= p)%nat -> (poly_columns p xs <> None <-> values (S p)).
Proof.
  intros p Hp. unfold poly_columns. split.
  - intros H. destruct (forallb (fun j => Rltb 0 (det_ij xs j)) (seq 0 p)) eqn:F; [|congruence]. rewrite forallb_forall in F.
    specialize (F (p - 1)%nat ltac:(apply in_seq; lia)). apply Rltb_true in F. rewrite det_ij_D in F.
    replace (S (S (p - 1))) with (S p) in F by lia. destruct (values_dec (S p)) as [|V]; auto. apply D_zero in V. rewrite V in F. lra.
  - intros V. replace (forallb (fun j => Rltb 0 (det_ij xs j)) (seq 0 p)) with true; [discriminate|]. symmetry. apply forallb_forall.
    intros j Hj. apply in_seq in Hj. apply Rltb_true. rewrite det_ij_D. apply Rmult_lt_0_compat; apply D_pos; refine (values_le _ (S p) _ V); lia.
Qed.

(** ** The columns *)

Lemma poly_Np : forall j x, poly xs j x = Np (S j) x / sqrt (det_ij xs j).
Proof.
  intros j x. unfold poly, Np, peval. replace (j + 2)%nat with (S (S j)) by lia. unfold Rdiv. rewrite Rmult_comm, <- sum_scal. apply sum_ext.
  intros k Hk. unfold poly_coeff, nc. replace (j + k + 1)%nat with (S j + k)%nat by lia. unfold Rdiv. ring.
Qed.

Lemma poly_columns_orthonormal : forall p cs, poly_columns p xs = Some cs -> length cs = p /\ orthonormal cs.
Proof.
  intros p cs E. unfold poly_columns in E. destruct (forallb _ _) eqn:F in E; [|discriminate]. injection E as <-. rewrite forallb_forall in F.
  split; [rewrite map_length, seq_length; auto|]. intros j k a b Ha Hb. rewrite nth_error_map', nth_error_seq in Ha, Hb.
  destruct (Nat.ltb_spec j p); [|discriminate]. destruct (Nat.ltb_spec k p); [|discriminate]. cbn [option_map] in *. injection Ha as <-. injection Hb as <-.
  cbn [Nat.add]. pose proof length_pos as LP.
  assert (Q : forall i, (i < p)%nat -> 0 < det_ij xs i) by (intros i Hi; apply Rltb_true, F, in_seq; lia).
  assert (AV : forall f, mean (map f xs) = avg f) by (intros f; unfold mean, avg; rewrite map_length; auto).
  split.
  - rewrite AV. rewrite (avg_ext _ (fun x => sum 1 (fun _ => / sqrt (det_ij xs j) * (x ^ 0 * Np (S j) x)))).
    + rewrite (avg_sum 1 (fun _ => / sqrt (det_ij xs j)) (fun _ x => x ^ 0 * Np (S j) x)). apply sum_zero. intros i _. rewrite Np_low by lia. ring.
    + intros x _. rewrite poly_Np. unfold sum. simpl. unfold Rdiv. ring.
  - unfold inner. rewrite map_length.
    assert (M2 : forall f g : R -> R, map2 Rmult (map f xs) (map g xs) = map (fun x => f x * g x) xs).
    { intros f g. clear. induction xs; cbn; auto. f_equal. auto. }
    rewrite M2. fold (avg (fun x => poly xs j x * poly xs k x)).
    assert (SJ : sqrt (det_ij xs j) <> 0) by (apply Rgt_not_eq, sqrt_lt_R0; auto).
    assert (SK : sqrt (det_ij xs k) <> 0) by (apply Rgt_not_eq, sqrt_lt_R0; auto).
    rewrite (avg_ext _ (fun x => sum 1 (fun _ => / (sqrt (det_ij xs j) * sqrt (det_ij xs k)) * (Np (S j) x * Np (S k) x)))).
    2:{ intros x _. rewrite !poly_Np. unfold sum. simpl. field. auto. }
    rewrite (avg_sum 1 (fun _ => / (sqrt (det_ij xs j) * sqrt (det_ij xs k))) (fun _ x => Np (S j) x * Np (S k) x)). unfold sum. simpl. rewrite Rplus_0_r.
    destruct (Nat.eqb_spec j k) as [->|N].
    + rewrite Np_norm, <- det_ij_D, sqrt_sqrt by (left; auto). field. apply Rgt_not_eq. apply Q. auto.
    + rewrite Np_orth by congruence. ring.
Qed.
End Column.
