(** * Penalised least squares over an arbitrary index set. *)
From Coq Require Import Reals List Arith Lia Lra Psatz.
From Verif Require Import Base Stats Sums.
Import ListNotations.
Local Open Scope R_scope.

Notation "'SUM' x 'IN' l ',' e" := (Rsum (map (fun x => e) l)) (at level 60, x name, l at level 50, e at level 60).

Lemma Rsum_exchange : forall A B (f : A -> B -> R) l m, (SUM a IN l, (SUM b IN m, f a b)) = SUM b IN m, (SUM a IN l, f a b).
Proof.
  intros A B f. induction l as [|a l IH]; intros m; simpl.
  - induction m; simpl in *; lra.
  - rewrite IH. rewrite <- (Rsum_map_plus _ (f a) (fun b => SUM a IN l, f a b)). apply Rsum_ext. intros; reflexivity.
Qed.

Lemma cauchy_schwarz : forall A (f g : A -> R) l, (SUM x IN l, (f x * g x)) ^ 2 <= (SUM x IN l, (f x ^ 2)) * (SUM x IN l, (g x ^ 2)).
Proof.
  intros A f g l. set (F := SUM x IN l, f x ^ 2). set (G := SUM x IN l, g x ^ 2). set (H := SUM x IN l, f x * g x).
  assert (P : forall t, 0 <= F + 2 * t * H + t ^ 2 * G).
  { intros t. replace (F + 2 * t * H + t ^ 2 * G) with (SUM x IN l, (f x + t * g x) ^ 2).
    - apply Rsum_nonneg. intros x Hx. apply in_map_iff in Hx as (a & <- & _). apply pow2_ge_0.
    - rewrite (Rsum_ext _ _ (fun x => (f x ^ 2 + (2 * t) * (f x * g x)) + (t ^ 2) * (g x ^ 2))) by (intros; ring).
      rewrite (Rsum_map_plus _ (fun x => f x ^ 2 + (2 * t) * (f x * g x)) (fun x => t ^ 2 * (g x ^ 2))), (Rsum_map_plus _ (fun x => f x ^ 2) (fun x => (2 * t) * (f x * g x))).
      rewrite !Rsum_map_scal. reflexivity. }
  assert (G0 : 0 <= G) by (apply Rsum_nonneg; intros x Hx; apply in_map_iff in Hx as (a & <- & _); apply pow2_ge_0).
  destruct (Req_dec G 0) as [Z|Z].
  - assert (H = 0).
    { pose proof (P (- (F + 1) / (2 * H))) as Q. rewrite Z in Q. destruct (Req_dec H 0) as [|NH]; auto.
      replace (F + 2 * (- (F + 1) / (2 * H)) * H + (- (F + 1) / (2 * H)) ^ 2 * 0) with (-1) in Q by (field; auto). lra. }
    rewrite H0, Z. lra.
  - pose proof (P (- H / G)) as Q. replace (F + 2 * (- H / G) * H + (- H / G) ^ 2 * G) with (F - H ^ 2 / G) in Q by (field; auto).
    assert (GP : 0 < G) by lra. apply (Rmult_le_compat_r G) in Q; [|lra]. replace ((F - H ^ 2 / G) * G) with (F * G - H ^ 2) in Q by (field; auto). lra.
Qed.

Section Core.
Variables (P K : Type) (rs : list P) (ks : list K) (b : P -> K -> R) (y : P -> R) (lam : R).

Definition fitK (c : K -> R) (r : P) : R := SUM k IN ks, (b r k * c k).
Definition objK (c : K -> R) : R := (SUM r IN rs, ((y r - fitK c r) ^ 2)) + lam * (SUM k IN ks, (c k ^ 2)).
(** Half of the derivative. *)
Definition half (c : K -> R) (k : K) : R := lam * c k - (SUM r IN rs, (b r k * (y r - fitK c r))).
Definition normK (c : K -> R) : R := SUM k IN ks, (c k ^ 2).

Lemma normK_nonneg : forall c, 0 <= normK c.
Proof. intros. apply Rsum_nonneg. intros x Hx. apply in_map_iff in Hx as (a & <- & _). apply pow2_ge_0. Qed.
Lemma sq_nonneg : forall A (f : A -> R) l, 0 <= SUM k IN l, (f k ^ 2).
Proof. intros. apply Rsum_nonneg. intros x Hx. apply in_map_iff in Hx as (a & <- & _). apply pow2_ge_0. Qed.

Lemma fitK_plus : forall c e r, fitK (fun k => c k + e k) r = fitK c r + fitK e r.
Proof.
  intros. unfold fitK. rewrite <- (Rsum_map_plus _ (fun k => b r k * c k) (fun k => b r k * e k)). apply Rsum_ext. intros; ring.
Qed.
Lemma fitK_ext : forall c e r, (forall k, In k ks -> c k = e k) -> fitK c r = fitK e r.
Proof. intros. apply Rsum_ext. intros. rewrite H; auto. Qed.
Lemma objK_ext : forall c e, (forall k, In k ks -> c k = e k) -> objK c = objK e.
Proof.
  intros. unfold objK. f_equal.
  - apply Rsum_ext. intros. rewrite (fitK_ext c e); auto.
  - f_equal. apply Rsum_ext. intros. rewrite H; auto.
Qed.
Lemma half_ext : forall c e k, In k ks -> (forall k, In k ks -> c k = e k) -> half c k = half e k.
Proof.
  intros. unfold half. rewrite (H0 k) by auto. f_equal. apply Rsum_ext. intros. rewrite (fitK_ext c e); auto.
Qed.

Lemma expand : forall c e, objK (fun k => c k + e k) = objK c + 2 * (SUM k IN ks, (e k * half c k)) + (SUM r IN rs, (fitK e r ^ 2)) + lam * normK e.
Proof.
  intros c e. unfold objK, normK.
  rewrite (Rsum_ext _ (fun r => (y r - fitK (fun k => c k + e k) r) ^ 2) (fun r => ((y r - fitK c r) ^ 2 + (-2) * ((y r - fitK c r) * fitK e r)) + fitK e r ^ 2))
    by (intros; rewrite fitK_plus; ring).
  rewrite (Rsum_map_plus _ (fun r => (y r - fitK c r) ^ 2 + (-2) * ((y r - fitK c r) * fitK e r)) (fun r => fitK e r ^ 2)).
  rewrite (Rsum_map_plus _ (fun r => (y r - fitK c r) ^ 2) (fun r => (-2) * ((y r - fitK c r) * fitK e r))), Rsum_map_scal.
  rewrite (Rsum_ext _ (fun k => (c k + e k) ^ 2) (fun k => (c k ^ 2 + 2 * (c k * e k)) + e k ^ 2)) by (intros; ring).
  rewrite (Rsum_map_plus _ (fun k => c k ^ 2 + 2 * (c k * e k)) (fun k => e k ^ 2)), (Rsum_map_plus _ (fun k => c k ^ 2) (fun k => 2 * (c k * e k))), Rsum_map_scal.
  assert (X : (SUM k IN ks, (e k * half c k)) = lam * (SUM k IN ks, (c k * e k)) - (SUM r IN rs, ((y r - fitK c r) * fitK e r))).
  { unfold half. rewrite (Rsum_ext _ _ (fun k => lam * (c k * e k) - SUM r IN rs, (e k * (b r k * (y r - fitK c r)))))
      by (intros k _; rewrite (Rsum_map_scal _ (fun r => b r k * (y r - fitK c r))); ring).
    rewrite (Rsum_map_minus _ (fun k => lam * (c k * e k))), Rsum_map_scal. f_equal. rewrite Rsum_exchange. apply Rsum_ext. intros r _.
    change (fitK e r) with (SUM k IN ks, b r k * e k). rewrite <- Rsum_map_scal. apply Rsum_ext. intros; ring. }
  rewrite X. ring.
Qed.

Lemma expand_diff : forall c c', objK c = objK c' + 2 * (SUM k IN ks, ((c k - c' k) * half c' k)) + (SUM r IN rs, (fitK (fun k => c k - c' k) r ^ 2)) + lam * normK (fun k => c k - c' k).
Proof. intros. rewrite <- expand. apply objK_ext. intros; ring. Qed.

(** A step to where the derivative vanishes in the changed directions. *)
Lemma step_gain : forall c c', (forall k, In k ks -> c k = c' k \/ half c' k = 0) ->
  objK c = objK c' + (SUM r IN rs, (fitK (fun k => c k - c' k) r ^ 2)) + lam * normK (fun k => c k - c' k).
Proof.
  intros c c' H. rewrite (expand_diff c c'). rewrite (Rsum_ext _ (fun k => (c k - c' k) * half c' k) (fun k => 0 * 0)).
  - rewrite Rsum_map_scal. ring.
  - intros k Hk. destruct (H k Hk) as [-> | ->]; ring.
Qed.

Lemma stationary_minimal : forall c, 0 <= lam -> (forall k, In k ks -> half c k = 0) -> forall d, objK c <= objK d.
Proof.
  intros c L H d. rewrite (step_gain d c) by (intros; right; auto). pose proof (sq_nonneg P (fitK (fun k => d k - c k)) rs).
  pose proof (normK_nonneg (fun k => d k - c k)). nra.
Qed.

Lemma gap_bound : forall c d, 0 < lam -> objK c - objK d <= (SUM k IN ks, (half c k ^ 2)) / lam.
Proof.
  intros c d L. rewrite (expand_diff d c). pose proof (sq_nonneg P (fitK (fun k => d k - c k)) rs).
  assert (Q : 0 <= SUM k IN ks, ((half c k / lam + (d k - c k)) ^ 2)) by apply sq_nonneg.
  rewrite (Rsum_ext _ _ (fun k => (/ lam * / lam) * (half c k ^ 2) + (2 * / lam) * ((d k - c k) * half c k) + (d k - c k) ^ 2)) in Q by (intros; field; lra).
  rewrite (Rsum_map_plus _ (fun k => / lam * / lam * half c k ^ 2 + 2 * / lam * ((d k - c k) * half c k)) (fun k => (d k - c k) ^ 2)) in Q.
  rewrite (Rsum_map_plus _ (fun k => / lam * / lam * half c k ^ 2)), !Rsum_map_scal in Q. fold (normK (fun k => d k - c k)) in Q.
  set (A := SUM k IN ks, half c k ^ 2) in *. set (X := SUM k IN ks, (d k - c k) * half c k) in *. set (N := normK (fun k => d k - c k)) in *.
  apply (Rmult_le_compat_l lam) in Q; [|lra].
  replace (lam * (/ lam * / lam * A + 2 * / lam * X + N)) with (A / lam + 2 * X + lam * N) in Q by (field; lra). lra.
Qed.

Definition gramK : R := SUM k IN ks, (SUM l IN ks, ((SUM r IN rs, (b r k * b r l)) ^ 2)).

Lemma half_diff : forall c s k, c k = s k -> half c k = half s k + SUM l IN ks, ((SUM r IN rs, (b r k * b r l)) * (c l - s l)).
Proof.
  intros c s k E. unfold half. rewrite E.
  assert (X : (SUM l IN ks, ((SUM r IN rs, (b r k * b r l)) * (c l - s l))) = (SUM r IN rs, (b r k * (fitK c r - fitK s r)))).
  { rewrite (Rsum_ext _ _ (fun l => SUM r IN rs, (b r k * b r l * (c l - s l)))).
    - rewrite Rsum_exchange. apply Rsum_ext. intros r _. unfold fitK. rewrite <- Rsum_map_minus, <- Rsum_map_scal. apply Rsum_ext. intros; ring.
    - intros l _. rewrite Rmult_comm, <- Rsum_map_scal. apply Rsum_ext. intros; ring. }
  rewrite X. rewrite (Rsum_ext _ (fun r => b r k * (fitK c r - fitK s r)) (fun r => b r k * (y r - fitK s r) - b r k * (y r - fitK c r))) by (intros; ring).
  rewrite Rsum_map_minus. ring.
Qed.

(** After a sweep from [c] to [c'] where, for each coefficient, the derivative vanished in a state whose coefficients are old or new ones. *)
Lemma sweep_half : forall c c', (forall k, In k ks -> exists s, s k = c' k /\ half s k = 0 /\ forall l, In l ks -> s l = c' l \/ s l = c l) ->
  (SUM k IN ks, (half c' k ^ 2)) <= gramK * normK (fun k => c k - c' k).
Proof.
  intros c c' H. unfold gramK. rewrite Rmult_comm, <- Rsum_map_scal. apply Rsum_le. intros k Hk.
  destruct (H k Hk) as (s & E & Z & O). rewrite (half_diff c' s k) by auto. rewrite Z, Rplus_0_l.
  eapply Rle_trans; [apply cauchy_schwarz|]. rewrite Rmult_comm. apply Rmult_le_compat_r; [apply sq_nonneg|].
  apply Rsum_le. intros l Hl. destruct (O l Hl) as [-> | ->].
  - replace (c' l - c' l) with 0 by ring. rewrite pow_i by lia. apply pow2_ge_0.
  - right; ring.
Qed.

Lemma sweep_gap : forall c c' d, 0 < lam -> (forall k, In k ks -> exists s, s k = c' k /\ half s k = 0 /\ forall l, In l ks -> s l = c' l \/ s l = c l) ->
  lam * normK (fun k => c k - c' k) <= objK c - objK c' ->
  (objK c' - objK d) <= (gramK / (gramK + lam ^ 2)) * (objK c - objK d).
Proof.
  intros c c' d L H G. pose proof (sweep_half c c' H) as Q. pose proof (gap_bound c' d L) as B.
  assert (G0 : 0 <= gramK). { apply Rsum_nonneg. intros x Hx. apply in_map_iff in Hx as (a & <- & _). apply sq_nonneg. }
  set (N := normK _) in *. set (g := gramK) in *. set (A := SUM k IN ks, half c' k ^ 2) in *. set (u := objK c' - objK d) in *.
  assert (M : u * lam ^ 2 <= g * (objK c - objK c')).
  { apply (Rmult_le_compat_r (lam ^ 2)) in B; [|nra]. replace (A / lam * lam ^ 2) with (A * lam) in B by (field; lra).
    eapply Rle_trans; [exact B|]. eapply Rle_trans; [apply Rmult_le_compat_r; [lra|exact Q]|].
    rewrite Rmult_assoc. apply Rmult_le_compat_l; [auto|]. lra. }
  replace (objK c - objK c') with ((objK c - objK d) - u) in M by (unfold u; ring).
  assert (LP : 0 < lam ^ 2) by nra. apply (Rmult_le_reg_r (g + lam ^ 2)); [lra|].
  replace (g / (g + lam ^ 2) * (objK c - objK d) * (g + lam ^ 2)) with (g * (objK c - objK d)) by (field; lra). lra.
Qed.
End Core.
