(** * The integral of the power of a shifted, folded coordinate. *)
From Coq Require Import Reals List Arith Lra Lia.
From Verif Require Import Base Arrays ModelScale ModelTestFunctions SpecIntegral ProofsIntegral ProofsScale.
Import ListNotations.
Local Open Scope R_scope.

Lemma Rpower_pos : forall x y, 0 < Rpower x y.
Proof. intros. unfold Rpower. apply exp_pos. Qed.

Lemma rpow_pos : forall x y, 0 < x -> rpow x y = Rpower x y.
Proof. intros x y H. unfold rpow. replace (Reqb x 0) with false; [reflexivity|]. symmetry. apply Reqb_false. lra. Qed.
Lemma rpow_0 : forall y, 0 < y -> rpow 0 y = 0.
Proof.
  intros y H. unfold rpow. replace (Reqb 0 0) with true by (symmetry; apply Reqb_true; reflexivity).
  replace (Reqb y 0) with false; [reflexivity|]. symmetry. apply Reqb_false. lra.
Qed.
Lemma rpow_1 : forall y, 0 < y -> rpow 1 y = 1.
Proof. intros. rewrite rpow_pos by lra. unfold Rpower. rewrite ln_1, Rmult_0_r. apply exp_0. Qed.
Lemma rpow_sq : forall x y, 0 <= x -> 0 < y -> rpow x y ^ 2 = rpow x (2 * y).
Proof.
  intros x y X Y. destruct (Req_dec x 0) as [->|N].
  - rewrite !rpow_0 by lra. ring.
  - rewrite !rpow_pos by lra. replace (2 * y) with (y + y) by ring. rewrite Rpower_plus. ring.
Qed.

(** Small arguments have small powers. *)
Lemma rpow_small : forall y eps, 0 < y -> 0 < eps -> exists d, 0 < d /\ forall x, 0 <= x < d -> 0 <= rpow x y < eps.
Proof.
  intros y eps Y E. exists (Rpower eps (/ y)). split; [apply Rpower_pos|]. intros x [X1 X2].
  destruct (Req_dec x 0) as [->|N].
  - rewrite rpow_0 by assumption. lra.
  - rewrite rpow_pos by lra. split; [left; apply Rpower_pos|].
    apply Rlt_le_trans with (Rpower (Rpower eps (/ y)) y).
    + apply Rlt_Rpower_l; lra.
    + rewrite Rpower_mult, Rinv_l, Rpower_1 by lra. lra.
Qed.

Lemma continuity_pt_Rpower : forall x y, 0 < x -> continuity_pt (fun t => Rpower t y) x.
Proof.
  intros x y X. apply derivable_continuous_pt. exists (y * Rpower x (y - 1)). apply derivable_pt_lim_power. assumption.
Qed.

(** Functions that agree near a point. *)
Lemma derivable_pt_lim_near : forall f g x l d, 0 < d -> (forall t, Rabs (t - x) < d -> f t = g t) -> derivable_pt_lim f x l -> derivable_pt_lim g x l.
Proof.
  intros f g x l d D E H eps P. destruct (H eps P) as (e & He).
  assert (Q : 0 < Rmin e d) by (apply Rmin_pos; [apply cond_pos|assumption]).
  exists (mkposreal _ Q). intros h N L. cbn [pos] in L.
  rewrite <- (E (x + h)), <- (E x).
  - apply He; [assumption|]. apply Rlt_le_trans with (1 := L). apply Rmin_l.
  - rewrite Rminus_diag_eq by reflexivity. rewrite Rabs_R0. assumption.
  - replace (x + h - x) with h by ring. apply Rlt_le_trans with (1 := L). apply Rmin_r.
Qed.
Lemma continuity_pt_near : forall f g x d, 0 < d -> (forall t, Rabs (t - x) < d -> f t = g t) -> continuity_pt f x -> continuity_pt g x.
Proof.
  intros f g x d D E H eps P. destruct (H eps P) as (e & E0 & He).
  exists (Rmin e d). split; [apply Rmin_pos; assumption|]. intros t [T1 T2].
  simpl in *. unfold R_dist in *. rewrite <- (E t), <- (E x).
  - apply He. split; [assumption|]. apply Rlt_le_trans with (1 := T2). apply Rmin_l.
  - rewrite Rminus_diag_eq by reflexivity. rewrite Rabs_R0. assumption.
  - apply Rlt_le_trans with (1 := T2). apply Rmin_r.
Qed.

(** |t| ^ y is continuous and sgn(t) |t| ^ (y + 1) / (y + 1) is an antiderivative of it. *)
Definition apow (y t : R) : R := rpow (Rabs t) y.
Definition spow (y t : R) : R := (if Rle_dec 0 t then rpow t (y + 1) else - rpow (- t) (y + 1)) / (y + 1).

Lemma apow_continuous : forall y, 0 < y -> continuity (apow y).
Proof.
  intros y Y x. destruct (Rtotal_order x 0) as [L|[->|G]].
  - apply (continuity_pt_near (fun t => Rpower (- t) y) _ x (- x)); [lra| |].
    + intros t T. apply Rabs_def2 in T. unfold apow. rewrite Rabs_left, rpow_pos by lra. reflexivity.
    + apply (continuity_pt_comp (fun t => - t) (fun t => Rpower t y)).
      * apply (continuity_pt_opp id). apply derivable_continuous_pt, derivable_pt_id.
      * apply continuity_pt_Rpower. lra.
  - intros eps P. destruct (rpow_small y eps Y P) as (d & D & H). exists d. split; [assumption|].
    intros t [_ T]. simpl in *. unfold R_dist in *. rewrite Rminus_0_r in T. unfold apow.
    rewrite Rabs_R0, rpow_0 by assumption. rewrite Rminus_0_r.
    destruct (H (Rabs t)) as [H1 H2]; [split; [apply Rabs_pos|assumption]|]. rewrite Rabs_right; lra.
  - apply (continuity_pt_near (fun t => Rpower t y) _ x x); [lra| |].
    + intros t T. apply Rabs_def2 in T. unfold apow. rewrite Rabs_right, rpow_pos by lra. reflexivity.
    + apply continuity_pt_Rpower. lra.
Qed.

Lemma spow_derivative : forall y t, 0 < y -> derivable_pt_lim (spow y) t (apow y t).
Proof.
  intros y x Y. destruct (Rtotal_order x 0) as [L|[->|G]].
  - apply (derivable_pt_lim_near (fun t => (- / (y + 1)) * Rpower (- t) (y + 1)) _ x _ (- x)); [lra| |].
    + intros t T. apply Rabs_def2 in T. unfold spow. destruct (Rle_dec 0 t); [lra|]. rewrite rpow_pos by lra. field. lra.
    + unfold apow. rewrite Rabs_left, rpow_pos by lra.
      replace (Rpower (- x) y) with ((- / (y + 1)) * (((y + 1) * Rpower (- x) (y + 1 - 1)) * (- 1))).
      2:{ replace (y + 1 - 1) with y by ring. field. lra. }
      apply (derivable_pt_lim_scal (fun t => Rpower (- t) (y + 1))).
      apply (derivable_pt_lim_comp (fun t => - t) (fun t => Rpower t (y + 1))).
      * apply (derivable_pt_lim_opp id). apply derivable_pt_lim_id.
      * apply derivable_pt_lim_power. lra.
  - intros eps P. destruct (rpow_small y (eps * (y + 1)) Y) as (d & D & H); [apply Rmult_lt_0_compat; lra|].
    exists (mkposreal d D). intros h N L. cbn [pos] in L. rewrite Rplus_0_l.
    assert (E : (spow y h - spow y 0) / h - apow y 0 = rpow (Rabs h) y / (y + 1)).
    { unfold spow, apow. rewrite Rabs_R0, (rpow_0 y) by assumption. destruct (Rle_dec 0 0); [|lra]. rewrite rpow_0 by lra.
      destruct (Rle_dec 0 h).
      - rewrite Rabs_right, !rpow_pos by lra. rewrite Rpower_plus, Rpower_1 by lra. field. lra.
      - rewrite Rabs_left, !rpow_pos by lra. rewrite Rpower_plus, Rpower_1 by lra. field. lra. }
    rewrite E. destruct (H (Rabs h)) as [H1 H2]; [split; [apply Rabs_pos|assumption]|].
    rewrite Rabs_right.
    + apply Rmult_lt_reg_r with (y + 1); [lra|]. unfold Rdiv. rewrite Rmult_assoc, Rinv_l by lra. lra.
    + apply Rle_ge. apply Rmult_le_pos; [assumption|]. left. apply Rinv_0_lt_compat. lra.
  - apply (derivable_pt_lim_near (fun t => (/ (y + 1)) * Rpower t (y + 1)) _ x _ x); [lra| |].
    + intros t T. apply Rabs_def2 in T. unfold spow. destruct (Rle_dec 0 t); [|lra]. rewrite rpow_pos by lra. field. lra.
    + unfold apow. rewrite Rabs_right, rpow_pos by lra.
      replace (Rpower x y) with ((/ (y + 1)) * ((y + 1) * Rpower x (y + 1 - 1))).
      2:{ replace (y + 1 - 1) with y by ring. field. lra. }
      apply (derivable_pt_lim_scal (fun t => Rpower t (y + 1))). apply derivable_pt_lim_power. assumption.
Qed.

(** ** The folded coordinate *)

Lemma int_part_is : forall s z, IZR z <= s < IZR z + 1 -> Int_part s = z.
Proof.
  intros s z [A B]. unfold Int_part. rewrite <- (tech_up s (z + 1)); [lia| |]; rewrite plus_IZR; lra.
Qed.
Lemma int_part_0 : forall s, 0 <= s < 1 -> Int_part s = 0%Z.
Proof. intros s H. apply int_part_is. cbn. lra. Qed.
Lemma int_part_1 : forall s, 1 <= s < 2 -> Int_part s = 1%Z.
Proof. intros s H. apply int_part_is. cbn. lra. Qed.
Lemma int_part_2 : Int_part 2 = 2%Z.
Proof. apply int_part_is. cbn. lra. Qed.

Definition fold (d x : R) : R := Rabs (2 * (x + d - IZR (Int_part (x + d))) - 1).

Lemma fold_low : forall d x, 0 <= d <= 1 -> 0 <= x <= 1 - d -> fold d x = Rabs (2 * x + (2 * d - 1)).
Proof.
  intros d x D X. unfold fold. destruct (Rlt_dec (x + d) 1) as [L|L].
  - rewrite int_part_0 by lra. f_equal. cbn. ring.
  - assert (x + d = 1) as E by lra. rewrite E, int_part_1 by lra.
    replace (2 * (1 - 1) - 1) with (- (1)) by ring. replace (2 * x + (2 * d - 1)) with 1 by lra. apply Rabs_Ropp.
Qed.
Lemma fold_high : forall d x, 0 <= d <= 1 -> 1 - d <= x <= 1 -> fold d x = Rabs (2 * x + (2 * d - 3)).
Proof.
  intros d x D X. unfold fold. destruct (Rlt_dec (x + d) 2) as [L|L].
  - rewrite int_part_1 by lra. f_equal. cbn. ring.
  - assert (x + d = 2) as E by lra. rewrite E, int_part_2.
    replace (2 * (2 - 2) - 1) with (- (1)) by ring. replace (2 * x + (2 * d - 3)) with 1 by lra. apply Rabs_Ropp.
Qed.

(** The integral of |2 x + c| ^ y. *)
Lemma integral_apow : forall y c a b, 0 < y -> a <= b ->
  integral (fun x => apow y (2 * x + c)) a b (spow y (2 * b + c) / 2 - spow y (2 * a + c) / 2).
Proof.
  intros y c a b Y L.
  assert (DL : forall x, derivable_pt_lim (fun t => 2 * t + c) x 2).
  { intros x. replace (derivable_pt_lim (fun t => 2 * t + c) x 2) with (derivable_pt_lim (fun t => 2 * t + c) x (2 * 1 + 0)) by (f_equal; ring). apply (derivable_pt_lim_plus (fun t => 2 * t) (fun _ => c)).
    - apply (derivable_pt_lim_scal id). apply derivable_pt_lim_id.
    - apply derivable_pt_lim_const. }
  apply (integral_of (fun x => spow y (2 * x + c) / 2)); [assumption| |].
  - intros x. apply (derivable_pt_lim_near (fun t => / 2 * spow y (2 * t + c)) _ x _ 1); [lra|intros; field|].
    replace (apow y (2 * x + c)) with (/ 2 * (apow y (2 * x + c) * 2)) by field.
    apply (derivable_pt_lim_scal (fun t => spow y (2 * t + c))).
    apply (derivable_pt_lim_comp (fun t => 2 * t + c) (spow y)); [apply DL|]. apply spow_derivative. assumption.
  - intros x. apply (continuity_pt_comp (fun t => 2 * t + c) (apow y)).
    + apply derivable_continuous_pt. exists 2. apply DL.
    + apply apow_continuous. assumption.
Qed.

Lemma integral_fold : forall y d, 0 < y -> 0 <= d <= 1 -> integral (fun x => rpow (fold d x) y) 0 1 (/ (1 + y)).
Proof.
  intros y d Y D.
  replace (/ (1 + y)) with ((spow y (2 * (1 - d) + (2 * d - 1)) / 2 - spow y (2 * 0 + (2 * d - 1)) / 2)
                            + (spow y (2 * 1 + (2 * d - 3)) / 2 - spow y (2 * (1 - d) + (2 * d - 3)) / 2)).
  - apply integral_chasles with (1 - d).
    + apply (integral_ext (fun x => apow y (2 * x + (2 * d - 1)))); [lra| |apply integral_apow; lra].
      intros x X. unfold apow. rewrite fold_low by lra. reflexivity.
    + apply (integral_ext (fun x => apow y (2 * x + (2 * d - 3)))); [lra| |apply integral_apow; lra].
      intros x X. unfold apow. rewrite fold_high by lra. reflexivity.
  - replace (2 * (1 - d) + (2 * d - 1)) with 1 by ring.
    replace (2 * 1 + (2 * d - 3)) with (2 * 0 + (2 * d - 1)) by ring.
    replace (2 * (1 - d) + (2 * d - 3)) with (- (1)) by ring.
    unfold spow at 1 4. destruct (Rle_dec 0 1); [|lra]. destruct (Rle_dec 0 (- (1))); [lra|].
    rewrite Ropp_involutive, rpow_1 by lra. field. lra.
Qed.
