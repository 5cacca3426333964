(** * Averages under a truncated normal law, and their limits. *)
From Coq Require Import Reals List Arith Lia Lra Psatz.
From Coquelicot Require Import Coquelicot.
From Verif Require Import Base Stats ModelOakley SpecOakley ProofsOakley.
Import ListNotations.
Local Open Scope R_scope.

Section Normal.
Variable s : R.
Hypothesis s_pos : 0 < s.
Let q := s * s.
Let w (x : R) := exp (- (x * x) / (2 * (s * s))).

Lemma q_pos : 0 < q.
Proof. unfold q. nra. Qed.

Lemma w_derive : forall x, is_derive w x (- (x / q) * w x).
Proof. intros x. unfold w, q. auto_derive; auto. unfold Rdiv. set (e := exp _). field. lra. Qed.
Lemma w_cont : cont w.
Proof. intros x. apply (ex_derive_continuous w). eexists. apply w_derive. Qed.
Lemma w_pos : forall x, 0 < w x.
Proof. intros x. apply exp_pos. Qed.
Lemma w_even : forall x, w (- x) = w x.
Proof. intros x. unfold w. f_equal. f_equal. ring. Qed.

Lemma ex_int : forall f a b, cont f -> ex_RInt f a b.
Proof. intros f a b C. apply (ex_RInt_continuous f). intros; auto. Qed.
Lemma ex_intw : forall f a b, cont f -> ex_RInt (fun x => f x * w x) a b.
Proof. intros. apply ex_int. apply (cont_mult f w); auto using w_cont. Qed.

Section Cut.
Variable a : R.
Hypothesis a_pos : 0 < a.

Definition NN : R := RInt w (- a) a.
Lemma NN_pos : 0 < NN.
Proof. unfold NN. apply RInt_gt_0; try lra; intros; [apply w_pos|apply w_cont]. Qed.

Lemma avg_eq : forall f, normal_avg s a f = RInt (fun x => f x * w x) (- a) a / NN.
Proof. reflexivity. Qed.
Lemma avg_ext : forall f g, (forall x, f x = g x) -> normal_avg s a f = normal_avg s a g.
Proof. intros f g H. rewrite !avg_eq. f_equal. apply RInt_ext. intros x _. rewrite H. reflexivity. Qed.
Lemma avg_plus : forall f g, cont f -> cont g -> normal_avg s a (fun x => f x + g x) = normal_avg s a f + normal_avg s a g.
Proof.
  intros f g F G. rewrite !avg_eq. rewrite (RInt_ext _ (fun x => plus (f x * w x) (g x * w x))) by (intros; unfold plus; simpl; ring).
  rewrite (RInt_plus (fun x => f x * w x) (fun x => g x * w x)) by (apply ex_intw; auto). unfold plus; simpl. field. pose proof NN_pos; lra.
Qed.
Lemma avg_scal : forall c f, cont f -> normal_avg s a (fun x => c * f x) = c * normal_avg s a f.
Proof.
  intros c f F. rewrite !avg_eq. rewrite (RInt_ext _ (fun x => scal c (f x * w x))) by (intros; unfold scal; simpl; unfold mult; simpl; ring).
  rewrite (RInt_scal (fun x => f x * w x)) by (apply ex_intw; auto). unfold scal; simpl; unfold mult; simpl. field. pose proof NN_pos; lra.
Qed.
Lemma avg_one : normal_avg s a (fun _ => 1) = 1.
Proof. rewrite avg_eq. rewrite (RInt_ext _ w) by (intros; simpl; ring). fold NN. field. pose proof NN_pos; lra. Qed.

Lemma avg_odd : forall f, cont f -> (forall x, f (- x) = - f x) -> normal_avg s a f = 0.
Proof.
  intros f F O. rewrite avg_eq. enough (H : RInt (fun x => f x * w x) (- a) a = 0) by (rewrite H; field; pose proof NN_pos; lra).
  pose proof (RInt_correct (fun x => f x * w x) (- a) a (ex_intw f (- a) a F)) as I. set (J := RInt (fun x => f x * w x) (- a) a) in *.
  assert (I2 : is_RInt (fun x => f x * w x) (- a) (- - a) J) by (rewrite Ropp_involutive; exact I).
  apply is_RInt_comp_opp in I2. apply is_RInt_swap in I2.
  apply (is_RInt_ext _ (fun x => f x * w x)) in I2. 2:{ intros x _. rewrite O, w_even. unfold opp; simpl; ring. }
  pose proof (is_RInt_unique (V := R_CompleteNormedModule) _ _ _ _ I2) as I3. fold J in I3. unfold opp in I3; simpl in I3. lra.
Qed.
Lemma avg_id : normal_avg s a (fun x => x) = 0.
Proof. apply avg_odd; auto using cont_id. Qed.

(** Integration by parts. *)
Lemma int_stein : forall f f', (forall x, is_derive f x (f' x)) -> cont f' ->
  RInt (fun x => (x * f x) * w x) (- a) a = q * RInt (fun x => f' x * w x) (- a) a - q * (f a - f (- a)) * w a.
Proof.
  intros f f' D C. pose proof q_pos as Q.
  assert (CF : cont f) by (intros x; apply (ex_derive_continuous f); eexists; apply D).
  assert (P : is_RInt (fun x => f' x * w x - (x * f x) * w x / q) (- a) a (minus (f a * w a) (f (- a) * w (- a)))).
  { apply (is_RInt_derive (fun x => f x * w x)).
    - intros x _. evar_last. { apply (is_derive_mult f w x (f' x)); [apply D|apply w_derive|]. intros; apply Rmult_comm. }
      unfold plus, mult; simpl. field. lra.
    - intros x _. apply (continuous_minus (fun x => f' x * w x) (fun x => x * f x * w x / q)).
      + apply (cont_mult f' w); auto using w_cont.
      + apply (continuous_mult (fun x => x * f x * w x) (fun _ => / q)); [|apply continuous_const].
        apply (cont_mult (fun x => x * f x) w); auto using w_cont. apply (cont_mult (fun x => x) f); auto using cont_id. }
  apply (is_RInt_unique (V := R_CompleteNormedModule)) in P.
  rewrite (RInt_ext _ (fun x => minus (f' x * w x) (scal (/ q) ((x * f x) * w x)))) in P.
  2:{ intros. unfold minus, plus, opp, scal; simpl; unfold mult; simpl. field. lra. }
  assert (CX : cont (fun x => x * f x)) by (apply (cont_mult (fun x => x) f); auto using cont_id).
  rewrite (RInt_minus (fun x => f' x * w x) (fun x => scal (/ q) ((x * f x) * w x))) in P.
  2:{ apply ex_intw; auto. } 2:{ apply (ex_RInt_scal (fun x => (x * f x) * w x)). apply (ex_intw (fun x => x * f x)); auto. }
  rewrite (RInt_scal (fun x => (x * f x) * w x)) in P by (apply (ex_intw (fun x => x * f x)); auto).
  unfold minus, plus, opp, scal in P; simpl in P; unfold mult in P; simpl in P. rewrite w_even in P.
  set (I1 := RInt (fun x => x * f x * w x) (- a) a) in *. set (I2 := RInt (fun x => f' x * w x) (- a) a) in *.
  apply (Rmult_eq_reg_l (/ q)); [|apply Rinv_neq_0_compat; lra].
  replace (/ q * (q * I2 - q * (f a - f (- a)) * w a)) with (I2 - (f a * w a - f (- a) * w a)) by (field; lra). lra.
Qed.

Lemma avg_stein : forall f f', (forall x, is_derive f x (f' x)) -> cont f' ->
  normal_avg s a (fun x => x * f x) = q * normal_avg s a f' - q * (f a - f (- a)) * w a / NN.
Proof. intros f f' D C. rewrite !avg_eq. rewrite (int_stein f f' D C). field. pose proof NN_pos; lra. Qed.

(** The average of a cosine. *)
Let CC (t : R) := RInt (fun x => cos (t * x) * w x) (- a) a.

Lemma CC_derive : forall t, is_derive CC t (RInt (fun x => - (x * sin (t * x)) * w x) (- a) a).
Proof.
  intros t. unfold CC.
  evar_last. { apply (is_derive_RInt_param (fun t x => cos (t * x) * w x) (- a) a t).
    - apply filter_forall. intros u x _. auto_derive. auto.
    - intros x _. apply (continuity_2d_pt_ext (fun u v => (- (v * sin (u * v))) * w v)).
      + intros u v. symmetry. apply is_derive_unique. auto_derive; auto. ring.
      + apply continuity_2d_pt_mult.
        * apply continuity_2d_pt_opp. apply continuity_2d_pt_mult; [apply continuity_2d_pt_id2|].
          apply (continuity_1d_2d_pt_comp sin (fun u v => u * v)).
          { apply continuity_pt_filterlim. apply continuous_sin. }
          apply continuity_2d_pt_mult; [apply continuity_2d_pt_id1|apply continuity_2d_pt_id2].
        * apply (continuity_1d_2d_pt_comp w (fun u v => v)); [|apply continuity_2d_pt_id2].
          apply continuity_pt_filterlim. apply w_cont.
    - apply filter_forall. intros u. apply (ex_intw (fun x => cos (u * x))). intros x. apply (ex_derive_continuous (fun x => cos (u * x))). auto_derive. auto. }
  apply RInt_ext. intros x _. apply is_derive_unique. auto_derive; auto. ring.
Qed.

Lemma CC_ode : forall t, is_derive CC t (- (q * t) * CC t + 2 * q * sin (t * a) * w a).
Proof.
  intros t. evar_last. { apply CC_derive. }
  rewrite (RInt_ext _ (fun x => opp ((x * sin (t * x)) * w x))) by (intros; unfold opp; simpl; ring).
  assert (C1 : cont (fun x => sin (t * x))) by (intros x; apply (ex_derive_continuous (fun x => sin (t * x))); auto_derive; auto).
  assert (C2 : cont (fun x => cos (t * x))) by (intros x; apply (ex_derive_continuous (fun x => cos (t * x))); auto_derive; auto).
  rewrite (RInt_opp (fun x => (x * sin (t * x)) * w x)).
  2:{ apply (ex_intw (fun x => x * sin (t * x))). apply (cont_mult (fun x => x)); auto using cont_id. }
  rewrite (int_stein (fun x => sin (t * x)) (fun x => t * cos (t * x))).
  2:{ intros x. auto_derive; auto. ring. } 2:{ apply cont_scal. auto. }
  rewrite (RInt_ext (fun x => t * cos (t * x) * w x) (fun x => scal t (cos (t * x) * w x))) by (intros; unfold scal; simpl; unfold mult; simpl; ring).
  rewrite (RInt_scal (fun x => cos (t * x) * w x)) by (apply (ex_intw (fun x => cos (t * x))); auto).
  fold (CC t). unfold opp, scal; simpl; unfold mult; simpl. replace (t * - a) with (- (t * a)) by ring. rewrite sin_neg. ring.
Qed.

Lemma avg_cos : forall t, 0 <= t -> Rabs (normal_avg s a (fun x => cos (t * x)) - exp (- (q * t * t / 2))) <= 2 * q * t * w a / NN.
Proof.
  intros t T. pose proof NN_pos as N. pose proof q_pos as Q. pose proof (w_pos a) as Wp.
  set (G := fun t => exp (q * t * t / 2) * CC t).
  assert (DG : forall u, is_derive G u (exp (q * u * u / 2) * (2 * q * sin (u * a) * w a))).
  { intros u. unfold G. evar_last. { apply (is_derive_mult (fun t => exp (q * t * t / 2)) CC u (q * u * exp (q * u * u / 2))).
      - auto_derive; auto. unfold Rdiv. set (e := exp _). simpl. field. - apply CC_ode. - intros; apply Rmult_comm. }
    unfold plus, mult; simpl. ring. }
  destruct (MVT_gen G 0 t (fun u => exp (q * u * u / 2) * (2 * q * sin (u * a) * w a))) as (c & Hc & HM).
  { intros; apply DG. } { intros x _. apply continuity_pt_filterlim. apply (ex_derive_continuous G). eexists. apply DG. }
  rewrite Rmin_left, Rmax_right in Hc by auto.
  assert (G0 : G 0 = NN). { unfold G, CC, NN. replace (q * 0 * 0 / 2) with 0 by field. rewrite exp_0, Rmult_1_l. apply RInt_ext. intros x _. rewrite Rmult_0_l, cos_0. simpl. ring. }
  assert (Et : CC t = exp (- (q * t * t / 2)) * G t).
  { unfold G. rewrite <- Rmult_assoc, <- exp_plus. replace (- (q * t * t / 2) + q * t * t / 2) with 0 by ring. rewrite exp_0, Rmult_1_l. reflexivity. }
  rewrite avg_eq. change (RInt (fun x => cos (t * x) * w x) (- a) a) with (CC t). rewrite Et.
  replace (G t) with (NN + exp (q * c * c / 2) * (2 * q * sin (c * a) * w a) * (t - 0)) by lra.
  set (e := exp (- (q * t * t / 2))). set (k := exp (q * c * c / 2)).
  replace (e * (NN + k * (2 * q * sin (c * a) * w a) * (t - 0)) / NN - e) with ((e * k * sin (c * a)) * (2 * q * t * w a / NN)) by (field; lra).
  rewrite Rabs_mult. rewrite (Rabs_right (2 * q * t * w a / NN)).
  2:{ apply Rle_ge. unfold Rdiv. apply Rmult_le_pos; [|left; apply Rinv_0_lt_compat; auto]. repeat apply Rmult_le_pos; lra. }
  rewrite <- (Rmult_1_l (2 * q * t * w a / NN)) at 2. apply Rmult_le_compat_r.
  { unfold Rdiv. apply Rmult_le_pos; [|left; apply Rinv_0_lt_compat; auto]. repeat apply Rmult_le_pos; lra. }
  assert (EK : 0 < e * k <= 1).
  { unfold e, k. rewrite <- exp_plus. split; [apply exp_pos|]. rewrite <- exp_0.
    assert (CT : c * c <= t * t) by (apply Rmult_le_compat; lra). assert (X : - (q * t * t / 2) + q * c * c / 2 <= 0) by (assert (q * (c * c) <= q * (t * t)) by (apply Rmult_le_compat_l; lra); lra). destruct X as [X|X]; [left; apply exp_increasing; auto|rewrite X; lra]. }
  rewrite Rabs_mult, (Rabs_right (e * k)) by lra. pose proof (SIN_bound (c * a)) as [S1 S2].
  assert (Rabs (sin (c * a)) <= 1) by (apply Rabs_le; lra). pose proof (Rabs_pos (sin (c * a))). nra.
Qed.
End Cut.
End Normal.
