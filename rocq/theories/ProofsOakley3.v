(** * Limits of the averages as the truncation goes to infinity; the indices of the Oakley-O'Hagan function. *)
From Coq Require Import Reals List Arith Lia Lra Psatz.
From Coquelicot Require Import Coquelicot.
From Verif Require Import Base Stats ModelOakley SpecOakley ProofsOakley ProofsOakley2.
Import ListNotations.
Local Open Scope R_scope.

Definition tends (f : R -> R) (l : R) : Prop := is_lim f p_infty l.

Lemma tends_const : forall c, tends (fun _ => c) c.
Proof. intros c. apply is_lim_const. Qed.
Lemma tends_plus : forall f g l m, tends f l -> tends g m -> tends (fun a => f a + g a) (l + m).
Proof. intros. apply is_lim_plus'; auto. Qed.
Lemma tends_mult : forall f g l m, tends f l -> tends g m -> tends (fun a => f a * g a) (l * m).
Proof. intros f g l m F G. exact (is_lim_mult f g p_infty l m F G I). Qed.
Lemma tends_inv : forall f l, tends f l -> l <> 0 -> tends (fun a => / f a) (/ l).
Proof. intros f l F H. apply (is_lim_inv f p_infty l F). intros E. injection E as E. auto. Qed.
Lemma tends_ext : forall f g l, (forall a, 1 <= a -> f a = g a) -> tends f l -> tends g l.
Proof. intros f g l H F. apply (is_lim_ext_loc f); auto. exists 1. intros y Hy. apply H. lra. Qed.
Lemma tends_eq : forall f l m, tends f l -> l = m -> tends f m.
Proof. intros; subst; auto. Qed.
Lemma tends_bound : forall f l K, (forall a, 1 <= a -> Rabs (f a - l) <= K / a) -> tends f l.
Proof.
  intros f l K H.
  assert (Z : tends (fun a => K * / a) 0).
  { apply (tends_eq _ (K * 0)); [|ring]. apply tends_mult; [apply tends_const|].
    apply (is_lim_inv (fun a => a) p_infty p_infty); [apply is_lim_id|discriminate]. }
  apply (is_lim_le_le_loc (fun a => l + (-1) * (K * / a)) (fun a => l + K * / a)).
  - exists 1. intros a Ha. specialize (H a ltac:(lra)). unfold Rdiv in H. apply Rabs_le_between in H. lra.
  - apply (tends_eq _ (l + (-1) * 0)); [|ring]. apply tends_plus; [apply tends_const|]. apply tends_mult; [apply tends_const|exact Z].
  - apply (tends_eq _ (l + 0)); [|ring]. apply tends_plus; [apply tends_const|exact Z].
Qed.

Section Limits.
Variable s : R.
Hypothesis s_pos : 0 < s.
Let q := s * s.
Let w (x : R) := exp (- (x * x) / (2 * (s * s))).

Lemma NN_grows : forall a, 1 <= a -> NN s 1 <= NN s a.
Proof.
  intros a A. unfold NN. set (g := fun x => exp (- (x * x) / (2 * (s * s)))).
  assert (X : forall u v, ex_RInt g u v) by (intros; apply ex_int; intros x; apply w_cont; auto).
  pose proof (RInt_Chasles g (- a) (Ropp 1) a (X _ _) (X _ _)) as C1. pose proof (RInt_Chasles g (Ropp 1) 1 a (X _ _) (X _ _)) as C2.
  assert (P1 : 0 <= RInt g (- a) (Ropp 1)) by (apply RInt_ge_0; auto; try lra; intros; left; apply exp_pos).
  assert (P2 : 0 <= RInt g 1 a) by (apply RInt_ge_0; auto; try lra; intros; left; apply exp_pos).
  rewrite <- C2 in C1. rewrite <- C1. unfold plus; simpl. clear C1 C2. revert P1 P2.
  generalize (RInt g (- a) (Ropp 1)) (RInt g 1 a) (RInt g (Ropp 1) 1). change (forall u v z : R, 0 <= u -> 0 <= v -> z <= u + (z + v)). intros; lra.
Qed.

(** The tail of the density. *)
Lemma w_tail : forall a, 1 <= a -> w a * (a * a * a * a) <= 16 * (q * q).
Proof.
  intros a A. assert (Q : 0 < q) by (unfold q; nra). unfold w. fold q.
  set (z := a * a / (2 * q)). assert (Z : 0 < z) by (unfold z; apply Rdiv_lt_0_compat; nra).
  replace (- (a * a) / (2 * q)) with (- (z / 2 + z / 2)) by (unfold z; field; lra).
  rewrite exp_Ropp, exp_plus. pose proof (exp_ineq1_le (z / 2)) as H.
  assert (P : 0 < exp (z / 2)) by apply exp_pos.
  assert (G : a * a * a * a = 4 * (q * q) * (z * z)) by (unfold z; field; lra). rewrite G.
  assert (B : z * z <= 4 * (exp (z / 2) * exp (z / 2))) by nra.
  apply (Rmult_le_reg_l (exp (z / 2) * exp (z / 2))); [nra|].
  replace (exp (z / 2) * exp (z / 2) * (/ (exp (z / 2) * exp (z / 2)) * (4 * (q * q) * (z * z)))) with (4 * (q * q) * (z * z)) by (field; lra).
  assert (QQ : 0 < q * q) by nra. nra.
Qed.

Lemma w_bound : forall a g, 1 <= a -> 0 <= g -> g <= 2 * (a * a * a) -> g * w a / NN s a <= (32 * (q * q) / NN s 1) / a.
Proof.
  intros a g A G0 G. pose proof (w_tail a A) as T. pose proof (NN_grows a A) as M. pose proof (NN_pos s s_pos 1 ltac:(lra)) as N1.
  assert (Wp : 0 < w a) by apply exp_pos. assert (X : g * w a * a <= 32 * (q * q)).
  { apply Rle_trans with (2 * (a * a * a) * w a * a); [|nra]. apply Rmult_le_compat_r; [lra|]. apply Rmult_le_compat_r; lra. }
  assert (Y : g * w a <= 32 * (q * q) / a). { apply (Rmult_le_reg_r a); [lra|]. unfold Rdiv. rewrite (Rmult_assoc _ (/ a)), Rinv_l by lra. lra. }
  replace (32 * (q * q) / NN s 1 / a) with (32 * (q * q) / a * / NN s 1) by (field; lra). unfold Rdiv at 1.
  apply Rmult_le_compat; auto. { apply Rmult_le_pos; lra. } { left. apply Rinv_0_lt_compat. lra. } apply Rinv_le_contravar; lra.
Qed.

(** Integration by parts in the limit, for functions growing no faster than a cube. *)
Lemma tends_stein : forall f f' l, (forall x, is_derive f x (f' x)) -> cont f' ->
  (forall a, 1 <= a -> Rabs (f a - f (- a)) <= 2 * (a * a * a)) ->
  tends (fun a => normal_avg s a f') l -> tends (fun a => normal_avg s a (fun x => x * f x)) (q * l).
Proof.
  intros f f' l D C B T. assert (Q : 0 < q) by (unfold q; nra).
  apply (tends_ext (fun a => q * normal_avg s a f' + (-1) * (q * ((f a - f (- a)) * w a / NN s a)))).
  { intros a A. rewrite (avg_stein s s_pos a ltac:(lra) f f' D C). fold (w a). fold q. field. pose proof (NN_pos s s_pos a ltac:(lra)); lra. }
  apply (tends_eq _ (q * l + (-1) * (q * 0))); [|ring]. apply tends_plus; [apply tends_mult; [apply tends_const|exact T]|].
  apply tends_mult; [apply tends_const|]. apply tends_mult; [apply tends_const|].
  apply (tends_bound _ _ (32 * (q * q) / NN s 1)). intros a A. rewrite Rminus_0_r. unfold Rdiv at 1. rewrite !Rabs_mult.
  pose proof (NN_pos s s_pos a ltac:(lra)) as N. rewrite (Rabs_right (w a)), (Rabs_right (/ NN s a)).
  2:{ left. apply Rinv_0_lt_compat. auto. } 2:{ left. apply exp_pos. }
  apply (w_bound a (Rabs (f a - f (- a))) A (Rabs_pos _) (B a A)).
Qed.

Lemma tends_one : tends (fun a => normal_avg s a (fun _ => 1)) 1.
Proof. apply (tends_ext (fun _ => 1)); [|apply tends_const]. intros a A. rewrite avg_one; auto; lra. Qed.

Lemma tends_cos : forall t, 0 <= t -> tends (fun a => normal_avg s a (fun x => cos (t * x))) (exp (- (q * t * t / 2))).
Proof.
  intros t T. assert (Q : 0 < q) by (unfold q; nra).
  apply (tends_bound _ _ (q * t * (32 * (q * q) / NN s 1))). intros a A. eapply Rle_trans. { apply avg_cos; auto; lra. }
  fold (w a). fold q. replace (2 * q * t * w a / NN s a) with (q * t * (2 * w a / NN s a)) by (field; pose proof (NN_pos s s_pos a ltac:(lra)); lra).
  replace (q * t * (32 * (q * q) / NN s 1) / a) with (q * t * ((32 * (q * q) / NN s 1) / a)) by (unfold Rdiv; ring).
  apply Rmult_le_compat_l; [apply Rmult_le_pos; lra|]. apply w_bound; auto; [lra|]. assert (1 <= a * a) by nra. nra.
Qed.

Lemma cont_sin : cont sin. Proof. intros x. apply continuous_sin. Qed.
Lemma cont_cos : cont cos. Proof. intros x. apply continuous_cos. Qed.
Lemma cont_derivable : forall f, (forall x, ex_derive f x) -> cont f.
Proof. intros f D x. apply (ex_derive_continuous f). apply D. Qed.
Ltac dcont := apply cont_derivable; intros; auto_derive; auto.

Lemma tends_sq : tends (fun a => normal_avg s a (fun x => x ^ 2)) q.
Proof.
  apply (tends_ext (fun a => normal_avg s a (fun x => x * x))). { intros a A. apply avg_ext. intros; ring. }
  apply (tends_eq _ (q * 1)); [|ring]. apply (tends_stein (fun x => x) (fun _ => 1)).
  - intros x. auto_derive; auto.
  - apply cont_const.
  - intros a A. rewrite Rabs_right by lra. assert (1 <= a * a) by nra. nra.
  - apply tends_one.
Qed.
Lemma tends_four : tends (fun a => normal_avg s a (fun x => x ^ 4)) (3 * (q * q)).
Proof.
  apply (tends_ext (fun a => normal_avg s a (fun x => x * x ^ 3))). { intros a A. apply avg_ext. intros; ring. }
  apply (tends_eq _ (q * (3 * q))); [|ring]. apply (tends_stein (fun x => x ^ 3) (fun x => 3 * x ^ 2)).
  - intros x. auto_derive; auto. ring.
  - apply (cont_scal 3 (fun x => x ^ 2)). apply (cont_sq (fun x => x)). apply cont_id.
  - intros a A. replace (a ^ 3 - (- a) ^ 3) with (2 * (a * a * a)) by ring. rewrite Rabs_right; [lra|]. assert (0 <= a * a) by nra. nra.
  - apply (tends_ext (fun a => 3 * normal_avg s a (fun x => x ^ 2))).
    + intros a A. symmetry. apply (avg_scal s s_pos a ltac:(lra) 3 (fun x => x ^ 2)). apply (cont_sq (fun x => x)). apply cont_id.
    + apply tends_mult; [apply tends_const|apply tends_sq].
Qed.
Lemma tends_cos1 : tends (fun a => normal_avg s a cos) (exp (- (q / 2))).
Proof.
  apply (tends_ext (fun a => normal_avg s a (fun x => cos (1 * x)))). { intros a A. apply avg_ext. intros. f_equal. ring. }
  apply (tends_eq _ (exp (- (q * 1 * 1 / 2)))). { apply tends_cos. lra. } f_equal. field.
Qed.
Lemma tends_cos2 : tends (fun a => normal_avg s a (fun x => cos (2 * x))) (exp (- (2 * q))).
Proof. apply (tends_eq _ (exp (- (q * 2 * 2 / 2)))). { apply tends_cos. lra. } f_equal. field. Qed.
Lemma tends_xsin : tends (fun a => normal_avg s a (fun x => x * sin x)) (q * exp (- (q / 2))).
Proof.
  apply (tends_stein sin cos).
  - intros x. auto_derive; auto. ring.
  - apply cont_cos.
  - intros a A. rewrite sin_neg. pose proof (SIN_bound a). apply Rabs_le. assert (1 <= a * a * a) by nra. lra.
  - apply tends_cos1.
Qed.
Lemma tends_xxcos : tends (fun a => normal_avg s a (fun x => x ^ 2 * cos x)) ((q - q * q) * exp (- (q / 2))).
Proof.
  apply (tends_ext (fun a => normal_avg s a (fun x => x * (x * cos x)))). { intros a A. apply avg_ext. intros; ring. }
  apply (tends_eq _ (q * (exp (- (q / 2)) + (-1) * (q * exp (- (q / 2)))))); [|ring].
  apply (tends_stein (fun x => x * cos x) (fun x => cos x + (-1) * (x * sin x))).
  - intros x. auto_derive; auto. ring.
  - dcont.
  - intros a A. rewrite cos_neg. replace (a * cos a - - a * cos a) with (2 * a * cos a) by ring. rewrite Rabs_mult, (Rabs_right (2 * a)) by lra.
    pose proof (COS_bound a). assert (Rabs (cos a) <= 1) by (apply Rabs_le; lra). pose proof (Rabs_pos (cos a)). assert (1 <= a * a) by nra. nra.
  - apply (tends_ext (fun a => normal_avg s a cos + (-1) * normal_avg s a (fun x => x * sin x))).
    + intros a A. symmetry. transitivity (normal_avg s a cos + normal_avg s a (fun x => (-1) * (x * sin x))).
      * apply (avg_plus s s_pos a ltac:(lra) cos (fun x => (-1) * (x * sin x))); [apply cont_cos|dcont].
      * f_equal. apply (avg_scal s s_pos a ltac:(lra) (-1) (fun x => x * sin x)). dcont.
    + apply tends_plus; [apply tends_cos1|]. apply tends_mult; [apply tends_const|apply tends_xsin].
Qed.

(** The function of one input. *)
Definition hpart (p1 p2 p3 m x : R) : R := p1 * x + p2 * sin x + p3 * cos x + m * x ^ 2.
Definition hvar (p1 p2 p3 m : R) : R :=
  p1 ^ 2 * q + p2 ^ 2 * (1 - exp (- (2 * q))) / 2 + p3 ^ 2 * ((1 + exp (- (2 * q))) / 2 - exp (- (q / 2)) ^ 2)
  + 2 * m ^ 2 * q ^ 2 + 2 * p1 * p2 * q * exp (- (q / 2)) - 2 * p3 * m * q ^ 2 * exp (- (q / 2)).

Lemma hpart_cont : forall p1 p2 p3 m, cont (hpart p1 p2 p3 m).
Proof. intros. unfold hpart. dcont. Qed.

Lemma tends_hvar : forall p1 p2 p3 m, tends (fun a => avar (normal_avg s a) (hpart p1 p2 p3 m)) (hvar p1 p2 p3 m).
Proof.
  intros p1 p2 p3 m.
  apply (tends_ext (fun a =>
    (p1 ^ 2 * normal_avg s a (fun x => x ^ 2) + (p2 ^ 2 * (/ 2 + (- / 2) * normal_avg s a (fun x => cos (2 * x)))
     + (p3 ^ 2 * (/ 2 + / 2 * normal_avg s a (fun x => cos (2 * x))) + (m ^ 2 * normal_avg s a (fun x => x ^ 4)
     + (2 * p1 * p2 * normal_avg s a (fun x => x * sin x) + 2 * p3 * m * normal_avg s a (fun x => x ^ 2 * cos x))))))
    + (-1) * ((p3 * normal_avg s a cos + m * normal_avg s a (fun x => x ^ 2)) * (p3 * normal_avg s a cos + m * normal_avg s a (fun x => x ^ 2))))).
  - intros a A. assert (AP : 0 < a) by lra.
    rewrite (avar_eq (normal_avg s a) (avg_ext s a) (avg_plus s s_pos a AP) (avg_scal s s_pos a AP) (avg_one s s_pos a AP)) by apply hpart_cont.
    assert (E1 : normal_avg s a (hpart p1 p2 p3 m) = p3 * normal_avg s a cos + m * normal_avg s a (fun x => x ^ 2)).
    { rewrite (avg_ext s a _ (fun x => (p1 * x + p2 * sin x) + (p3 * cos x + m * x ^ 2))) by (intros; unfold hpart; ring).
      rewrite (avg_plus s s_pos a AP (fun x => p1 * x + p2 * sin x)) by dcont.
      rewrite (avg_odd s s_pos a AP (fun x => p1 * x + p2 * sin x)) by (try dcont; intros; rewrite sin_neg; ring).
      rewrite (avg_plus s s_pos a AP (fun x => p3 * cos x)) by dcont. rewrite (avg_scal s s_pos a AP p3 cos) by dcont. rewrite (avg_scal s s_pos a AP m (fun x => x ^ 2)) by dcont. ring. }
    assert (E2 : normal_avg s a (fun x => hpart p1 p2 p3 m x ^ 2) =
      p1 ^ 2 * normal_avg s a (fun x => x ^ 2) + (p2 ^ 2 * (/ 2 + (- / 2) * normal_avg s a (fun x => cos (2 * x)))
     + (p3 ^ 2 * (/ 2 + / 2 * normal_avg s a (fun x => cos (2 * x))) + (m ^ 2 * normal_avg s a (fun x => x ^ 4)
     + (2 * p1 * p2 * normal_avg s a (fun x => x * sin x) + 2 * p3 * m * normal_avg s a (fun x => x ^ 2 * cos x)))))).
    { set (o := fun x => 2 * p1 * p3 * (x * cos x) + 2 * p1 * m * x ^ 3 + 2 * p2 * p3 * (sin x * cos x) + 2 * p2 * m * (x ^ 2 * sin x)).
      rewrite (avg_ext s a _ (fun x => o x + (p1 ^ 2 * x ^ 2 + ((p2 ^ 2 * / 2 + p3 ^ 2 * / 2) * 1 + ((p2 ^ 2 * (- / 2) + p3 ^ 2 * / 2) * cos (2 * x) + (m ^ 2 * x ^ 4 + (2 * p1 * p2 * (x * sin x) + 2 * p3 * m * (x ^ 2 * cos x)))))))).
      2:{ intros x. unfold hpart, o. rewrite cos_2a. pose proof (sin2_cos2 x) as SC. unfold Rsqr in SC.
          replace 1 with (sin x * sin x + cos x * cos x) by lra. field. }
      rewrite (avg_plus s s_pos a AP o) by (try unfold o; dcont).
      rewrite (avg_odd s s_pos a AP o) by (try (unfold o; dcont); intros x; unfold o; rewrite sin_neg, cos_neg; ring).
      rewrite (avg_plus s s_pos a AP (fun x => p1 ^ 2 * x ^ 2)) by dcont.
      rewrite (avg_plus s s_pos a AP (fun x => (p2 ^ 2 * / 2 + p3 ^ 2 * / 2) * 1)) by dcont.
      rewrite (avg_plus s s_pos a AP (fun x => (p2 ^ 2 * (- / 2) + p3 ^ 2 * / 2) * cos (2 * x))) by dcont.
      rewrite (avg_plus s s_pos a AP (fun x => m ^ 2 * x ^ 4)) by dcont.
      rewrite (avg_plus s s_pos a AP (fun x => 2 * p1 * p2 * (x * sin x))) by dcont.
      rewrite (avg_scal s s_pos a AP (p1 ^ 2) (fun x => x ^ 2)) by dcont.
      rewrite (avg_scal s s_pos a AP (p2 ^ 2 * / 2 + p3 ^ 2 * / 2) (fun _ => 1)) by apply cont_const.
      rewrite (avg_scal s s_pos a AP (p2 ^ 2 * (- / 2) + p3 ^ 2 * / 2) (fun x => cos (2 * x))) by dcont.
      rewrite (avg_scal s s_pos a AP (m ^ 2) (fun x => x ^ 4)) by dcont.
      rewrite (avg_scal s s_pos a AP (2 * p1 * p2) (fun x => x * sin x)) by dcont.
      rewrite (avg_scal s s_pos a AP (2 * p3 * m) (fun x => x ^ 2 * cos x)) by dcont.
      rewrite avg_one by auto. ring. }
    rewrite E1, E2. ring.
  - eapply tends_eq.
    + repeat first [apply tends_sq | apply tends_four | apply tends_cos1 | apply tends_cos2 | apply tends_xsin | apply tends_xxcos | apply tends_const | apply tends_plus | apply tends_mult].
    + unfold hvar. field.
Qed.
End Limits.
