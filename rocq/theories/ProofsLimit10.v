(** * Concrete models for the derivative-based measures. *)
From Coq Require Import Reals String List Arith Bool Lia Lra Psatz.
From Verif Require Import Base Stats ModelGroups SpecFF SpecMorris SpecSobol ModelDgsm SpecDgsm ProofsDgsm ProofsDgsm2 ProofsDgsm3 SpecDgsm2 SpecIntegral ProofsIntegral SpecLimit
  ProofsPoincare ProofsPoincare2 ProofsLimit ProofsLimit2 ProofsLimit3 ProofsLimit4 ProofsLimit5 ProofsLimit6 ProofsLimit7.
Import ListNotations.
Local Open Scope R_scope.

(** ** Polynomials *)
Fixpoint poly (c : list R) (k : nat) (x : R) : R := match c with [] => 0 | a :: r => a * x ^ k + poly r (S k) x end.
Fixpoint prim (c : list R) (k : nat) (x : R) : R := match c with [] => 0 | a :: r => a / INR (S k) * x ^ S k + prim r (S k) x end.
Lemma prim_poly : forall c k x, derivable_pt_lim (prim c k) x (poly c k x).
Proof.
  induction c as [|a c IH]; intros k x; [apply derivable_pt_lim_const|]. cbn [prim poly].
  apply (derivable_pt_lim_plus (fun x => a / INR (S k) * x ^ S k) (prim c (S k))); [|apply IH].
  assert (INR (S k) <> 0) by (apply not_0_INR; lia).
  replace (a * x ^ k) with (a / INR (S k) * (INR (S k) * x ^ pred (S k))) by (cbn [pred]; field; auto).
  apply (derivable_pt_lim_scal (fun x => x ^ S k)). apply derivable_pt_lim_pow.
Qed.
Lemma poly_continuous : forall c k, continuity (poly c k).
Proof.
  induction c as [|a c IH]; intros k; [apply continuity_const; intros x y; auto|]. cbn [poly].
  apply (continuity_plus (fun x => a * x ^ k) (poly c (S k))); [|apply IH]. apply (continuity_scal (fun x => x ^ k)). apply derivable_continuous, derivable_pow.
Qed.
Lemma poly_integral : forall c a b, a <= b -> integral (poly c 0) a b (prim c 0 b - prim c 0 a).
Proof. intros c a b H. apply integral_of; auto; [apply prim_poly|apply poly_continuous]. Qed.

(** ** One parameter *)
Lemma total_one : forall lo hi f t, SpecIntegral.variance [(lo, hi)] f t -> lo < hi -> SpecIntegral.total_effect [(lo, hi)] f 0 t.
Proof.
  intros lo hi f t H L. exists (lo, hi), (fun _ => t). split; [reflexivity|]. split; [|reflexivity]. intros xs Hx. inversion Hx; subst. unfold put_at. cbn [firstn skipn app].
  apply (variance_ext [(lo, hi)] f); auto; [constructor; auto|]. intros x X. destruct (inside_one _ _ X) as (y & -> & _). reflexivity.
Qed.
Lemma average_line : forall lo hi (h : R -> R) v, lo < hi -> integral h lo hi (v * (hi - lo)) -> average [(lo, hi)] (fun l => h (nth 0 l 0)) v.
Proof. intros lo hi h v L I. exists h. split; [intros x _; reflexivity|auto]. Qed.

(** The cubic whose values at 1 and 2, and at 3/2 and 3, agree. *)
Definition cubic (x : R) : R := (x - 1) * (x - 2) * (x - 17 / 6).
Lemma cubic_variance : SpecIntegral.variance [(1, 3)] (fun l => cubic (nth 0 l 0)) (493 / 11340).
Proof.
  exists (1 / 18). split.
  - apply (average_line 1 3 cubic); [lra|]. apply (integral_ext (poly [-17 / 3; 21 / 2; -35 / 6; 1] 0)); [lra|intros x _; unfold cubic; cbn [poly pow]; field|].
    replace (1 / 18 * (3 - 1)) with (prim [-17 / 3; 21 / 2; -35 / 6; 1] 0 3 - prim [-17 / 3; 21 / 2; -35 / 6; 1] 0 1) by (cbn [prim pow INR]; field).
    apply poly_integral. lra.
  - apply (average_line 1 3 (fun x => (cubic x - 1 / 18) ^ 2)); [lra|]. apply (integral_ext (poly [10609 / 324; -721 / 6; 19117 / 108; -2411 / 18; 1981 / 36; -35 / 3; 1] 0)); [lra|intros x _; unfold cubic; cbn [poly pow]; field|].
    replace (493 / 11340 * (3 - 1)) with (prim [10609 / 324; -721 / 6; 19117 / 108; -2411 / 18; 1981 / 36; -35 / 3; 1] 0 3 - prim [10609 / 324; -721 / 6; 19117 / 108; -2411 / 18; 1981 / 36; -35 / 3; 1] 0 1) by (cbn [prim pow INR]; field).
    apply poly_integral. lra.
Qed.

(** Half a cosine wave: the bound is attained. *)
Lemma cos_mean : average [(0, 1)] (fun l => cos (PI * nth 0 l 0)) 0.
Proof.
  pose proof PI_neq0 as P0.
  apply (average_line 0 1 (fun x => cos (PI * x))); [lra|]. replace (0 * (1 - 0)) with (sin (PI * 1) / PI - sin (PI * 0) / PI) by (rewrite Rmult_1_r, Rmult_0_r, sin_PI, sin_0; field; auto).
    apply (integral_of (fun x => sin (PI * x) / PI)); [lra| |].
    + intros x. replace (cos (PI * x)) with (/ PI * (cos (PI * x) * (PI * 1))) by (field; auto).
      apply (derivable_pt_lim_ext (fun x => / PI * sin (PI * x))); [intros; unfold Rdiv; ring|]. apply (derivable_pt_lim_scal (fun x => sin (PI * x))).
      apply (derivable_pt_lim_comp (fun x => PI * x) sin); [apply (derivable_pt_lim_scal id), derivable_pt_lim_id|apply derivable_pt_lim_sin].
    + apply (continuity_comp (fun x => PI * x) cos); [apply (continuity_scal id), derivable_continuous, derivable_id|apply continuity_cos].
Qed.
Lemma cos_variance : SpecIntegral.variance [(0, 1)] (fun l => cos (PI * nth 0 l 0)) (1 / 2).
Proof.
  pose proof PI_neq0 as P0. exists 0. split; [apply cos_mean|].
  { apply (average_line 0 1 (fun x => (cos (PI * x) - 0) ^ 2)); [lra|].
    apply (integral_ext (fun x => 1 / 2 + 1 / 2 * cos (2 * PI * x))); [lra| |].
    { intros x _. replace (2 * PI * x) with (2 * (PI * x)) by ring. rewrite cos_2a_cos. field. }
    replace (1 / 2 * (1 - 0)) with ((1 / 2 * 1 + sin (2 * PI * 1) / (4 * PI)) - (1 / 2 * 0 + sin (2 * PI * 0) / (4 * PI))) by (replace (2 * PI * 1) with (2 * PI) by ring; replace (2 * PI * 0) with 0 by ring; rewrite sin_2PI, sin_0; field; auto).
    apply (integral_of (fun x => 1 / 2 * x + sin (2 * PI * x) / (4 * PI))); [lra| |].
    + intros x. apply (derivable_pt_lim_plus (fun x => 1 / 2 * x) (fun x => sin (2 * PI * x) / (4 * PI))).
      * pose proof (derivable_pt_lim_scal id (1 / 2) x 1 (derivable_pt_lim_id x)) as K. rewrite Rmult_1_r in K. exact K.
      * replace (1 / 2 * cos (2 * PI * x)) with (/ (4 * PI) * (cos (2 * PI * x) * (2 * PI * 1))) by (field; auto).
        apply (derivable_pt_lim_ext (fun x => / (4 * PI) * sin (2 * PI * x))); [intros; unfold Rdiv; ring|]. apply (derivable_pt_lim_scal (fun x => sin (2 * PI * x))).
        apply (derivable_pt_lim_comp (fun x => 2 * PI * x) sin); [apply (derivable_pt_lim_scal id), derivable_pt_lim_id|apply derivable_pt_lim_sin].
    + apply (continuity_plus (fun _ => 1 / 2) (fun x => 1 / 2 * cos (2 * PI * x))); [apply continuity_const; intros y z; auto|].
      apply (continuity_scal (fun x => cos (2 * PI * x))). apply (continuity_comp (fun x => 2 * PI * x) cos); [apply (continuity_scal id), derivable_continuous, derivable_id|apply continuity_cos]. }
Qed.
Lemma sin_average : average [(0, 1)] (fun l => (- PI * sin (PI * nth 0 l 0)) ^ 2) (PI ^ 2 / 2).
Proof.
  destruct cos_variance as (m & H1 & H2). assert (P : proper [(0, 1)]) by (constructor; [simpl; lra|constructor]).
  assert (H3 : average [(0, 1)] (fun l => cos (PI * nth 0 l 0) ^ 2) (1 / 2 + m ^ 2)).
  { apply (average_ext [(0, 1)] (fun l => ((cos (PI * nth 0 l 0) - m) ^ 2 + 2 * m * cos (PI * nth 0 l 0)) + - m ^ 2 * 1)); auto; [intros; ring|].
    replace (1 / 2 + m ^ 2) with ((1 / 2 + 2 * m * m) + - m ^ 2 * 1) by ring. apply average_lin; auto; [apply average_lin; auto|apply average_const; auto]. }
  assert (E : m = 0).
  { apply (average_unique [(0, 1)] (fun l => cos (PI * nth 0 l 0))); auto. apply cos_mean. }
  subst m. apply (average_ext [(0, 1)] (fun l => PI ^ 2 * (1 + (-1) * cos (PI * nth 0 l 0) ^ 2))); auto.
  - intros x _. pose proof (sin2_cos2 (PI * nth 0 x 0)) as Q. unfold Rsqr in Q. replace (cos (PI * nth 0 x 0) ^ 2) with (1 - sin (PI * nth 0 x 0) ^ 2) by (simpl; lra). ring.
  - replace (PI ^ 2 / 2) with (PI ^ 2 * (1 + (-1) * (1 / 2 + 0 ^ 2))) by field. apply average_scal; auto. apply average_lin; auto. apply average_const; auto.
Qed.
Lemma cos_slope : partial_slope [(0, 1)] (fun l => cos (PI * nth 0 l 0)) (fun l => - PI * sin (PI * nth 0 l 0)) 0.
Proof.
  intros bi xs x _ _ _. unfold put_at. cbn [firstn skipn app nth]. split.
  - replace (- PI * sin (PI * x)) with (- sin (PI * x) * (PI * 1)) by ring.
    apply (derivable_pt_lim_comp (fun x => PI * x) cos); [apply (derivable_pt_lim_scal id), derivable_pt_lim_id|apply derivable_pt_lim_cos].
  - apply (continuity_scal (fun x => sin (PI * x))). apply (continuity_comp (fun x => PI * x) sin); [apply (continuity_scal id), derivable_continuous, derivable_id|apply continuity_sin].
Qed.
Lemma cos_slope_continuous : continuous_on [(0, 1)] (fun l => - PI * sin (PI * nth 0 l 0)).
Proof.
  apply continuous_scal. apply (continuous_lipschitz _ (fun l => PI * nth 0 l 0) sin 1); [lra|apply sin_lipschitz|]. apply continuous_scal. apply continuous_coord. simpl. lia.
Qed.
