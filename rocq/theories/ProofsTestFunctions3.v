(** * The Ishigami function: moments and effects. *)
From Coq Require Import Reals List Arith Lra Lia Bool.
From Verif Require Import Base Arrays ModelScale Stats Sums ModelTestFunctions SpecIntegral ProofsIntegral ProofsTestFunctions ProofsPi.
Import ListNotations.
Local Open Scope R_scope.

(** ** Integrals of one coordinate over [-pi, pi] *)

Lemma dl_eq : forall f x l m, derivable_pt_lim f x l -> l = m -> derivable_pt_lim f x m.
Proof. intros. subst. assumption. Qed.
Lemma dl_scal : forall c f x l, derivable_pt_lim f x l -> derivable_pt_lim (fun t => c * f t) x (c * l).
Proof. intros. apply (derivable_pt_lim_scal f). assumption. Qed.
Lemma dl_minus : forall f g x l m, derivable_pt_lim f x l -> derivable_pt_lim g x m -> derivable_pt_lim (fun t => f t - g t) x (l - m).
Proof. intros. apply (derivable_pt_lim_minus f g); assumption. Qed.
Lemma dl_mult : forall f g x l m, derivable_pt_lim f x l -> derivable_pt_lim g x m -> derivable_pt_lim (fun t => f t * g t) x (l * g x + f x * m).
Proof. intros. apply (derivable_pt_lim_mult f g); assumption. Qed.
Lemma dl_id : forall x, derivable_pt_lim (fun t => t) x 1.
Proof. intros. apply (derivable_pt_lim_id x). Qed.

Definition pi_range : R * R := (- PI, PI).
Lemma pi_lt : - PI < PI.
Proof. assert (H := PI_RGT_0). lra. Qed.

Lemma sin_opp_pi : sin (- PI) = 0.
Proof. rewrite sin_neg, sin_PI. ring. Qed.

Lemma sin_continuous : continuity sin.
Proof. apply continuity_sin. Qed.
Lemma pow_continuous : forall f n, continuity f -> continuity (fun x => f x ^ n).
Proof.
  intros f n C. induction n as [|n IH]; intros x; cbn.
  - apply continuity_pt_const. intros u v. reflexivity.
  - apply (continuity_pt_mult f (fun x => f x ^ n)); [apply C|apply IH].
Qed.
Lemma id_continuous : continuity (fun x => x).
Proof. intros x. apply derivable_continuous_pt, derivable_pt_id. Qed.

Lemma mean_one : mean_of pi_range (fun _ => 1) 1.
Proof. unfold mean_of, pi_range. cbn [fst snd]. apply integral_const. Qed.

Lemma mean_sin : mean_of pi_range sin 0.
Proof.
  unfold mean_of, pi_range. cbn [fst snd]. replace (0 * (PI - - PI)) with (- cos PI - - cos (- PI)) by (rewrite cos_neg; ring).
  apply (integral_of (fun x => - cos x)); [left; apply pi_lt| |apply sin_continuous].
  intros x. apply dl_eq with (- - sin x); [|ring]. apply (derivable_pt_lim_opp cos). apply derivable_pt_lim_cos.
Qed.

Lemma mean_sin2 : mean_of pi_range (fun x => sin x ^ 2) (1 / 2).
Proof.
  unfold mean_of, pi_range. cbn [fst snd].
  pose (F := fun x => (1 / 2) * x - (1 / 2) * (sin x * cos x)).
  replace (1 / 2 * (PI - - PI)) with (F PI - F (- PI)) by (unfold F; rewrite sin_opp_pi, sin_PI; ring).
  apply (integral_of F); [left; apply pi_lt| |apply pow_continuous, sin_continuous].
  intros x. apply dl_eq with ((1 / 2) * 1 - (1 / 2) * (cos x * cos x + sin x * - sin x)).
  - apply dl_minus; apply dl_scal; [apply dl_id|]. apply dl_mult; [apply derivable_pt_lim_sin|apply derivable_pt_lim_cos].
  - assert (H := sin2_cos2 x). unfold Rsqr in H. replace (cos x * cos x) with (1 - sin x * sin x) by lra. field.
Qed.

Lemma mean_sin4 : mean_of pi_range (fun x => sin x ^ 4) (3 / 8).
Proof.
  unfold mean_of, pi_range. cbn [fst snd].
  pose (F := fun x => ((3 / 8) * x - (1 / 4) * ((sin x * (sin x * sin x)) * cos x)) - (3 / 8) * (sin x * cos x)).
  replace (3 / 8 * (PI - - PI)) with (F PI - F (- PI)) by (unfold F; rewrite sin_opp_pi, sin_PI; ring).
  apply (integral_of F); [left; apply pi_lt| |apply pow_continuous, sin_continuous].
  intros x. apply dl_eq with (((3 / 8) * 1 - (1 / 4) * ((cos x * (sin x * sin x) + sin x * (cos x * sin x + sin x * cos x)) * cos x
      + (sin x * (sin x * sin x)) * - sin x)) - (3 / 8) * (cos x * cos x + sin x * - sin x)).
  - assert (Ds := derivable_pt_lim_sin x). assert (Dc := derivable_pt_lim_cos x).
    apply dl_minus; [apply dl_minus; apply dl_scal; [apply dl_id|]|apply dl_scal].
    + apply (dl_mult (fun t => sin t * (sin t * sin t)) cos); [|assumption]. apply (dl_mult sin (fun t => sin t * sin t)); [assumption|].
      apply (dl_mult sin sin); assumption.
    + apply (dl_mult sin cos); assumption.
  - assert (H := sin2_cos2 x). unfold Rsqr in H.
    transitivity ((3 / 8 - 1 / 4 * (3 * (cos x * cos x) * (sin x * sin x) - sin x ^ 4)) - 3 / 8 * (cos x * cos x - sin x * sin x)); [field|].
    replace (cos x * cos x) with (1 - sin x * sin x) by lra. field.
Qed.

Lemma mean_pow : forall n, mean_of pi_range (fun x => x ^ (2 * n)) (PI ^ (2 * n) / INR (2 * n + 1)).
Proof.
  intros n. unfold mean_of, pi_range. cbn [fst snd].
  pose (F := fun x => / INR (2 * n + 1) * x ^ (2 * n + 1)).
  assert (N : INR (2 * n + 1) <> 0) by (apply not_0_INR; lia).
  replace (PI ^ (2 * n) / INR (2 * n + 1) * (PI - - PI)) with (F PI - F (- PI)).
  - apply (integral_of F); [left; apply pi_lt| |apply pow_continuous, id_continuous].
    intros x. apply dl_eq with (/ INR (2 * n + 1) * (INR (2 * n + 1) * x ^ Init.Nat.pred (2 * n + 1))).
    + apply dl_scal. apply derivable_pt_lim_pow.
    + replace (Init.Nat.pred (2 * n + 1)) with (2 * n)%nat by lia. field. assumption.
  - unfold F. rewrite !pow_add, !pow_1. replace ((- PI) ^ (2 * n)) with (PI ^ (2 * n)); [field; assumption|].
    rewrite !pow_mult. f_equal. ring.
Qed.
Lemma mean_pow4 : mean_of pi_range (fun x => x ^ 4) (PI ^ 4 / 5).
Proof. replace 5 with (INR 5) by (cbn; ring). exact (mean_pow 2). Qed.
Lemma mean_pow8 : mean_of pi_range (fun x => x ^ 8) (PI ^ 8 / 9).
Proof. replace 9 with (INR 9) by (cbn; ring). exact (mean_pow 4). Qed.

(** ** The function *)

Definition cube3 : box := [pi_range; pi_range; pi_range].
Definition ish (A B : R) (x : list R) : R := sin (nth 0 x 0) + A * sin (nth 1 x 0) ^ 2 + B * nth 2 x 0 ^ 4 * sin (nth 0 x 0).

Lemma proper_pi : forall n, proper (repeat pi_range n).
Proof. intros n. apply Forall_forall. intros i H. apply repeat_spec in H. subst. exact pi_lt. Qed.

Lemma inside3 : forall x, inside cube3 x -> exists u v w, x = [u; v; w].
Proof.
  intros x H. assert (L := inside_length _ _ H). destruct x as [|u [|v [|w [|? ?]]]]; try discriminate. exists u, v, w. reflexivity.
Qed.
Lemma inside2 : forall x, inside [pi_range; pi_range] x -> exists u v, x = [u; v].
Proof.
  intros x H. assert (L := inside_length _ _ H). destruct x as [|u [|v [|? ?]]]; try discriminate. exists u, v. reflexivity.
Qed.

(** Averages of products. *)
Lemma avg3 : forall f g h a b c, mean_of pi_range f a -> mean_of pi_range g b -> mean_of pi_range h c -> average cube3 (product [f; g; h]) (a * (b * (c * 1))).
Proof. intros. apply (average_product cube3 [f; g; h] [a; b; c]); [apply (proper_pi 3)|reflexivity|]. repeat constructor; assumption. Qed.
Lemma avg2 : forall f g a b, mean_of pi_range f a -> mean_of pi_range g b -> average [pi_range; pi_range] (product [f; g]) (a * (b * 1)).
Proof. intros. apply (average_product [pi_range; pi_range] [f; g] [a; b]); [apply (proper_pi 2)|reflexivity|]. repeat constructor; assumption. Qed.
Lemma avg1 : forall f a, mean_of pi_range f a -> average [pi_range] (fun l => f (hd 0 l)) a.
Proof. intros f a M. apply (average_one (- PI) PI f); [exact pi_lt|exact M]. Qed.

Definition m_w (B : R) : R := 1 + B * PI ^ 4 / 5.
Definition m_w2 (B : R) : R := 1 + 2 * B * PI ^ 4 / 5 + B ^ 2 * PI ^ 8 / 9.

Section Ish.
Variables A B : R.
Let one : R -> R := fun _ => 1.
Let s2 : R -> R := fun x => sin x ^ 2.
Let s4 : R -> R := fun x => sin x ^ 4.
Let p4 : R -> R := fun x => x ^ 4.
Let p8 : R -> R := fun x => x ^ 8.

Lemma mean_ish : average cube3 (ish A B) (A / 2).
Proof.
  apply (average_ext cube3 (fun x => (product [sin; one; one] x + A * product [one; s2; one] x) + B * product [sin; one; p4] x)); [apply (proper_pi 3)| |].
  - intros x I. destruct (inside3 x I) as (u & v & w & ->). unfold ish, one, s2, p4. cbn [product nth]. ring.
  - replace (A / 2) with ((0 * (1 * (1 * 1)) + A * (1 * (1 / 2 * (1 * 1)))) + B * (0 * (1 * (PI ^ 4 / 5 * 1)))) by field.
    apply average_lin; [apply (proper_pi 3)|apply average_lin; [apply (proper_pi 3)| |]|].
    + apply avg3; [exact mean_sin|exact mean_one|exact mean_one].
    + apply avg3; [exact mean_one|exact mean_sin2|exact mean_one].
    + apply avg3; [exact mean_sin|exact mean_one|exact mean_pow4].
Qed.

Lemma mean_ish2 : average cube3 (fun x => ish A B x ^ 2) (1 / 2 * m_w2 B + 3 / 8 * A ^ 2).
Proof.
  apply (average_ext cube3 (fun x => ((((product [s2; one; one] x + (2 * B) * product [s2; one; p4] x) + B ^ 2 * product [s2; one; p8] x)
      + (2 * A) * product [sin; s2; one] x) + (2 * A * B) * product [sin; s2; p4] x) + A ^ 2 * product [one; s4; one] x)); [apply (proper_pi 3)| |].
  - intros x I. destruct (inside3 x I) as (u & v & w & ->). unfold ish, one, s2, s4, p4, p8. cbn [product nth]. ring.
  - replace (1 / 2 * m_w2 B + 3 / 8 * A ^ 2) with
      (((((1 / 2 * (1 * (1 * 1)) + (2 * B) * (1 / 2 * (1 * (PI ^ 4 / 5 * 1)))) + B ^ 2 * (1 / 2 * (1 * (PI ^ 8 / 9 * 1))))
      + (2 * A) * (0 * (1 / 2 * (1 * 1)))) + (2 * A * B) * (0 * (1 / 2 * (PI ^ 4 / 5 * 1)))) + A ^ 2 * (1 * (3 / 8 * (1 * 1)))) by (unfold m_w2; field).
    repeat (apply average_lin; [apply (proper_pi 3)| |]); apply avg3;
      first [exact mean_one|exact mean_sin|exact mean_sin2|exact mean_sin4|exact mean_pow4|exact mean_pow8].
Qed.

Definition ish_var : R := 1 / 2 * m_w2 B + A ^ 2 / 8.
Lemma variance_ish : variance cube3 (ish A B) ish_var.
Proof.
  replace ish_var with ((1 / 2 * m_w2 B + 3 / 8 * A ^ 2) - (A / 2) ^ 2) by (unfold ish_var; field).
  apply variance_moments; [apply (proper_pi 3)|apply mean_ish|apply mean_ish2].
Qed.

(** Variance of [c + k f(x)] over one coordinate. *)
Lemma var1 : forall f a q c k, mean_of pi_range f a -> mean_of pi_range (fun x => f x ^ 2) q ->
  variance [pi_range] (fun l => c + k * f (hd 0 l)) (k ^ 2 * (q - a ^ 2)).
Proof.
  intros f a q c k M Q. assert (P := proper_pi 1). cbn [repeat] in P.
  replace (k ^ 2 * (q - a ^ 2)) with (((c ^ 2 + (2 * c * k) * a) + k ^ 2 * q) - (c + k * a) ^ 2) by ring.
  apply variance_moments; [assumption| |].
  - apply (average_lin _ (fun _ => c)); [assumption|apply average_const|apply avg1; assumption].
  - apply (average_ext _ (fun l => (c ^ 2 + (2 * c * k) * f (hd 0 l)) + k ^ 2 * f (hd 0 l) ^ 2)); [assumption|intros; ring|].
    apply average_lin; [assumption| |apply (avg1 (fun x => f x ^ 2)); assumption].
    apply (average_lin _ (fun _ => c ^ 2)); [assumption|apply average_const|apply avg1; assumption].
Qed.

Lemma sin2_sq : mean_of pi_range (fun x => (sin x ^ 2) ^ 2) (3 / 8).
Proof.
  apply (integral_ext (fun x => sin x ^ 4)); [left; exact pi_lt|intros; ring|exact mean_sin4].
Qed.
Lemma pow4_sq : mean_of pi_range (fun x => (x ^ 4) ^ 2) (PI ^ 8 / 9).
Proof.
  apply (integral_ext (fun x => x ^ 8)); [left; exact pi_lt|intros; ring|exact mean_pow8].
Qed.

Lemma first_0 : first_effect cube3 (ish A B) 0 (1 / 2 * m_w B ^ 2).
Proof.
  exists pi_range, (fun x => A / 2 + m_w B * sin x). split; [reflexivity|]. split.
  - intros x _. apply (average_ext [pi_range; pi_range] (fun xs => (sin x * product [one; one] xs + A * product [s2; one] xs) + (B * sin x) * product [one; p4] xs)).
    + apply (proper_pi 2).
    + intros xs I. destruct (inside2 xs I) as (u & v & ->). unfold ish, put_at, one, s2, p4. cbn [product nth firstn skipn app]. ring.
    + replace (A / 2 + m_w B * sin x) with ((sin x * (1 * (1 * 1)) + A * (1 / 2 * (1 * 1))) + (B * sin x) * (1 * (PI ^ 4 / 5 * 1))) by (unfold m_w; field).
      apply average_lin; [apply (proper_pi 2)|apply average_lin; [apply (proper_pi 2)| |]|].
      * apply average_scal; [apply (proper_pi 2)|]. apply avg2; exact mean_one.
      * apply avg2; [exact mean_sin2|exact mean_one].
      * apply avg2; [exact mean_one|exact mean_pow4].
  - replace (1 / 2 * m_w B ^ 2) with (m_w B ^ 2 * (1 / 2 - 0 ^ 2)) by field. apply var1; [exact mean_sin|exact mean_sin2].
Qed.

Lemma first_1 : first_effect cube3 (ish A B) 1 (A ^ 2 / 8).
Proof.
  exists pi_range, (fun x => 0 + A * sin x ^ 2). split; [reflexivity|]. split.
  - intros x _. apply (average_ext [pi_range; pi_range] (fun xs => (product [sin; one] xs + (A * sin x ^ 2) * product [one; one] xs) + B * product [sin; p4] xs)).
    + apply (proper_pi 2).
    + intros xs I. destruct (inside2 xs I) as (u & v & ->). unfold ish, put_at, one, s2, p4. cbn [product nth firstn skipn app]. ring.
    + replace (0 + A * sin x ^ 2) with ((0 * (1 * 1) + (A * sin x ^ 2) * (1 * (1 * 1))) + B * (0 * (PI ^ 4 / 5 * 1))) by field.
      apply average_lin; [apply (proper_pi 2)|apply average_lin; [apply (proper_pi 2)| |]|]; apply avg2;
        first [exact mean_one|exact mean_sin|exact mean_pow4].
  - replace (A ^ 2 / 8) with (A ^ 2 * (3 / 8 - (1 / 2) ^ 2)) by field. apply (var1 (fun x => sin x ^ 2)); [exact mean_sin2|exact sin2_sq].
Qed.

Lemma first_2 : first_effect cube3 (ish A B) 2 0.
Proof.
  exists pi_range, (fun x => A / 2 + 0 * sin x). split; [reflexivity|]. split.
  - intros x _. apply (average_ext [pi_range; pi_range] (fun xs => (product [sin; one] xs + A * product [one; s2] xs) + (B * x ^ 4) * product [sin; one] xs)).
    + apply (proper_pi 2).
    + intros xs I. destruct (inside2 xs I) as (u & v & ->). unfold ish, put_at, one, s2, p4. cbn [product nth firstn skipn app]. ring.
    + replace (A / 2 + 0 * sin x) with ((0 * (1 * 1) + A * (1 * (1 / 2 * 1))) + (B * x ^ 4) * (0 * (1 * 1))) by field.
      apply average_lin; [apply (proper_pi 2)|apply average_lin; [apply (proper_pi 2)| |]|]; apply avg2;
        first [exact mean_one|exact mean_sin|exact mean_sin2].
  - assert (V := var1 sin 0 (1 / 2) (A / 2) 0 mean_sin mean_sin2).
    assert (E : 0 ^ 2 * (1 / 2 - 0 ^ 2) = 0) by field. rewrite E in V. exact V.
Qed.

Lemma total_0 : total_effect cube3 (ish A B) 0 (1 / 2 * m_w2 B).
Proof.
  exists pi_range, (fun xs => (1 + B * nth 1 xs 0 ^ 4) ^ 2 * (1 / 2 - 0 ^ 2)). split; [reflexivity|]. split.
  - intros xs I. apply (variance_ext [pi_range] (fun l => A * sin (nth 0 xs 0) ^ 2 + (1 + B * nth 1 xs 0 ^ 4) * sin (hd 0 l))); [apply (proper_pi 1)| |].
    + intros l _. destruct (inside2 xs I) as (u & v & ->). unfold ish, put_at. cbn [nth firstn skipn app]. ring.
    + apply var1; [exact mean_sin|exact mean_sin2].
  - apply (average_ext [pi_range; pi_range] (fun xs => (1 / 2 * product [one; one] xs + B * product [one; p4] xs) + (B ^ 2 / 2) * product [one; p8] xs)).
    + apply (proper_pi 2).
    + intros xs I. destruct (inside2 xs I) as (u & v & ->). unfold one, p4, p8. cbn [product nth]. field.
    + replace (1 / 2 * m_w2 B) with ((1 / 2 * (1 * (1 * 1)) + B * (1 * (PI ^ 4 / 5 * 1))) + (B ^ 2 / 2) * (1 * (PI ^ 8 / 9 * 1))) by (unfold m_w2; field).
      apply average_lin; [apply (proper_pi 2)|apply average_lin; [apply (proper_pi 2)| |]|].
      * apply average_scal; [apply (proper_pi 2)|]. apply avg2; exact mean_one.
      * apply avg2; [exact mean_one|exact mean_pow4].
      * apply avg2; [exact mean_one|exact mean_pow8].
Qed.

Lemma total_1 : total_effect cube3 (ish A B) 1 (A ^ 2 / 8).
Proof.
  exists pi_range, (fun xs => A ^ 2 * (3 / 8 - (1 / 2) ^ 2)). split; [reflexivity|]. split.
  - intros xs I. apply (variance_ext [pi_range] (fun l => (sin (nth 0 xs 0) + B * nth 1 xs 0 ^ 4 * sin (nth 0 xs 0)) + A * sin (hd 0 l) ^ 2)); [apply (proper_pi 1)| |].
    + intros l _. destruct (inside2 xs I) as (u & v & ->). unfold ish, put_at. cbn [nth firstn skipn app]. ring.
    + apply (var1 (fun x => sin x ^ 2)); [exact mean_sin2|exact sin2_sq].
  - replace (A ^ 2 / 8) with (A ^ 2 * (3 / 8 - (1 / 2) ^ 2)) by field. apply average_const.
Qed.

Lemma total_2 : total_effect cube3 (ish A B) 2 (8 * B ^ 2 * PI ^ 8 / 225).
Proof.
  exists pi_range, (fun xs => (B * sin (nth 0 xs 0)) ^ 2 * (PI ^ 8 / 9 - (PI ^ 4 / 5) ^ 2)). split; [reflexivity|]. split.
  - intros xs I. apply (variance_ext [pi_range] (fun l => (sin (nth 0 xs 0) + A * sin (nth 1 xs 0) ^ 2) + (B * sin (nth 0 xs 0)) * hd 0 l ^ 4)); [apply (proper_pi 1)| |].
    + intros l _. destruct (inside2 xs I) as (u & v & ->). unfold ish, put_at. cbn [nth firstn skipn app]. ring.
    + apply (var1 (fun x => x ^ 4)); [exact mean_pow4|exact pow4_sq].
  - apply (average_ext [pi_range; pi_range] (fun xs => (B ^ 2 * (PI ^ 8 / 9 - (PI ^ 4 / 5) ^ 2)) * product [s2; one] xs)).
    + apply (proper_pi 2).
    + intros xs I. destruct (inside2 xs I) as (u & v & ->). unfold one, s2. cbn [product nth]. ring.
    + replace (8 * B ^ 2 * PI ^ 8 / 225) with ((B ^ 2 * (PI ^ 8 / 9 - (PI ^ 4 / 5) ^ 2)) * (1 / 2 * (1 * 1))) by field.
      apply average_scal; [apply (proper_pi 2)|]. apply avg2; [exact mean_sin2|exact mean_one].
Qed.
End Ish.
