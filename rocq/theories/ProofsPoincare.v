(** * The Poincare-Wirtinger inequality on an interval. *)
From Coq Require Import Reals List Lia Lra Psatz.
From Coquelicot Require Import Coquelicot.
From Verif Require Import SpecIntegral ProofsIntegral.
Local Open Scope R_scope.

Lemma integral_ftc : forall F f a b, a <= b -> (forall x, a <= x <= b -> derivable_pt_lim F x (f x)) -> (forall x, a <= x <= b -> continuity_pt f x) ->
  integral f a b (F b - F a).
Proof.
  intros F f a b L D C. assert (I : is_RInt f a b (minus (F b) (F a))).
  { apply (is_RInt_derive F f a b); rewrite Rmin_left, Rmax_right by auto; intros x Hx.
    - apply is_derive_Reals. auto.
    - apply continuity_pt_filterlim. apply C. auto. }
  assert (E : ex_RInt f a b) by (eexists; exact I).
  exists (ex_RInt_Reals_0 f a b E). rewrite <- RInt_Reals. rewrite (is_RInt_unique f a b _ I). reflexivity.
Qed.

Lemma integral_continuous : forall f a b, a <= b -> (forall x, a <= x <= b -> continuity_pt f x) -> exists v, integral f a b v.
Proof. intros f a b L C. exists (RiemannInt (continuity_implies_RiemannInt L C)), (continuity_implies_RiemannInt L C). reflexivity. Qed.

Lemma cont_mult : forall f g x, continuity_pt f x -> continuity_pt g x -> continuity_pt (fun x => f x * g x) x.
Proof. intros f g x F G. exact (continuity_pt_mult f g x F G). Qed.
Lemma cont_plus : forall f g x, continuity_pt f x -> continuity_pt g x -> continuity_pt (fun x => f x + g x) x.
Proof. intros f g x F G. exact (continuity_pt_plus f g x F G). Qed.
Lemma cont_const : forall c x, continuity_pt (fun _ => c) x.
Proof. intros c x. apply continuity_pt_const. intros u v. reflexivity. Qed.
Lemma cont_inv : forall f x, continuity_pt f x -> f x <> 0 -> continuity_pt (fun x => / f x) x.
Proof. intros f x F N. exact (continuity_pt_inv f x F N). Qed.
Lemma cont_of_derivable : forall f x l, derivable_pt_lim f x l -> continuity_pt f x.
Proof. intros f x l D. apply derivable_continuous_pt. exists l. exact D. Qed.

Lemma line_derivable : forall k t x, derivable_pt_lim (fun x => k * x + t) x k.
Proof.
  intros k t x.
  pose proof (derivable_pt_lim_plus (fun x => k * x) (fun _ => t) x (k * 1) 0 (derivable_pt_lim_scal id k x 1 (derivable_pt_lim_id x)) (derivable_pt_lim_const t x)) as P.
  rewrite Rmult_1_r, Rplus_0_r in P. exact P.
Qed.
Lemma cos_derivable : forall k t x, derivable_pt_lim (fun x => cos (k * x + t)) x (- sin (k * x + t) * k).
Proof. intros. apply (derivable_pt_lim_comp (fun x => k * x + t) cos); [apply line_derivable|apply derivable_pt_lim_cos]. Qed.
Lemma sin_derivable : forall k t x, derivable_pt_lim (fun x => sin (k * x + t)) x (cos (k * x + t) * k).
Proof. intros. apply (derivable_pt_lim_comp (fun x => k * x + t) sin); [apply line_derivable|apply derivable_pt_lim_sin]. Qed.

Section Core.
Variables a b : R.
Hypothesis L : a <= b.
Variables h h' : R -> R.
Hypothesis D : forall x, a <= x <= b -> derivable_pt_lim h x (h' x).
Hypothesis C : forall x, a <= x <= b -> continuity_pt h' x.
Variables A B : R.
Hypothesis IA : integral (fun x => h x ^ 2) a b A.
Hypothesis IB : integral (fun x => h' x ^ 2) a b B.

Lemma wirtinger_core : forall k t, (forall x, a <= x <= b -> sin (k * x + t) <> 0) ->
  cos (k * a + t) * h a = 0 -> cos (k * b + t) * h b = 0 -> k ^ 2 * A <= B.
Proof.
  intros k t N Ea Eb.
  set (c := fun x => cos (k * x + t) * / sin (k * x + t)).
  set (F := fun x => k * (c x * (h x * h x))).
  set (f := fun x => k * ((- k * (1 + c x * c x)) * (h x * h x) + c x * (2 * (h x * h' x)))).
  assert (CC : forall x, a <= x <= b -> continuity_pt c x).
  { intros x Hx. apply cont_mult; [eapply cont_of_derivable, cos_derivable|]. apply cont_inv; [eapply cont_of_derivable, sin_derivable|auto]. }
  assert (CH : forall x, a <= x <= b -> continuity_pt h x) by (intros x Hx; eapply cont_of_derivable, D; auto).
  assert (I : integral f a b (F b - F a)).
  { apply integral_ftc; auto.
    - intros x Hx. unfold F, f. apply (derivable_pt_lim_scal (fun x => c x * (h x * h x))).
      assert (DC : derivable_pt_lim c x (- k * (1 + c x * c x))).
      { unfold c. replace (- k * (1 + cos (k * x + t) * / sin (k * x + t) * (cos (k * x + t) * / sin (k * x + t))))
          with ((- sin (k * x + t) * k * sin (k * x + t) - cos (k * x + t) * k * cos (k * x + t)) / Rsqr (sin (k * x + t))).
        - apply (derivable_pt_lim_div (fun x => cos (k * x + t)) (fun x => sin (k * x + t))); [apply cos_derivable|apply sin_derivable|auto].
        - unfold Rsqr. field. auto. }
      assert (DH : derivable_pt_lim (fun x => h x * h x) x (2 * (h x * h' x))).
      { replace (2 * (h x * h' x)) with (h' x * h x + h x * h' x) by ring. apply (derivable_pt_lim_mult h h); auto. }
      apply (derivable_pt_lim_mult c (fun x => h x * h x)); auto.
    - intros x Hx. unfold f. apply cont_mult; [apply cont_const|]. apply cont_plus.
      + apply cont_mult; [|apply cont_mult; auto]. apply cont_mult; [apply cont_const|]. apply cont_plus; [apply cont_const|]. apply cont_mult; auto.
      + apply cont_mult; auto. apply cont_mult; [apply cont_const|]. apply cont_mult; auto. }
  assert (Fb : F b = 0).
  { unfold F, c. replace (k * (cos (k * b + t) * / sin (k * b + t) * (h b * h b))) with (k * (cos (k * b + t) * h b) * (/ sin (k * b + t) * h b)) by ring. rewrite Eb. ring. }
  assert (Fa : F a = 0).
  { unfold F, c. replace (k * (cos (k * a + t) * / sin (k * a + t) * (h a * h a))) with (k * (cos (k * a + t) * h a) * (/ sin (k * a + t) * h a)) by ring. rewrite Ea. ring. }
  rewrite Fa, Fb in I.
  pose proof (integral_lin _ _ a b (- (k ^ 2)) B A IB IA) as I1.
  pose proof (integral_lin _ _ a b (-1) _ _ I1 I) as I2.
  apply (integral_nonneg _ a b _ L) in I2; [lra|]. intros x Hx. cbv beta. unfold f.
  replace (h' x ^ 2 + - k ^ 2 * h x ^ 2 + -1 * (k * (- k * (1 + c x * c x) * (h x * h x) + c x * (2 * (h x * h' x))))) with ((h' x - k * c x * h x) ^ 2) by ring.
  apply pow2_ge_0.
Qed.
End Core.

(** From all smaller constants to the constant itself. *)
Lemma square_limit : forall K A B, 0 < K -> 0 <= A -> 0 <= B -> (forall k, 0 < k < K -> k ^ 2 * A <= B) -> K ^ 2 * A <= B.
Proof.
  intros K A B HK HA HB H. destruct (Rle_lt_dec (K ^ 2 * A) B) as [|N]; auto. exfalso.
  assert (HA' : 0 < A). { destruct HA as [|<-]; auto. lra. }
  set (q := sqrt (B / A)). assert (Q0 : 0 <= q) by apply sqrt_pos.
  assert (QQ : q ^ 2 * A = B).
  { unfold q. replace (sqrt (B / A) ^ 2) with (Rsqr (sqrt (B / A))) by (unfold Rsqr; ring). rewrite Rsqr_sqrt; [field; lra|]. apply Rmult_le_pos; auto. left. apply Rinv_0_lt_compat. auto. }
  assert (QK : q < K). { apply Rnot_le_lt. intros G. assert (K ^ 2 <= q ^ 2) by (apply pow_incr; lra). assert (K ^ 2 * A <= q ^ 2 * A) by (apply Rmult_le_compat_r; lra). lra. }
  specialize (H ((q + K) / 2) ltac:(lra)).
  assert (q ^ 2 * A < ((q + K) / 2) ^ 2 * A). { apply Rmult_lt_compat_r; auto. simpl. nra. }
  lra.
Qed.

Section Halves.
Variables a b : R.
Hypothesis L : a < b.
Variables h h' : R -> R.
Hypothesis D : forall x, a <= x <= b -> derivable_pt_lim h x (h' x).
Hypothesis C : forall x, a <= x <= b -> continuity_pt h' x.
Variables A B : R.
Hypothesis IA : integral (fun x => h x ^ 2) a b A.
Hypothesis IB : integral (fun x => h' x ^ 2) a b B.

Lemma wirtinger_end : h a = 0 \/ h b = 0 -> (PI / (2 * (b - a))) ^ 2 * A <= B.
Proof.
  intros E. assert (L' : a <= b) by lra. pose proof PI_RGT_0 as PP.
  apply square_limit.
  - apply Rdiv_lt_0_compat; lra.
  - apply (integral_nonneg _ a b _ L') in IA; auto. intros. apply pow2_ge_0.
  - apply (integral_nonneg _ a b _ L') in IB; auto. intros. apply pow2_ge_0.
  - intros k (K0 & K1).
    assert (KL : k * (b - a) < PI / 2).
    { apply (Rmult_lt_compat_r (b - a)) in K1; [|lra]. replace (PI / (2 * (b - a)) * (b - a)) with (PI / 2) in K1 by (field; lra). auto. }
    destruct E as [E|E].
    + apply (wirtinger_core a b L' h h' D C A B IA IB k (PI / 2 - k * b)).
      * intros x Hx. assert (0 < sin (k * x + (PI / 2 - k * b))); [|lra]. apply sin_gt_0; nra.
      * rewrite E. ring.
      * replace (k * b + (PI / 2 - k * b)) with (PI / 2) by ring. rewrite cos_PI2. ring.
    + apply (wirtinger_core a b L' h h' D C A B IA IB k (PI / 2 - k * a)).
      * intros x Hx. assert (0 < sin (k * x + (PI / 2 - k * a))); [|lra]. apply sin_gt_0; nra.
      * replace (k * a + (PI / 2 - k * a)) with (PI / 2) by ring. rewrite cos_PI2. ring.
      * rewrite E. ring.
Qed.
End Halves.

(** The variance of a function on an interval and the mean square of its slope. *)
Lemma poincare : forall a b f f' m v w, a < b ->
  (forall x, a <= x <= b -> derivable_pt_lim f x (f' x)) -> (forall x, a <= x <= b -> continuity_pt f' x) ->
  integral f a b (m * (b - a)) -> integral (fun x => (f x - m) ^ 2) a b (v * (b - a)) -> integral (fun x => f' x ^ 2) a b (w * (b - a)) ->
  v <= w * (b - a) ^ 2 / PI ^ 2.
Proof.
  intros a b f f' m v w L D C IM IV IW. pose proof PI_RGT_0 as PP.
  set (c := (a + b) / 2). set (h := fun x => f x - f c).
  assert (DH : forall x, a <= x <= b -> derivable_pt_lim h x (f' x)).
  { intros x Hx. unfold h. replace (f' x) with (f' x - 0) by ring. apply (derivable_pt_lim_minus f (fun _ => f c)); [auto|apply derivable_pt_lim_const]. }
  assert (CH : forall x, a <= x <= b -> continuity_pt (fun x => h x ^ 2) x).
  { intros x Hx. assert (CX : continuity_pt h x) by (eapply cont_of_derivable; eauto). simpl. apply cont_mult; auto. apply cont_mult; auto. apply cont_const. }
  assert (CF : forall x, a <= x <= b -> continuity_pt (fun x => f' x ^ 2) x).
  { intros x Hx. simpl. apply cont_mult; auto. apply cont_mult; auto. apply cont_const. }
  destruct (integral_continuous (fun x => h x ^ 2) a c) as (A1 & IA1); [unfold c; lra|intros x Hx; apply CH; unfold c in Hx; lra|].
  destruct (integral_continuous (fun x => h x ^ 2) c b) as (A2 & IA2); [unfold c; lra|intros x Hx; apply CH; unfold c in Hx; lra|].
  destruct (integral_continuous (fun x => f' x ^ 2) a c) as (B1 & IB1); [unfold c; lra|intros x Hx; apply CF; unfold c in Hx; lra|].
  destruct (integral_continuous (fun x => f' x ^ 2) c b) as (B2 & IB2); [unfold c; lra|intros x Hx; apply CF; unfold c in Hx; lra|].
  assert (EB : w * (b - a) = B1 + B2) by (eapply integral_unique; [exact IW|eapply integral_chasles; eauto]).
  pose proof (integral_chasles _ a c b A1 A2 IA1 IA2) as IA.
  assert (HC : h c = 0) by (unfold h; ring).
  assert (W1 : (PI / (2 * (c - a))) ^ 2 * A1 <= B1).
  { apply (wirtinger_end a c ltac:(unfold c; lra) h f'); auto; intros x Hx; [apply DH|apply C]; unfold c in Hx; lra. }
  assert (W2 : (PI / (2 * (b - c))) ^ 2 * A2 <= B2).
  { apply (wirtinger_end c b ltac:(unfold c; lra) h f'); auto; intros x Hx; [apply DH|apply C]; unfold c in Hx; lra. }
  replace (2 * (c - a)) with (b - a) in W1 by (unfold c; field). replace (2 * (b - c)) with (b - a) in W2 by (unfold c; field).
  assert (EA : A1 + A2 = v * (b - a) + (m - f c) ^ 2 * (b - a)).
  { eapply integral_unique; [exact IA|].
    apply (integral_ext (fun x => ((f x - m) ^ 2 + (2 * (m - f c)) * f x) + 1 * ((m - f c) ^ 2 - 2 * (m - f c) * m))); [lra|intros; unfold h; ring|].
    replace (v * (b - a) + (m - f c) ^ 2 * (b - a)) with ((v * (b - a) + 2 * (m - f c) * (m * (b - a))) + 1 * (((m - f c) ^ 2 - 2 * (m - f c) * m) * (b - a))) by ring.
    apply integral_lin; [apply integral_lin; auto|]. apply integral_const. }
  assert (P2 : 0 <= (m - f c) ^ 2 * (b - a)) by (apply Rmult_le_pos; [apply pow2_ge_0|lra]).
  assert (T : (PI / (b - a)) ^ 2 * (v * (b - a)) <= w * (b - a)).
  { apply Rle_trans with ((PI / (b - a)) ^ 2 * (A1 + A2)); [apply Rmult_le_compat_l; [apply pow2_ge_0|lra]|lra]. }
  assert (P1 : 0 < PI ^ 2) by (apply pow_lt; auto).
  apply (Rmult_le_reg_l (PI ^ 2)); auto. replace (PI ^ 2 * (w * (b - a) ^ 2 / PI ^ 2)) with (w * (b - a) * (b - a)) by (field; lra).
  apply (Rmult_le_compat_r (b - a)) in T; [|lra]. replace ((PI / (b - a)) ^ 2 * (v * (b - a)) * (b - a)) with (PI ^ 2 * v) in T by (field; lra). auto.
Qed.
