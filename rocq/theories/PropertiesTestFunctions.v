(** * Properties of the test functions. *)
From Coq Require Import Reals String List Arith Lra Lia Bool.
From Verif Require Import Base Arrays ModelScale Stats Sums ModelMorrisAnalyze ModelTestFunctions SpecIntegral ProofsIntegral ProofsScale
  ProofsTestFunctions ProofsTestFunctions2 ProofsPi ProofsTestFunctions3.
Import ListNotations.
Local Open Scope R_scope.

(** C60.  For every coefficient vector without -1 and every positive curvature vector: the analytic indices are finite, each first-order
    index is positive and at most the total-order index, which is at most 1; first-order indices add up to at most 1, total-order indices to at
    least 1. *)
Theorem C60_indices : forall a alpha, a <> [] -> legal a (alpha_of a alpha) ->
  exists s t, sensitivity_index a alpha = Ok (map Some s) /\ total_sensitivity_index a alpha = Ok (map Some t)
    /\ length s = length a /\ Forall2 (fun x y => 0 < x /\ x <= y /\ y <= 1) s t /\ Rsum s <= 1 <= Rsum t.
Proof.
  intros a alpha E L. set (al := alpha_of a alpha) in *.
  exists (map (first_index a al) (map2 pv a al)), (map (total_index a al) (map2 pv a al)).
  split; [rewrite map_map; apply sensitivity_value; assumption|].
  split; [rewrite map_map; apply total_sensitivity_value; assumption|].
  split; [rewrite map_length, length_map2; destruct L as (L & _); lia|].
  split; [|apply index_sums; assumption].
  assert (H : forall l, (forall v, In v l -> In v (map2 pv a al)) ->
    Forall2 (fun x y => 0 < x /\ x <= y /\ y <= 1) (map (first_index a al) l) (map (total_index a al) l)).
  { induction l as [|v l IH]; intros I; [constructor|]. cbn. constructor; [|apply IH; intros u U; apply I; right; assumption].
    destruct (In_nth_error _ _ (I v (or_introl eq_refl))) as (i & N). destruct (index_bounds a al i v L N) as (B1 & B2 & B3 & _). tauto. }
  apply H. auto.
Qed.
Print Assumptions C60_indices.

Example ex_legal : legal [0; 1; 9 / 2] (alpha_of [0; 1; 9 / 2] None) /\ legal [3; -2] [1 / 2; 2].
Proof. unfold legal. cbn. repeat split; repeat constructor; try lra. Qed.

(** C60.  They are the variance ratios of the function [evaluate] computes on the unit cube, for every shift vector as well. *)
Theorem C60_variance_ratios : forall a delta alpha, a <> [] -> fits a delta alpha ->
  exists f, (forall xs, Forall (inside (unit_box (length a))) xs -> g_evaluate xs (Some a) delta alpha = Ok (map (fun x => Some (f x)) xs))
    /\ exists v s t, 0 < v /\ variance (unit_box (length a)) f v
       /\ sensitivity_index a alpha = Ok (map Some s) /\ total_sensitivity_index a alpha = Ok (map Some t)
       /\ length s = length a /\ length t = length a
       /\ forall i, (i < length a)%nat -> first_effect (unit_box (length a)) f i (nth i s 0 * v) /\ total_effect (unit_box (length a)) f i (nth i t 0 * v).
Proof.
  intros a delta alpha E F. set (al := alpha_of a alpha) in *. set (d := deltas a delta) in *.
  assert (L : legal a al) by (split; [exact (f_al _ _ _ F)|split; [exact (f_al0 _ _ _ F)|exact (f_a _ _ _ F)]]).
  destruct (gs_moments a d al (f_d _ _ _ F) (f_al _ _ _ F) (f_d01 _ _ _ F) (f_al0 _ _ _ F) (f_a _ _ _ F)) as (M0 & M1 & M2).
  assert (P := unit_proper (length a)). assert (T := prod_gt1 a al L E).
  exists (product (gs_of a d al)). split; [intros xs X; apply g_evaluate_value; assumption|].
  exists (prod (qs_of a al) - 1), (map (first_index a al) (map2 pv a al)), (map (total_index a al) (map2 pv a al)).
  split; [lra|]. split; [apply product_variance; assumption|].
  split; [rewrite map_map; apply sensitivity_value; assumption|].
  split; [rewrite map_map; apply total_sensitivity_value; assumption|].
  assert (N : length (map2 pv a al) = length a) by (rewrite length_map2; destruct L as (L & _); lia).
  split; [rewrite map_length; assumption|]. split; [rewrite map_length; assumption|].
  intros i I. destruct (nth_error (map2 pv a al) i) as [v|] eqn:V; [|apply nth_error_None in V; lia].
  assert (Q := qs_nth a al i v V). assert (B : (i < length (unit_box (length a)))%nat) by (unfold unit_box; rewrite repeat_length; assumption).
  rewrite (nth_error_nth (map (first_index a al) (map2 pv a al)) i 0 (x := first_index a al v)) by (rewrite nth_error_map, V; reflexivity).
  rewrite (nth_error_nth (map (total_index a al) (map2 pv a al)) i 0 (x := total_index a al v)) by (rewrite nth_error_map, V; reflexivity).
  split.
  - replace (first_index a al v * (prod (qs_of a al) - 1)) with (1 + v - 1) by (unfold first_index; field; lra).
    apply (product_first _ _ (qs_of a al)); assumption.
  - destruct (index_bounds a al i v L V) as (_ & _ & _ & W). rewrite W.
    replace (v * prod (without_at i (qs_of a al)) / (prod (qs_of a al) - 1) * (prod (qs_of a al) - 1))
      with ((1 + v - 1) * prod (without_at i (qs_of a al))) by (field; lra).
    apply (product_total _ _ (qs_of a al)); assumption.
Qed.
Print Assumptions C60_variance_ratios.

Example ex_fits : fits [0; 1; 9 / 2] (Some [0; 1 / 4; 1]) (Some [1; 1 / 2; 3]).
Proof. constructor; cbn; repeat constructor; lra. Qed.

(** C60.  The variance and the effects of a function on a box are determined by it, so the ratios above are the only ones. *)
Theorem C60_effects_unique : forall b f g i v w, proper b -> (forall x, inside b x -> f x = g x) ->
  (variance b f v -> variance b g w -> v = w) /\ (first_effect b f i v -> first_effect b g i w -> v = w)
  /\ (total_effect b f i v -> total_effect b g i w -> v = w).
Proof.
  intros b f g i v w P E. split; [|split]; intros V W.
  - apply (variance_unique b g); [assumption| |assumption]. apply (variance_ext b f); assumption.
  - apply (first_effect_unique b g i); [assumption| |assumption]. apply (first_effect_ext b f); assumption.
  - apply (total_effect_unique b g i); [assumption| |assumption]. apply (total_effect_ext b f); assumption.
Qed.
Print Assumptions C60_effects_unique.

(** C60.  [evaluate] accepts given arrays exactly when shifts are in [0, 1], curvatures positive and values in [0, 1]; otherwise ValueError. *)
Theorem C60_domain : forall xs a d al, length d = length a -> length al = length a -> Forall (fun x => length x = length a) xs ->
  Forall (fun v => 1 + v <> 0) a ->
  (Forall (fun v => 0 <= v <= 1) d /\ Forall (fun v => 0 < v) al /\ Forall (Forall (fun v => 0 <= v <= 1)) xs
     -> exists ys, g_evaluate xs (Some a) (Some d) (Some al) = Ok (map Some ys) /\ length ys = length xs)
  /\ (~ (Forall (fun v => 0 <= v <= 1) d /\ Forall (fun v => 0 < v) al /\ Forall (Forall (fun v => 0 <= v <= 1)) xs)
     -> g_evaluate xs (Some a) (Some d) (Some al) = Err ValueError).
Proof.
  intros xs a d al D L X N. split.
  - intros (H1 & H2 & H3). assert (F : fits a (Some d) (Some al)) by (constructor; assumption).
    exists (map (product (gs_of a d al)) xs). split; [|apply map_length].
    rewrite map_map. apply (g_evaluate_value a (Some d) (Some al)); [assumption|].
    rewrite Forall_forall in *. intros x I. apply unit_inside. split; [auto|]. apply H3. assumption.
  - intros H. unfold g_evaluate.
    destruct (existsb (fun x => Rltb x 0 || Rltb 1 x) d) eqn:E1; [reflexivity|]. cbn [bind].
    destruct (existsb (fun x => negb (Rltb 0 x)) al) eqn:E2; [reflexivity|]. cbn [bind].
    destruct (existsb (existsb (fun x => Rltb x 0)) xs) eqn:E3; [reflexivity|].
    destruct (existsb (existsb (fun x => Rltb 1 x)) xs) eqn:E4; [reflexivity|].
    exfalso. apply H. apply (existsb_Forall_iff _ _ _ _ range_iff) in E1. apply (existsb_Forall_iff _ _ _ _ positive_iff) in E2.
    split; [assumption|]. split; [assumption|].
    assert (E3' : Forall (Forall (fun v => 0 <= v)) xs).
    { revert E3. apply existsb_Forall_iff. intros x. apply existsb_Forall_iff. intros v. apply Rltb_false. }
    assert (E4' : Forall (Forall (fun v => v <= 1)) xs).
    { revert E4. apply existsb_Forall_iff. intros x. apply existsb_Forall_iff. intros v. apply Rltb_false. }
    rewrite Forall_forall in *. intros x I. specialize (E3' x I). specialize (E4' x I). rewrite Forall_forall in *. intros v V. split; auto.
Qed.
Print Assumptions C60_domain.

(** C73.  C60 needs the curvatures to be positive, which the analytic functions do not check: here the first-order indices add up to 2. *)
Theorem C73_curvature_refuted : exists a alpha s, sensitivity_index a alpha = Ok (map Some s) /\ Rsum s = 2.
Proof.
  exists [0; 0], (Some [-1; -1]), [1; 1]. split; [|cbn; lra].
  unfold sensitivity_index, total_variance, partial_variance. cbn [alpha_of]. rewrite elementwise_eq by reflexivity. cbn [bind map2 map].
  rewrite fdiv_ok by lra. cbn. unfold fdiv. replace (Reqb _ 0) with false by (symmetry; apply Reqb_false; lra).
  repeat (f_equal; try field; try lra).
Qed.
Print Assumptions C73_curvature_refuted.

(** C74.  The first-order index that the file quotes for the first of the eight default coefficients is 0.7165; the formula gives 0.7162. *)
Theorem C74_quoted_refuted : exists s, nth_error (match sensitivity_index default_a None with Ok l => l | Err _ => [] end) 0 = Some (Some s)
  /\ 71615 / 100000 < s < 71625 / 100000.
Proof.
  assert (L : legal default_a (alpha_of default_a None)).
  { unfold legal, default_a. cbn. repeat split; repeat constructor; lra. }
  rewrite sensitivity_value; [|assumption|discriminate]. exists (first_index default_a (alpha_of default_a None) (pv 0 1)). split; [reflexivity|].
  unfold first_index, pv, qs_of, default_a. cbn. unfold pv.
  match goal with |- _ < ?n / ?d < _ => replace n with (1 / 3) by field; assert (D : 46542 / 100000 < d < 46543 / 100000) end.
  - split; field_simplify; lra.
  - revert D. match goal with |- _ < ?d < _ -> _ => generalize d end. intros d D. split.
    + apply Rmult_lt_reg_r with d; [lra|]. replace (1 / 3 / d * d) with (1 / 3) by (field; lra). lra.
    + apply Rmult_lt_reg_r with d; [lra|]. replace (1 / 3 / d * d) with (1 / 3) by (field; lra). lra.
Qed.
Print Assumptions C74_quoted_refuted.

(** ** Ishigami *)

(** C75.  With one row per point of [-pi, pi]^3 the outputs are the values of one function whose variance and effects are these. *)
Theorem C75_effects : forall A B, exists f, (forall xs, Forall (inside (repeat (- PI, PI) 3)) xs -> ishigami A B (mkMat 3 xs) = Ok (map f xs))
  /\ variance (repeat (- PI, PI) 3) f (1 / 2 + B * PI ^ 4 / 5 + B ^ 2 * PI ^ 8 / 18 + A ^ 2 / 8)
  /\ first_effect (repeat (- PI, PI) 3) f 0 (1 / 2 * (1 + B * PI ^ 4 / 5) ^ 2)
  /\ first_effect (repeat (- PI, PI) 3) f 1 (A ^ 2 / 8)
  /\ first_effect (repeat (- PI, PI) 3) f 2 0
  /\ total_effect (repeat (- PI, PI) 3) f 0 (1 / 2 + B * PI ^ 4 / 5 + B ^ 2 * PI ^ 8 / 18)
  /\ total_effect (repeat (- PI, PI) 3) f 1 (A ^ 2 / 8)
  /\ total_effect (repeat (- PI, PI) 3) f 2 (8 * B ^ 2 * PI ^ 8 / 225).
Proof.
  intros A B. exists (ish A B). split; [intros xs _; reflexivity|].
  change (repeat (- PI, PI) 3) with cube3.
  split; [|split; [|split; [|split; [|split; [|split]]]]].
  - replace (1 / 2 + B * PI ^ 4 / 5 + B ^ 2 * PI ^ 8 / 18 + A ^ 2 / 8) with (ish_var A B) by (unfold ish_var, m_w2; field). apply variance_ish.
  - apply first_0.
  - apply first_1.
  - apply first_2.
  - replace (1 / 2 + B * PI ^ 4 / 5 + B ^ 2 * PI ^ 8 / 18) with (1 / 2 * m_w2 B) by (unfold m_w2; field). apply total_0.
  - apply total_1.
  - apply total_2.
Qed.
Print Assumptions C75_effects.

(** C75.  At A = 7, B = 0.1 the first-order indices, to four places, are the quoted 0.3139, 0.4424 and 0. *)
Theorem C75_quoted : exists f v s, (forall xs, Forall (inside (repeat (- PI, PI) 3)) xs -> ishigami 7 (1 / 10) (mkMat 3 xs) = Ok (map f xs))
  /\ variance (repeat (- PI, PI) 3) f v /\ 0 < v /\ length s = 3%nat
  /\ (forall i, (i < 3)%nat -> first_effect (repeat (- PI, PI) 3) f i (nth i s 0 * v))
  /\ Rabs (nth 0 s 0 - 3139 / 10000) < 5 / 100000 /\ Rabs (nth 1 s 0 - 4424 / 10000) < 5 / 100000 /\ nth 2 s 0 = 0.
Proof.
  destruct (C75_effects 7 (1 / 10)) as (f & E & V & F0 & F1 & F2 & _).
  remember (1 / 2 + 1 / 10 * PI ^ 4 / 5 + (1 / 10) ^ 2 * PI ^ 8 / 18 + 7 ^ 2 / 8) as v eqn:Hv.
  destruct pi_bounds as (L & U).
  assert (P2 : 986958 / 100000 < PI ^ 2 < 986966 / 100000) by (cbn; split; nra).
  assert (P4 : 974086 / 10000 < PI ^ 4 < 974103 / 10000).
  { replace (PI ^ 4) with (PI ^ 2 * PI ^ 2) by ring. split; nra. }
  assert (P8 : 94884 / 10 < PI ^ 8 < 94888 / 10).
  { replace (PI ^ 8) with (PI ^ 4 * PI ^ 4) by ring. split; nra. }
  assert (Bv : 138445 / 10000 < v < 138448 / 10000) by (rewrite Hv; split; lra).
  remember (1 / 2 * (1 + 1 / 10 * PI ^ 4 / 5) ^ 2) as n eqn:Hn.
  assert (Bn : 43458 / 10000 < n < 434598 / 100000) by (rewrite Hn; split; nra).
  exists f, v, [n / v; (7 ^ 2 / 8) / v; 0]. split; [assumption|]. split; [assumption|]. split; [lra|]. split; [reflexivity|]. split; [|split; [|split]].
  - intros i I. destruct i as [|[|[|i]]]; [| | |lia]; cbn [nth].
    + replace (n / v * v) with n by (field; lra). assumption.
    + replace (7 ^ 2 / 8 / v * v) with (7 ^ 2 / 8) by (field; lra). assumption.
    + replace (0 * v) with 0 by ring. assumption.
  - cbn [nth]. replace (n / v - 3139 / 10000) with ((n - 3139 / 10000 * v) / v) by (field; lra).
    unfold Rdiv at 1. rewrite Rabs_mult, (Rabs_right (/ v)) by (left; apply Rinv_0_lt_compat; lra).
    apply Rmult_lt_reg_r with v; [lra|]. rewrite Rmult_assoc, Rinv_l, Rmult_1_r by lra. apply Rabs_def1; lra.
  - cbn [nth]. replace (7 ^ 2 / 8 / v - 4424 / 10000) with ((7 ^ 2 / 8 - 4424 / 10000 * v) / v) by (field; lra).
    unfold Rdiv at 1. rewrite Rabs_mult, (Rabs_right (/ v)) by (left; apply Rinv_0_lt_compat; lra).
    apply Rmult_lt_reg_r with v; [lra|]. rewrite Rmult_assoc, Rinv_l, Rmult_1_r by lra. apply Rabs_def1; lra.
  - reflexivity.
Qed.
Print Assumptions C75_quoted.

Example ex_ishigami : ishigami 7 (1 / 10) (mkMat 3 [[PI / 2; 0; 2]; [0; PI / 2; 1]]) = Ok [1 + 16 / 10; 7].
Proof.
  unfold ishigami. cbn [cols rows map nth Nat.ltb Nat.leb]. rewrite sin_PI2, sin_0. apply f_equal. repeat (f_equal; try field).
Qed.
