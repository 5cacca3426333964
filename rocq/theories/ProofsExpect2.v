(** * Expected values of the Sobol' estimators over independently drawn base points. *)
From Coq Require Import Reals String List Arith Bool Lia Lra.
From Verif Require Import Base Arrays ModelGroups ModelScale Stats ModelSobol SpecGroups SpecSobol SpecExpect ProofsExpect ProofsSobol.
Import ListNotations.
Local Open Scope R_scope.

(** ** Several points *)
Section Points.
Context {A : Type}.
Implicit Types (ds : list (@law A)).

Definition shaped (n : nat) ds (xs : list (list A)) : Prop := length xs = n /\ Forall (fun x => length x = length ds) xs.

Lemma points_ext : forall n ds g h, (forall xs, shaped n ds xs -> g xs = h xs) -> expect_points n ds g = expect_points n ds h.
Proof.
  induction n as [|n IH]; intros ds g h H; cbn [expect_points]; [apply H; split; [reflexivity|constructor]|].
  apply expect_ext. intros x L. apply IH. intros xs (L1 & L2). apply H. split; [cbn; congruence|constructor; assumption].
Qed.
Lemma points_plus : forall n ds g h, expect_points n ds (fun xs => g xs + h xs) = expect_points n ds g + expect_points n ds h.
Proof.
  induction n as [|n IH]; intros ds g h; cbn [expect_points]; [reflexivity|]. rewrite <- expect_plus. apply expect_ext. intros x _. apply IH.
Qed.
Lemma points_scal : forall n ds c g, expect_points n ds (fun xs => c * g xs) = c * expect_points n ds g.
Proof.
  induction n as [|n IH]; intros ds c g; cbn [expect_points]; [reflexivity|]. rewrite <- expect_scal. apply expect_ext. intros x _. apply IH.
Qed.
Lemma points_minus : forall n ds g h, expect_points n ds (fun xs => g xs - h xs) = expect_points n ds g - expect_points n ds h.
Proof.
  intros. rewrite (points_ext n ds _ (fun xs => g xs + (-1) * h xs)) by (intros; ring). rewrite points_plus, points_scal. ring.
Qed.
Lemma points_const : forall n ds c, Forall probability ds -> expect_points n ds (fun _ => c) = c.
Proof.
  induction n as [|n IH]; intros ds c P; cbn [expect_points]; [reflexivity|]. rewrite (expect_ext ds _ (fun _ => c)) by (intros; apply IH; assumption). apply expect_const. assumption.
Qed.
Lemma points_sum : forall n ds h, Forall probability ds -> expect_points n ds (fun xs => Rsum (map h xs)) = INR n * expect ds h.
Proof.
  induction n as [|n IH]; intros ds h P; cbn [expect_points]; [change (Rsum (map h [])) with 0; cbn [INR]; ring|].
  rewrite (expect_ext ds _ (fun x => h x + INR n * expect ds h)).
  - rewrite expect_plus, expect_const by assumption. rewrite S_INR. ring.
  - intros x _. rewrite <- IH by assumption. rewrite <- (points_const n ds (h x) P) at 1. rewrite <- points_plus. reflexivity.
Qed.
Lemma points_product : forall n ds s d, Forall probability ds -> expect_points n ds (fun xs => Rsum (map s xs) * Rsum (map d xs))
  = INR n * expect ds (fun x => s x * d x) + INR n * (INR n - 1) * (expect ds s * expect ds d).
Proof.
  induction n as [|n IH]; intros ds s d P; cbn [expect_points]; [change (Rsum (map s [])) with 0; cbn [INR]; ring|].
  rewrite (expect_ext ds _ (fun x => s x * d x + (INR n * expect ds d) * s x + (INR n * expect ds s) * d x
     + (INR n * expect ds (fun x => s x * d x) + INR n * (INR n - 1) * (expect ds s * expect ds d)))).
  - rewrite !expect_plus, !expect_scal, !expect_const by assumption. rewrite S_INR. ring.
  - intros x _.
    rewrite (points_ext n ds _ (fun xs => s x * d x + s x * Rsum (map d xs) + d x * Rsum (map s xs) + Rsum (map s xs) * Rsum (map d xs))).
    + rewrite !points_plus, !points_scal, points_const, !points_sum, IH by assumption. ring.
    + intros xs _. cbn [map]. change (Rsum (s x :: map s xs)) with (s x + Rsum (map s xs)). change (Rsum (d x :: map d xs)) with (d x + Rsum (map d xs)). ring.
Qed.
Lemma points_mean : forall n ds h, Forall probability ds -> (0 < n)%nat -> expect_points n ds (fun xs => mean (map h xs)) = expect ds h.
Proof.
  intros n ds h P N. rewrite (points_ext n ds _ (fun xs => / INR n * Rsum (map h xs))).
  - rewrite points_scal, points_sum by assumption. field. apply not_0_INR. lia.
  - intros xs (L & _). unfold mean. rewrite map_length, L. unfold Rdiv. ring.
Qed.
(** Centring by a sample mean that uses the same points. *)
Lemma points_centred : forall n ds h s d, Forall probability ds -> (0 < n)%nat -> expect ds d = 0 ->
  expect_points n ds (fun xs => mean (map (fun x => h x - mean (map s xs) * d x) xs)) = expect ds h - expect ds (fun x => s x * d x) / INR n.
Proof.
  intros n ds h s d P N Z. assert (n0 : INR n <> 0) by (apply not_0_INR; lia).
  rewrite (points_ext n ds _ (fun xs => mean (map h xs) - / INR n ^ 2 * (Rsum (map s xs) * Rsum (map d xs)))).
  - rewrite points_minus, points_mean, points_scal, points_product by assumption. rewrite Z. field. assumption.
  - intros xs (L & _). unfold mean. rewrite !map_length, L. rewrite Rsum_map_minus. rewrite (Rsum_map_scal _ d). field. assumption.
Qed.
(** The variance of the outputs at both halves of the points. *)
Lemma points_var : forall n ds g h, Forall probability ds -> (0 < n)%nat -> expect ds g = expect ds h ->
  expect ds (fun x => g x ^ 2) = expect ds (fun x => h x ^ 2) -> expect ds (fun x => g x * h x) = expect ds g * expect ds h ->
  expect_points n ds (fun xs => var (map g xs ++ map h xs)) = (1 - / (2 * INR n)) * (expect ds (fun x => g x ^ 2) - expect ds g ^ 2).
Proof.
  intros n ds g h P N E1 E2 E3. assert (n0 : INR n <> 0) by (apply not_0_INR; lia).
  rewrite (points_ext n ds _ (fun xs => / 2 * mean (map (fun x => g x ^ 2 + h x ^ 2) xs)
     - / (2 * INR n) ^ 2 * (Rsum (map (fun x => g x + h x) xs) * Rsum (map (fun x => g x + h x) xs)))).
  - rewrite points_minus, !points_scal, points_mean, points_product by assumption. rewrite !expect_plus.
    rewrite (expect_ext ds (fun x => (g x + h x) * (g x + h x)) (fun x => g x ^ 2 + h x ^ 2 + 2 * (g x * h x))) by (intros; ring).
    rewrite !expect_plus, expect_scal, E3, <- E2, <- E1. field. assumption.
  - intros xs (L & _). unfold var. set (m := mean (map g xs ++ map h xs)).
    assert (M : Rsum (map (fun x => g x + h x) xs) = 2 * INR n * m).
    { unfold m, mean. rewrite Rsum_app, Rsum_map_plus, app_length, !map_length, L, plus_INR. field. lra. }
    rewrite M. unfold mean. rewrite map_length, app_length, !map_length, map_app, !map_map, Rsum_app, L, plus_INR.
    assert (Q : forall k : list A -> R, Rsum (map (fun x => (k x - m) ^ 2) xs) = Rsum (map (fun x => k x ^ 2) xs) - 2 * m * Rsum (map k xs) + INR n * m ^ 2).
    { intros k. rewrite (Rsum_ext _ _ (fun x => k x ^ 2 - (2 * m * k x - m ^ 2))) by (intros; ring).
      rewrite Rsum_map_minus, (Rsum_map_minus _ (fun x => 2 * m * k x)), Rsum_map_scal, Rsum_const, L. ring. }
    rewrite !Q. rewrite Rsum_map_plus in M. rewrite Rsum_map_plus.
    replace (Rsum (map h xs)) with (2 * INR n * m - Rsum (map g xs)) by lra. field. split; [assumption|lra].
Qed.
End Points.

(** ** The design *)
Lemma map_nth_base : forall (A B : Type) (h : list A -> B) N (base : list (list A)), length base = N -> map (fun i => h (nth i base [])) (seq 0 N) = map h base.
Proof.
  intros A B h N base <-. apply nth_error_ext'. intros j. rewrite !nth_error_map', nth_error_seq. destruct (Nat.ltb_spec j (length base)) as [J|J].
  - cbn [option_map]. destruct (nth_error base j) as [x|] eqn:E; [|apply nth_error_None in E; lia]. cbn. rewrite (nth_error_nth base j [] (x := x) E). reflexivity.
  - cbn. assert (nth_error base j = None) as -> by (apply nth_error_None; lia). reflexivity.
Qed.
Section Design.
Context {A : Type}.
Variables (p : problem) (G : nat) (second : bool) (f : list A -> R) (u : nat -> nat -> bool).
Let D := p_num_vars p.
Let step := block_size G second.
Hypothesis HL : labelled p.
Hypothesis HG : group_count p G.
Hypothesis HU : forall k j, (k < G)%nat -> (j < D)%nat -> (u k j = true <-> in_group p k j).

(** Output [o] of the block of a base point. *)
Definition block_out (x : list A) (o : nat) : R :=
  let a := firstn D x in let b := skipn D x in
  if (o =? 0)%nat then f a
  else if (o <=? G)%nat then f (mix (u (o - 1)) b a)
  else if (o =? step - 1)%nat then f b
  else f (mix (u (o - 1 - G)) a b).

Lemma replaced_mix : forall k (a b r : list A), (k < G)%nat -> length a = D -> length b = D -> replaced (in_group p k) a b r -> r = mix (u k) b a.
Proof.
  intros k a b r K La Lb (L & H). 
  assert (M : forall (w : nat -> bool) (x y : list A) j, length x = length y -> nth_error (mix w x y) j = if w j then nth_error x j else nth_error y j).
  { clear. intros w x. revert w. induction x as [|c x IH]; intros w [|d y] j E; try discriminate.
    - destruct j, (w _); reflexivity.
    - cbn. destruct j as [|j]; cbn; [destruct (w 0%nat); reflexivity|]. rewrite IH; [reflexivity|]. cbn in E. congruence. }
  apply nth_error_ext'. intros j. rewrite M by congruence. destruct (Nat.lt_ge_cases j D) as [J|J].
  - specialize (H j). destruct (u k j) eqn:E.
    + apply H. apply HU; assumption.
    + apply H. intros I. apply HU in I; [congruence|assumption|assumption].
  - assert (nth_error r j = None) as -> by (apply nth_error_None; lia).
    destruct (u k j); symmetry; apply nth_error_None; lia.
Qed.

Lemma design_out : forall zero N base, length base = N -> Forall (fun x => length x = (2 * D)%nat) base ->
  exists rows, cross_sample zero base (seq 0 N) p second = Ok rows /\ length rows = (N * step)%nat /\
  forall i o, (i < N)%nat -> (o < step)%nat -> out (map f rows) G second i o = block_out (nth i base []) o.
Proof.
  intros zero N base LB FB.
  assert (PB : forall i, In i (seq 0 N) -> exists b, nth_error base i = Some b /\ length b = (2 * p_num_vars p)%nat).
  { intros i I. apply in_seq in I. destruct (nth_error base i) as [b|] eqn:E.
    - exists b. split; [reflexivity|]. rewrite Forall_forall in FB. apply FB. eapply nth_error_In. exact E.
    - apply nth_error_None in E. lia. }
  destruct (cross_sample_layout zero base (seq 0 N) p second HL PB) as (rows & G' & E & HG' & HLen & _ & Hlay).
  assert (G' = G) by (eapply group_count_fun; eassumption). subst G'.
  exists rows. split; [assumption|]. rewrite seq_length in HLen. split; [assumption|].
  intros i o I O. destruct (nth_error base i) as [x|] eqn:EX; [|apply nth_error_None in EX; lia].
  assert (Lx : length x = (2 * D)%nat) by (rewrite Forall_forall in FB; apply FB; eapply nth_error_In; exact EX).
  rewrite (nth_error_nth base i [] (x := x) EX).
  specialize (Hlay i i (firstn D x) (skipn D x)).
  assert (S : saltelli_block p G second (firstn D x) (skipn D x)
        (fun t => if (t <? step)%nat then nth_error rows (i * step + t) else None)).
  { apply Hlay.
    - rewrite nth_error_seq. destruct (Nat.ltb_spec i N); [reflexivity|lia].
    - rewrite firstn_skipn. assumption.
    - rewrite firstn_length. unfold D in *. lia.
    - rewrite skipn_length. unfold D in *. lia. }
  clear Hlay. unfold out. fold step. destruct S as (S0 & S1 & S2 & S3).
  assert (La : length (firstn D x) = D) by (rewrite firstn_length; lia).
  assert (Lb : length (skipn D x) = D) by (rewrite skipn_length; lia).
  assert (V : forall r, (if (o <? step)%nat then nth_error rows (i * step + o) else None) = Some r -> nth (i * step + o) (map f rows) 0 = f r).
  { intros r H. destruct (Nat.ltb_spec o step); [|lia]. rewrite (nth_error_nth (map f rows) _ 0 (x := f r)); [reflexivity|].
    rewrite nth_error_map', H. reflexivity. }
  unfold block_out. fold step. destruct (Nat.eqb_spec o 0) as [->|O0].
  - apply V. assumption.
  - destruct (Nat.leb_spec o G) as [OG|OG].
    + destruct (S2 (o - 1)%nat) as (r & R1 & R2); [lia|]. replace (1 + (o - 1))%nat with o in R1 by lia.
      rewrite (V r R1). f_equal. apply replaced_mix; try assumption. lia.
    + destruct (Nat.eqb_spec o (step - 1)) as [->|OS].
      * apply V. assumption.
      * assert (T : second = true) by (destruct second; [reflexivity|]; unfold step, block_size in *; lia).
        destruct (S3 T (o - 1 - G)%nat) as (r & R1 & R2); [unfold step, block_size in *; rewrite T in *; lia|].
        replace (1 + G + (o - 1 - G))%nat with o in R1 by lia.
        rewrite (V r R1). f_equal. apply replaced_mix; try assumption. unfold step, block_size in *. rewrite T in *. lia.
Qed.

Lemma nth_skipn' : forall w (Y : list R) j, nth j (skipn w Y) 0 = nth (w + j) Y 0.
Proof. induction w as [|w IH]; intros [|y Y] j; cbn [skipn]; try reflexivity; [destruct j; reflexivity|apply IH]. Qed.

Lemma Rsum_blocks : forall n w (Y : list R), length Y = (n * w)%nat ->
  Rsum Y = Rsum (map (fun i => Rsum (map (fun o => nth (i * w + o) Y 0) (seq 0 w))) (seq 0 n)).
Proof.
  induction n as [|n IH]; intros w Y L.
  - destruct Y; [reflexivity|discriminate].
  - rewrite <- (firstn_skipn w Y) at 1. rewrite Rsum_app. cbn [seq map].
    change (Rsum (Rsum (map (fun o => nth (0 * w + o) Y 0) (seq 0 w)) :: map (fun i => Rsum (map (fun o => nth (i * w + o) Y 0) (seq 0 w))) (seq 1 n)))
      with (Rsum (map (fun o => nth (0 * w + o) Y 0) (seq 0 w)) + Rsum (map (fun i => Rsum (map (fun o => nth (i * w + o) Y 0) (seq 0 w))) (seq 1 n))).
    f_equal.
    + f_equal. apply nth_error_ext'. intros j. rewrite nth_error_map', nth_error_seq. rewrite nth_error_firstn.
      destruct (Nat.ltb_spec j w) as [J|J].
      * cbn [option_map]. destruct (nth_error Y j) as [y|] eqn:E; [|apply nth_error_None in E; nia].
        f_equal. replace (0 * w + (0 + j))%nat with j by lia. symmetry. apply nth_error_nth. assumption.
      * reflexivity.
    + rewrite (IH w (skipn w Y)) by (rewrite skipn_length; lia). rewrite <- seq_shift, map_map. f_equal. apply map_ext. intros i. f_equal.
      apply map_ext. intros o. rewrite nth_skipn'. f_equal. lia.
Qed.

(** Averages over the base points of quantities of their blocks. *)
Definition block_mean (x : list A) : R := Rsum (map (block_out x) (seq 0 step)) / INR step.


Lemma design_mean : forall zero N base, length base = N -> (0 < N)%nat -> Forall (fun x => length x = (2 * D)%nat) base ->
  forall rows, cross_sample zero base (seq 0 N) p second = Ok rows -> mean (map f rows) = mean (map block_mean base).
Proof.
  intros zero N base LB N0 FB rows E. destruct (design_out zero N base LB FB) as (rows' & E' & L & O). rewrite E in E'. injection E' as <-.
  assert (NS : INR step <> 0) by (apply not_0_INR; unfold step, block_size; clear; destruct second; lia).
  unfold mean at 1. rewrite map_length, L. rewrite (Rsum_blocks N step) by (rewrite map_length; assumption).
  rewrite (Rsum_ext _ _ (fun i => INR step * block_mean (nth i base []))).
  - rewrite Rsum_map_scal. rewrite (map_nth_base A R block_mean N base LB). unfold mean. rewrite map_length, LB, mult_INR. field. split; [apply not_0_INR; lia|assumption].
  - intros i I. apply in_seq in I. unfold block_mean. transitivity (Rsum (map (block_out (nth i base [])) (seq 0 step))); [|field; assumption]. f_equal. apply map_ext_in. intros o J. apply in_seq in J.
    apply O; lia.
Qed.
End Design.
