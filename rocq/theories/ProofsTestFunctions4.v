(** * Additive functions, linear models and the lake problem. *)
From Coq Require Import Reals List Arith Lra Lia Bool.
From Verif Require Import Base Arrays ModelScale ProofsScale Stats Sums ModelTestFunctions SpecIntegral ProofsIntegral ProofsTestFunctions ProofsTestFunctions2.
Import ListNotations.
Local Open Scope R_scope.

Lemma Forall2_len : forall A B (P : A -> B -> Prop) l l', Forall2 P l l' -> length l = length l'.
Proof. induction 1; cbn; congruence. Qed.

(** ** Sums of functions of one coordinate each *)

Fixpoint additive (gs : list (R -> R)) (x : list R) : R :=
  match gs, x with g :: gs, v :: x => g v + additive gs x | _, _ => 0 end.

(** Mean and variance of one coordinate. *)
Definition moments (i : R * R) (g : R -> R) (mv : R * R) : Prop :=
  mean_of i g (fst mv) /\ mean_of i (fun x => g x ^ 2) (snd mv + fst mv ^ 2).

Lemma additive_average : forall b gs mvs, proper b -> length gs = length b -> Forall2 (fun ig mv => moments (fst ig) (snd ig) mv) (combine b gs) mvs ->
  average b (additive gs) (Rsum (map fst mvs)) /\ average b (fun x => additive gs x ^ 2) (Rsum (map snd mvs) + Rsum (map fst mvs) ^ 2).
Proof.
  induction b as [|[lo hi] b IH]; intros gs mvs P L F.
  - destruct gs; [|discriminate]. inversion F; subst. cbn. split; [reflexivity|ring].
  - destruct gs as [|g gs]; [discriminate|]. cbn [combine] in F. inversion F as [|? [m v] ? mvs' (M & Q) F']; subst. clear F.
    inversion P as [|? ? P1 P2]; subst. cbn [fst snd] in *. cbn [length] in L.
    destruct (IH gs mvs' P2) as (A1 & A2); [lia|assumption|]. unfold mean_of in M, Q. cbn [fst snd] in M, Q.
    cbn [map fst snd]. change (Rsum (m :: map fst mvs')) with (m + Rsum (map fst mvs')). change (Rsum (v :: map snd mvs')) with (v + Rsum (map snd mvs')).
    set (sm := Rsum (map fst mvs')) in *. set (sv := Rsum (map snd mvs')) in *. split.
    + cbn [average]. exists (fun x => g x + sm). split.
      * intros x _. apply (average_ext b (fun xs => g x + 1 * additive gs xs)); [assumption|intros; cbn [additive]; ring|].
        replace (g x + sm) with (g x + 1 * sm) by ring. apply (average_lin b (fun _ => g x)); [assumption|apply average_const|assumption].
      * replace ((m + sm) * (hi - lo)) with (m * (hi - lo) + sm * (hi - lo)) by ring. apply integral_plus; [lra|assumption|apply integral_const].
    + cbn [average]. exists (fun x => (g x ^ 2 + (2 * sm) * g x) + (sv + sm ^ 2)). split.
      * intros x _. apply (average_ext b (fun xs => (g x ^ 2 + (2 * g x) * additive gs xs) + 1 * additive gs xs ^ 2)); [assumption|intros; cbn [additive]; ring|].
        replace (g x ^ 2 + 2 * sm * g x + (sv + sm ^ 2)) with ((g x ^ 2 + (2 * g x) * sm) + 1 * (sv + sm ^ 2)) by ring.
        apply average_lin; [assumption| |assumption]. apply (average_lin b (fun _ => g x ^ 2)); [assumption|apply average_const|assumption].
      * replace ((v + sv + (m + sm) ^ 2) * (hi - lo)) with (((v + m ^ 2) * (hi - lo) + (2 * sm) * (m * (hi - lo))) + (sv + sm ^ 2) * (hi - lo)) by ring.
        apply integral_plus; [lra| |apply integral_const]. apply (integral_lin (fun x => g x ^ 2)); assumption.
Qed.

Lemma additive_variance : forall b gs mvs, proper b -> length gs = length b -> Forall2 (fun ig mv => moments (fst ig) (snd ig) mv) (combine b gs) mvs ->
  variance b (additive gs) (Rsum (map snd mvs)).
Proof.
  intros b gs mvs P L F. destruct (additive_average b gs mvs P L F) as (A1 & A2).
  replace (Rsum (map snd mvs)) with ((Rsum (map snd mvs) + Rsum (map fst mvs) ^ 2) - Rsum (map fst mvs) ^ 2) by ring.
  apply variance_moments; assumption.
Qed.

Lemma additive_put : forall gs i g v x, nth_error gs i = Some g -> length x = (length gs - 1)%nat ->
  additive gs (put_at i v x) = additive (without_at i gs) x + 1 * g v.
Proof.
  induction gs as [|h gs IH]; intros i g v x N L; [destruct i; discriminate|].
  destruct i as [|i].
  - cbn in N. injection N as <-. unfold put_at, without_at. cbn [firstn skipn app additive]. ring.
  - cbn [nth_error] in N. cbn [length] in L. assert (I : (i < length gs)%nat) by (apply nth_error_Some; congruence).
    destruct x as [|u x]; [cbn [length] in L; lia|]. cbn [length] in L.
    change (put_at (S i) v (u :: x)) with (u :: put_at i v x). change (without_at (S i) (h :: gs)) with (h :: without_at i gs).
    cbn [additive]. rewrite (IH i g v x N) by lia. ring.
Qed.

Lemma shifted : forall bi g mv c, fst bi < snd bi -> moments bi g mv -> variance [bi] (fun l => c + 1 * g (hd 0 l)) (snd mv).
Proof.
  intros [lo hi] g [m v] c L (M & Q). cbn [fst snd] in *. unfold mean_of in M, Q. cbn [fst snd] in M, Q.
  assert (P : proper [(lo, hi)]) by (constructor; [assumption|constructor]).
  replace v with (((c ^ 2 + (2 * c) * m) + 1 * (v + m ^ 2)) - (c + 1 * m) ^ 2) by ring.
  apply variance_moments; [assumption| |].
  - apply (average_lin _ (fun _ => c)); [assumption|apply average_const|apply average_one; assumption].
  - apply (average_ext _ (fun l => (c ^ 2 + (2 * c) * g (hd 0 l)) + 1 * g (hd 0 l) ^ 2)); [assumption|intros; ring|].
    apply average_lin; [assumption| |apply (average_one lo hi (fun x => g x ^ 2)); assumption].
    apply (average_lin _ (fun _ => c ^ 2)); [assumption|apply average_const|apply average_one; assumption].
Qed.

Lemma additive_effects : forall b gs mvs i mv, proper b -> length gs = length b ->
  Forall2 (fun ig mv => moments (fst ig) (snd ig) mv) (combine b gs) mvs -> nth_error mvs i = Some mv ->
  first_effect b (additive gs) i (snd mv) /\ total_effect b (additive gs) i (snd mv).
Proof.
  intros b gs mvs i mv P L F N.
  assert (LM : length mvs = length b) by (rewrite <- (Forall2_len _ _ _ _ _ F), combine_length; lia).
  assert (I : (i < length b)%nat) by (rewrite <- LM; apply nth_error_Some; congruence).
  destruct (nth_error b i) as [bi|] eqn:B; [|apply nth_error_None in B; lia].
  destruct (nth_error gs i) as [g|] eqn:G; [|apply nth_error_None in G; lia].
  assert (C := combine_nth_some _ _ b gs i bi g B G).
  destruct (Forall2_nth_error _ _ _ _ _ i _ F C) as (mv' & N' & M). rewrite N in N'. injection N' as <-. cbn [fst snd] in M.
  assert (Lt := proper_nth b i bi P B). assert (P' : proper (without_at i b)) by (apply without_at_Forall; assumption).
  assert (F' := without_at_Forall2 _ _ _ i _ _ F). rewrite without_at_combine in F'.
  assert (L' : length (without_at i gs) = length (without_at i b)) by (rewrite !without_at_length; lia).
  destruct (additive_average _ _ _ P' L' F') as (A1 & _).
  split.
  - exists bi, (fun x => Rsum (map fst (without_at i mvs)) + 1 * g x). split; [assumption|]. split.
    + intros x X. apply (average_ext _ (fun xs => additive (without_at i gs) xs + g x * 1)); [assumption| |].
      * intros xs I'. rewrite (additive_put gs i g x xs G); [ring|]. rewrite (inside_length _ _ I'), without_at_length; lia.
      * replace (Rsum (map fst (without_at i mvs)) + 1 * g x) with (Rsum (map fst (without_at i mvs)) + g x * 1) by ring.
        apply (average_lin _ _ (fun _ => 1)); [assumption|assumption|apply average_const].
    + apply shifted; assumption.
  - exists bi, (fun _ => snd mv). split; [assumption|]. split; [|apply average_const].
    intros xs X. apply (variance_ext [bi] (fun l => additive (without_at i gs) xs + 1 * g (hd 0 l))).
    + constructor; [assumption|constructor].
    + intros l _. symmetry. apply additive_put; [assumption|]. rewrite (inside_length _ _ X), without_at_length; lia.
    + apply shifted; assumption.
Qed.

(** ** Linear functions *)

Fixpoint linear (cs x : list R) : R := match cs, x with c :: cs, v :: x => c * v + linear cs x | _, _ => 0 end.
Lemma linear_additive : forall cs x, linear cs x = additive (map (fun c v => c * v) cs) x.
Proof. induction cs as [|c cs IH]; intros [|v x]; cbn; try reflexivity. rewrite IH. reflexivity. Qed.

Lemma linear_moments : forall i c, fst i < snd i -> moments i (fun v => c * v) (c * (fst i + snd i) / 2, c ^ 2 * (snd i - fst i) ^ 2 / 12).
Proof.
  intros [lo hi] c L. cbn [fst snd] in *. split; unfold mean_of; cbn [fst snd].
  - replace (c * (lo + hi) / 2 * (hi - lo)) with (c / 2 * hi ^ 2 - c / 2 * lo ^ 2) by field.
    apply (integral_of (fun x => c / 2 * x ^ 2)); [lra| |].
    + intros x. assert (D := derivable_pt_lim_scal (fun y => y ^ 2) (c / 2) x _ (derivable_pt_lim_pow x 2)).
      unfold mult_real_fct in D. replace (c * x) with (c / 2 * (INR 2 * x ^ Init.Nat.pred 2)) by (cbn; field). exact D.
    + intros x. apply (continuity_pt_scal (fun x => x) c). apply derivable_continuous_pt, derivable_pt_id.
  - replace ((c ^ 2 * (hi - lo) ^ 2 / 12 + (c * (lo + hi) / 2) ^ 2) * (hi - lo)) with (c ^ 2 / 3 * hi ^ 3 - c ^ 2 / 3 * lo ^ 3) by field.
    apply (integral_ext (fun x => c ^ 2 * x ^ 2)); [lra|intros; ring|].
    apply (integral_of (fun x => c ^ 2 / 3 * x ^ 3)); [lra| |].
    + intros x. assert (D := derivable_pt_lim_scal (fun y => y ^ 3) (c ^ 2 / 3) x _ (derivable_pt_lim_pow x 3)).
      unfold mult_real_fct in D. replace (c ^ 2 * x ^ 2) with (c ^ 2 / 3 * (INR 3 * x ^ Init.Nat.pred 3)) by (cbn; field). exact D.
    + intros x. apply (continuity_pt_scal (fun x => x ^ 2) (c ^ 2)). apply derivable_continuous_pt, derivable_pt_pow.
Qed.

Definition share (i : R * R) (c : R) : R := c ^ 2 * (snd i - fst i) ^ 2 / 12.

Lemma linear_all : forall b cs, proper b -> length cs = length b ->
  Forall2 (fun ig mv => moments (fst ig) (snd ig) mv) (combine b (map (fun c v => c * v) cs))
    (map (fun p => (snd p * (fst (fst p) + snd (fst p)) / 2, share (fst p) (snd p))) (combine b cs)).
Proof.
  induction b as [|i b IH]; intros [|c cs] P L; try discriminate; [constructor|].
  inversion P; subst. cbn [combine map]. constructor; [cbn [fst snd]; apply linear_moments; assumption|]. apply IH; [assumption|]. cbn [length] in L. lia.
Qed.

Lemma linear_variance : forall b cs, proper b -> length cs = length b -> variance b (linear cs) (Rsum (map (fun p => share (fst p) (snd p)) (combine b cs))).
Proof.
  intros b cs P L. assert (V := additive_variance b (map (fun c v => c * v) cs) _ P ltac:(rewrite map_length; assumption) (linear_all b cs P L)).
  rewrite map_map in V. apply (variance_ext b (additive (map (fun c v => c * v) cs))); [assumption| |exact V].
  intros x _. symmetry. apply linear_additive.
Qed.

Lemma linear_effects : forall b cs i bi c, proper b -> length cs = length b -> nth_error b i = Some bi -> nth_error cs i = Some c ->
  first_effect b (linear cs) i (share bi c) /\ total_effect b (linear cs) i (share bi c).
Proof.
  intros b cs i bi c P L B C.
  destruct (additive_effects b (map (fun c v => c * v) cs) _ i (c * (fst bi + snd bi) / 2, share bi c) P ltac:(rewrite map_length; assumption) (linear_all b cs P L)) as (F & T).
  { rewrite nth_error_map, (combine_nth_some _ _ b cs i bi c B C). reflexivity. }
  split.
  - apply (first_effect_ext b (additive (map (fun c v => c * v) cs))); [assumption| |exact F]. intros x _. symmetry. apply linear_additive.
  - apply (total_effect_ext b (additive (map (fun c v => c * v) cs))); [assumption| |exact T]. intros x _. symmetry. apply linear_additive.
Qed.

Lemma linear_ones : forall x, linear (repeat 1 (length x)) x = Rsum x.
Proof. induction x as [|v x IH]; [reflexivity|]. cbn [length repeat linear]. rewrite IH. change (Rsum (v :: x)) with (v + Rsum x). ring. Qed.

(** ** The lake *)

Lemma lake_rows_shape : forall a q b eps n row, length eps = length row ->
  length (lake_rows a q b eps row n) = n /\ Forall (fun r => length r = length row) (lake_rows a q b eps row n).
Proof.
  intros a q b eps. induction n as [|n IH]; intros row L; [split; [reflexivity|constructor]|].
  cbn [lake_rows length]. assert (L' : length (map2 (lake_problem a q b) row eps) = length row) by (rewrite length_map2; lia).
  destruct (IH (map2 (lake_problem a q b) row eps)) as (H1 & H2); [lia|]. split; [lia|]. constructor; [assumption|].
  rewrite L' in H2. assumption.
Qed.

Lemma concat_length_const : forall A (l : list (list A)) k, Forall (fun r => length r = k) l -> length (concat l) = (length l * k)%nat.
Proof. intros A l k F. induction F as [|r l H F IH]; cbn; [reflexivity|]. rewrite app_length, IH. lia. Qed.

Lemma filter_len : forall A (f : A -> bool) l, (length (filter f l) <= length l)%nat.
Proof. intros A f. induction l as [|x l IH]; cbn; [lia|]. destruct (f x); cbn; lia. Qed.
Lemma filter_full : forall A (f : A -> bool) l, Forall (fun x => f x = true) l -> filter f l = l.
Proof. intros A f l F. induction F as [|x l H F IH]; cbn; [reflexivity|]. rewrite H, IH. reflexivity. Qed.

(** Pollution stays in an interval that one step preserves. *)
Lemma lake_rows_inv : forall (I : R -> Prop) a q b eps, Forall (fun e => forall x, I x -> I (lake_problem a q b x e)) eps ->
  forall n row, length eps = length row -> Forall I row -> Forall (Forall I) (lake_rows a q b eps row n).
Proof.
  intros I a q b eps E. induction n as [|n IH]; intros row L F; [constructor|].
  cbn [lake_rows]. assert (N : Forall I (map2 (lake_problem a q b) row eps)).
  { clear IH n. revert eps E L. induction F as [|x row X F IHF]; intros [|e eps] E L; try discriminate; [constructor|].
    inversion E; subst. cbn. constructor; [auto|]. apply IHF; [assumption|]. cbn [length] in L. lia. }
  constructor; [assumption|]. apply IH; [rewrite length_map2; lia|assumption].
Qed.

Lemma lake_nonneg : forall a q b e x, 0 <= a -> 0 <= e -> b <= 1 -> 0 <= x -> 0 <= lake_problem a q b x e.
Proof.
  intros a q b e x A E B X. unfold lake_problem. assert (H := rpow_nonneg x q X).
  assert (0 <= rpow x q / (1 + rpow x q)). { apply Rmult_le_pos; [assumption|]. left. apply Rinv_0_lt_compat. lra. }
  nra.
Qed.

Lemma geometric : forall c d n, d <> 1 -> Rsum (map (fun t => c * d ^ t) (seq 0 n)) = c * ((1 - d ^ n) / (1 - d)).
Proof.
  intros c d n N. induction n as [|n IH].
  - cbn. field. lra.
  - rewrite seq_S, map_app, Rsum_app, IH. cbn [map plus]. change (Rsum [c * d ^ n]) with (c * d ^ n + 0). cbn [pow]. field. lra.
Qed.

Lemma lake_rows_step : forall a q b eps n row k r s, nth_error (row :: lake_rows a q b eps row n) k = Some r -> nth_error (lake_rows a q b eps row n) k = Some s ->
  s = map2 (lake_problem a q b) r eps.
Proof.
  intros a q b eps. induction n as [|n IH]; intros row k r s H1 H2; [destruct k; discriminate|].
  cbn [lake_rows] in *. destruct k as [|k]; [injection H1 as <-; injection H2 as <-; reflexivity|].
  apply (IH (map2 (lake_problem a q b) row eps) k); assumption.
Qed.

Lemma rpow_side : forall x q, 0 <= x -> 0 < q -> (x < 1 -> rpow x q < 1) /\ (1 < x -> 1 < rpow x q).
Proof.
  intros x q X Q. split; intros H.
  - destruct (Req_dec x 0) as [->|N]; [rewrite rpow_0 by lra; lra|]. rewrite rpow_pos by lra. unfold Rpower. rewrite <- exp_0. apply exp_increasing.
    assert (ln x < 0) by (rewrite <- ln_1; apply ln_increasing; lra). nra.
  - rewrite rpow_pos by lra. unfold Rpower. rewrite <- exp_0 at 1. apply exp_increasing.
    assert (0 < ln x) by (rewrite <- ln_1; apply ln_increasing; lra). nra.
Qed.
