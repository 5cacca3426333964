(** * RBD-FAST: C40. *)
From Coq Require Import Reals String List Arith ZArith Bool Lia Lra Permutation.
From Verif Require Import Base Arrays ListFacts ModelGroups ModelScale ProofsScale Stats Sums ModelFast SpecFast
  ModelRbd SpecRbd ProofsRbd ProofsRbd2 ProofsRbd3 ProofsRbd4 ProofsRbd5.
Import ListNotations.
Local Open Scope nat_scope.

(** C40: the reordered outputs are the given outputs, position k holding the output whose parameter value
    has rank 2k while such ranks last and the odd ranks downwards after that. *)
Theorem C40_reorder : forall argsort X Y, argsort_ok argsort -> length X = length Y ->
  exists s out, sorting X s /\ permute_outputs argsort X Y = Ok out /\ Permutation out Y /\
    forall k, k < length Y -> nth_error out k = option_map (fun i => nth i Y 0%R) (nth_error s (rank_at (length Y) k)).
Proof. exact permute_spec. Qed.
Print Assumptions C40_reorder.

(** C40: carried along with their outputs, the parameter values rise and then fall. *)
Theorem C40_rise_fall : forall argsort X Y, argsort_ok argsort -> length X = length Y ->
  exists xs out, Permutation (combine xs out) (combine X Y) /\ length xs = length Y /\
    permute_outputs argsort X Y = Ok out /\
    (forall k k', k < k' -> 2 * k' < length Y -> (nth k xs 0 <= nth k' xs 0)%R) /\
    (forall k k', k < k' -> k' < length Y -> length Y <= 2 * k -> (nth k' xs 0 <= nth k xs 0)%R).
Proof. exact permute_rise_fall. Qed.
Print Assumptions C40_rise_fall.

(** C40: the raw ratio is the share of the variance at the frequencies 1 .. M, within [0,1]; nan exactly
    when there is no variance. *)
Theorem C40_ratio : forall y M,
  ((y = [] \/ var y = 0%R) -> compute_first_order y M = None) /\
  (y <> [] -> var y <> 0%R -> compute_first_order y M = Some (share y M) /\ (0 <= share y M <= 1)%R).
Proof. exact first_order_spec. Qed.
Print Assumptions C40_ratio.

(** C40: the bias correction raises ZeroDivisionError for N = 0 and N = 2 M, and is [corrected] otherwise. *)
Theorem C40_unskew : forall s M N,
  ((N = 0 \/ N = 2 * M) -> unskew s M N = Err ZeroDivisionError) /\
  (0 < N -> N <> 2 * M -> unskew s M N = Ok (option_map (corrected M N) s)).
Proof. exact unskew_spec. Qed.
Print Assumptions C40_unskew.

(** C40: for N > 2 M the correction fixes 1, is strictly increasing, never increases a ratio, and takes
    ratios no lower than - 2M / (N - 2M). *)
Theorem C40_correction : forall M N, 2 * M < N ->
  corrected M N 1 = 1%R /\
  (forall s t, s < t -> corrected M N s < corrected M N t)%R /\
  (forall s, s <= 1 -> corrected M N s <= s)%R /\
  (0 < M -> forall s, (s < 1)%R -> (corrected M N s < s)%R) /\
  (forall s, 0 <= s -> - (2 * INR M / (INR N - 2 * INR M)) <= corrected M N s)%R.
Proof. exact corrected_laws. Qed.
Print Assumptions C40_correction.

(** C40 fails for 0 < N < 2 M, which the analyser accepts: the correction is then strictly decreasing. *)
Theorem C40_correction_refuted : forall M N, 0 < N -> N < 2 * M -> forall s t, (s < t)%R -> (corrected M N t < corrected M N s)%R.
Proof. exact corrected_reverses. Qed.
Print Assumptions C40_correction_refuted.

(** C40: what the analyser reports for an input it accepts. *)
Theorem C40_analyze : forall argsort nq p X Y M cl draws, argsort_ok argsort -> rbd_input (p_num_vars p) X Y M draws ->
  let D := p_num_vars p in let N := length Y in
    exists out, rbd_analyze argsort nq p X Y M cl draws = Ok out /\ r_names out = p_names p /\
      length (r_S1 out) = D /\ length (r_conf out) = D /\
      forall i, i < D -> exists y, permute_outputs argsort (values X i) Y = Ok y /\ Permutation y Y /\
        nth_error (r_S1 out) i = Some (if Req_EM_T (var Y) 0 then None else Some (corrected M N (share y M))) /\
        (var Y <> 0%R -> (0 <= share y M <= 1)%R) /\
        ((0 <= nq (1 / 2 + cl / 2))%R -> forall v, nth_error (r_conf out) i = Some (Some v) -> (0 <= v)%R).
Proof. exact analyze_input. Qed.
Print Assumptions C40_analyze.

(** C40: the two sample sizes at which the analysis ends in ZeroDivisionError: N = 2 M, and N/2 = 2 M when there is a
    bootstrap. *)
Theorem C40_division : forall argsort nq p X Y M cl draws, argsort_ok argsort ->
  Forall (fun r => length r = p_num_vars p) X -> length X = length Y -> 0 < p_num_vars p -> 0 < length Y ->
  length Y = 2 * M \/ (length Y / 2 = 2 * M /\ draws 0 <> [] /\ draws_ok (length Y) (draws 0)) ->
  rbd_analyze argsort nq p X Y M cl draws = Err ZeroDivisionError.
Proof.
  intros argsort nq p X Y M cl draws Ha HX HL HD HN [H|(H & H1 & H2)].
  - apply analyze_division; auto.
  - destruct (Nat.eq_dec (length Y) (2 * M)); [apply analyze_division|apply bootstrap_division]; auto.
Qed.
Print Assumptions C40_division.

(** C40: with no more than 2 M + 1 outputs every parameter is given the index 1. *)
Theorem C40_small_sample : forall argsort nq p X Y M cl draws, argsort_ok argsort -> rbd_input (p_num_vars p) X Y M draws ->
  var Y <> 0%R -> length Y <= 2 * M + 1 ->
  exists out, rbd_analyze argsort nq p X Y M cl draws = Ok out /\
    forall i, i < p_num_vars p -> nth_error (r_S1 out) i = Some (Some 1%R).
Proof. exact small_sample. Qed.
Print Assumptions C40_small_sample.

(** C40: rescaling and shifting the outputs changes no index. *)
Theorem C40_affine : forall argsort nq p X Y M cl draws a b, argsort_ok argsort -> rbd_input (p_num_vars p) X Y M draws -> a <> 0%R ->
  exists out out', rbd_analyze argsort nq p X Y M cl draws = Ok out /\
    rbd_analyze argsort nq p X (map (fun v => a * v + b)%R Y) M cl draws = Ok out' /\ r_S1 out' = r_S1 out.
Proof. exact S1_affine. Qed.
Print Assumptions C40_affine.

(** C40: only the order of each parameter's values matters. *)
Theorem C40_rescaled_parameters : forall argsort nq p X Y M cl draws (g : nat -> R -> R), argsort_ok argsort ->
  rbd_input (p_num_vars p) X Y M draws ->
  (forall i, i < p_num_vars p -> no_ties (values X i)) ->
  (forall i a b, a < b -> g i a < g i b)%R ->
  let X' := map (fun r => map (fun i => g i (nth i r 0%R)) (seq 0 (p_num_vars p))) X in
  exists out out', rbd_analyze argsort nq p X Y M cl draws = Ok out /\
    rbd_analyze argsort nq p X' Y M cl draws = Ok out' /\ r_S1 out' = r_S1 out.
Proof. exact S1_rescale. Qed.
Print Assumptions C40_rescaled_parameters.

(** C40: the order in which the runs are listed does not matter. *)
Theorem C40_row_order : forall argsort nq p X Y M cl draws draws' s, argsort_ok argsort ->
  rbd_input (p_num_vars p) X Y M draws -> (forall i, i < p_num_vars p -> draws_ok (length Y) (draws' i)) ->
  (forall i, i < p_num_vars p -> no_ties (values X i)) -> Permutation s (seq 0 (length Y)) ->
  exists out out', rbd_analyze argsort nq p X Y M cl draws = Ok out /\
    rbd_analyze argsort nq p (map (fun k => nth k X []) s) (map (fun k => nth k Y 0%R) s) M cl draws' = Ok out' /\ r_S1 out' = r_S1 out.
Proof. exact S1_rows. Qed.
Print Assumptions C40_row_order.

(** C40: an output that is one harmonic h <= M along a parameter's order gets the index 1. *)
Theorem C40_harmonic : forall argsort nq p X Y M cl draws i h a b phi, argsort_ok argsort -> rbd_input (p_num_vars p) X Y M draws ->
  i < p_num_vars p -> 0 < h -> h <= M -> 2 * h < length Y -> b <> 0%R ->
  permute_outputs argsort (values X i) Y =
    Ok (map (fun t => a + b * cos (2 * PI * INR h * INR t / INR (length Y) + phi))%R (seq 0 (length Y))) ->
  exists out, rbd_analyze argsort nq p X Y M cl draws = Ok out /\ nth_error (r_S1 out) i = Some (Some 1%R).
Proof. exact S1_harmonic. Qed.
Print Assumptions C40_harmonic.

(** The hypothesis on argsort is met by insertion sort. *)
Example C40_argsort : argsort_ok insertion_argsort.
Proof. exact insertion_ok. Qed.

Ltac dec_le := repeat match goal with |- context [Rle_dec ?a ?b] => destruct (Rle_dec a b); [try lra|try lra] end.
Example C40_reorder_example :
  permute_outputs insertion_argsort [3; 1; 2; 5; 4]%R [30; 10; 20; 50; 40]%R = Ok [10; 30; 50; 40; 20]%R.
Proof.
  assert (E : insertion_argsort [3; 1; 2; 5; 4]%R = [1; 2; 0; 4; 3]).
  { unfold insertion_argsort. cbn [length seq fold_right]. cbn [insert_idx nth].
    repeat (match goal with |- context [Rle_dec ?a ?b] => destruct (Rle_dec a b); [try (exfalso; lra)|try (exfalso; lra)] end; cbn [insert_idx nth]).
    reflexivity. }
  unfold permute_outputs. rewrite E. reflexivity.
Qed.

(** Outputs that alternate along the order: the raw ratio is 0 and the corrected one -1. *)
Example C40_alternating :
  compute_first_order [1; -1; 1; -1]%R 1 = Some 0%R /\ unskew (Some 0%R) 1 4 = Ok (Some (-1)%R).
Proof.
  assert (V : var [1; -1; 1; -1]%R = 1%R) by (unfold var, mean, Rsum; simpl; field).
  split.
  - destruct (C40_ratio [1; -1; 1; -1]%R 1) as [_ H]. destruct (H ltac:(discriminate) ltac:(lra)) as [-> _]. f_equal.
    unfold share. rewrite V. replace (Nat.min 1 (length [1; -1; 1; -1]%R / 2)) with 1 by reflexivity. cbn [seq map].
    replace (length [1; -1; 1; -1]%R =? 2 * 1)%nat with false by reflexivity.
    rewrite power_re_im. unfold re, im, sum, Rsum. cbn [length seq map fold_right nth].
    replace (2 * PI * INR 1 * INR 0 / INR 4)%R with 0%R by (simpl; field).
    replace (2 * PI * INR 1 * INR 1 / INR 4)%R with (PI / 2)%R by (simpl; field).
    replace (2 * PI * INR 1 * INR 2 / INR 4)%R with PI by (simpl; field).
    replace (2 * PI * INR 1 * INR 3 / INR 4)%R with (3 * (PI / 2))%R by (simpl; field).
    rewrite cos_0, cos_PI2, cos_PI, cos_3PI2, sin_0, sin_PI2, sin_PI, sin_3PI2. simpl. field.
  - destruct (C40_unskew (Some 0%R) 1 4) as [_ H]. rewrite H by lia. cbn [option_map]. do 2 f_equal. unfold corrected. simpl. field.
Qed.

Definition rbd_ex : problem := mkProblem 1 ["a"]%string [[0; 1]]%R None None false.
Definition rbd_ex_X : list (list R) := [[3]; [1]; [2]]%R.
Definition rbd_ex_Y : list R := [30; 10; 25]%R.
Example C40_input_example : rbd_input 1 rbd_ex_X rbd_ex_Y 1 (fun _ => [[0]; [2]]).
Proof.
  unfold rbd_input, rbd_ex_X, rbd_ex_Y, draws_ok. simpl. repeat split; try lia; repeat constructor; lia.
Qed.
(** Three outputs and one harmonic: the index is 1 whatever the outputs are. *)
Example C40_small_example : exists out, rbd_analyze insertion_argsort (fun x => x) rbd_ex rbd_ex_X rbd_ex_Y 1 (19/20)%R (fun _ => [[0]; [2]]) = Ok out /\
  nth_error (r_S1 out) 0 = Some (Some 1%R).
Proof.
  destruct (C40_small_sample insertion_argsort (fun x => x) rbd_ex rbd_ex_X rbd_ex_Y 1 (19/20)%R (fun _ => [[0]; [2]]) C40_argsort C40_input_example) as (out & E & H).
  - unfold rbd_ex_Y, var, mean, Rsum. simpl. lra.
  - simpl. lia.
  - exists out. split; auto.
Qed.
(** Two outputs and M = 1: ZeroDivisionError. *)
Example C40_division_example :
  rbd_analyze insertion_argsort (fun x => x) rbd_ex [[3]; [1]]%R [7; 8]%R 1 (19/20)%R (fun _ => []) = Err ZeroDivisionError.
Proof. apply C40_division; auto using C40_argsort; simpl; auto. Qed.
