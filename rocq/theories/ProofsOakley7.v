(** * The indices of the function as evaluate computes it. *)
From Coq Require Import Reals List Arith ZArith Lia Lra.
From Coquelicot Require Import Coquelicot.
From Verif Require Import Base Stats ModelOakley SpecOakley ProofsOakley ProofsOakley2 ProofsOakley3 ProofsOakley4 ProofsOakley5 ProofsOakley6.
Import ListNotations.
Local Open Scope R_scope.

Lemma evaluate_value : forall n a1 a2 a3 M X,
  length a1 = n -> length a2 = n -> length a3 = n -> rect n M -> List.Forall (fun x => length x = n) X ->
  oakley_evaluate X [a1; a2; a3] M =
  Ok (map (fun x => over n (fun i => nth i a1 0 * nth i x 0 + nth i a2 0 * sin (nth i x 0) + nth i a3 0 * cos (nth i x 0))
                    + over n (fun i => over n (fun j => entry M i j * nth i x 0 * nth j x 0))) X).
Proof.
  intros n a1 a2 a3 M X H1 H2 H3 HM HX. cbn [oakley_evaluate]. induction HX as [|x X L F IH]; [reflexivity|].
  cbn [mapM map]. rewrite (oakley_sums n) by auto. cbn [bind]. rewrite IH. reflexivity.
Qed.

Lemma computes_row : forall a1 a2 a3 M v y, oakley_evaluate [v] [a1; a2; a3] M = Ok [y] -> oakley_row a1 a2 a3 M v = Ok y.
Proof. intros a1 a2 a3 M v y H. cbn [oakley_evaluate mapM] in H. destruct (oakley_row a1 a2 a3 M v) as [z|e]; cbn [bind] in H; congruence. Qed.

Lemma decomposition : forall s a n a1 a2 a3 M f i, 0 < s -> 0 < a ->
  length a1 = n -> length a2 = n -> length a3 = n -> rect n M -> (i < n)%nat -> (forall v, length v = n -> oakley_evaluate [v] [a1; a2; a3] M = Ok [f v]) ->
  let E := normal_avg s a in
  let V := fun i => avar E (fun x => nth i a1 0 * x + nth i a2 0 * sin x + nth i a3 0 * cos x + entry M i i * x ^ 2) in
  first_order E n f i = V i / (over n V + E (fun x => x ^ 2) ^ 2 * over_pairs n (fun i j => (entry M i j + entry M j i) ^ 2)).
Proof.
  intros s a n a1 a2 a3 M f i S A H1 H2 H3 HM Hi Hf E V.
  exact (oakley_index (normal_avg s a) (avg_ext s a) (avg_plus s S a A) (avg_scal s S a A) (avg_one s S a A) (avg_id s S a A) n a1 a2 a3 M i f H1 H2 H3 HM Hi
    (fun v L => computes_row a1 a2 a3 M v (f v) (Hf v L))).
Qed.

Lemma limit_index : forall s n a1 a2 a3 M f i, 0 < s ->
  length a1 = n -> length a2 = n -> length a3 = n -> rect n M -> (i < n)%nat -> (forall v, length v = n -> oakley_evaluate [v] [a1; a2; a3] M = Ok [f v]) ->
  let V := fun i => normal_part s (nth i a1 0) (nth i a2 0) (nth i a3 0) (entry M i i) in
  let T := over n V + s ^ 4 * over_pairs n (fun i j => (entry M i j + entry M j i) ^ 2) in
  T <> 0 -> normal_first_order s n f i (V i / T).
Proof.
  intros s n a1 a2 a3 M f i S H1 H2 H3 HM Hi Hf V T HT.
  exact (oakley_limit s n a1 a2 a3 M i f S H1 H2 H3 HM Hi (fun v L => computes_row a1 a2 a3 M v (f v) (Hf v L)) HT).
Qed.

Lemma A_rows : oakley_A = [nth 0 oakley_A []; nth 1 oakley_A []; nth 2 oakley_A []].
Proof. reflexivity. Qed.
Lemma M_rect : rect 15 oakley_M.
Proof. split; [reflexivity|]. unfold oakley_M, oakley_M_units. repeat constructor. Qed.

Lemma example_limit : forall s f i, 0 < s -> 0 < ex_total s -> (forall v, length v = 15%nat -> oakley_evaluate [v] oakley_A oakley_M = Ok [f v]) -> (i < 15)%nat ->
  normal_first_order s 15 f i (ex_part s i / ex_total s).
Proof.
  intros s f i S T H Hi. rewrite A_rows in H.
  exact (limit_index s 15 (nth 0 oakley_A []) (nth 1 oakley_A []) (nth 2 oakley_A []) oakley_M f i S eq_refl eq_refl eq_refl M_rect Hi H (Rgt_not_eq _ _ T)).
Qed.

Lemma quoted_index : forall f i, (forall v, length v = 15%nat -> oakley_evaluate [v] oakley_A oakley_M = Ok [f v]) -> (i < 15)%nat ->
  exists l, normal_first_order 1 15 f i l /\ Rabs (l - nth i oakley_quoted 0) < 2 / 100000.
Proof. intros f i H Hi. exists (ex_part 1 i / ex_total 1). split; [apply example_limit; auto using unit_total; lra|apply unit_indices; auto]. Qed.

Lemma sampled_index : forall f i, (forall v, length v = 15%nat -> oakley_evaluate [v] oakley_A oakley_M = Ok [f v]) -> (10 <= i < 15)%nat ->
  exists l, normal_first_order oakley_sd 15 f i l /\ nth i oakley_quoted 0 + 1 / 100 < l.
Proof.
  intros f i H Hi. exists (ex_part oakley_sd i / ex_total oakley_sd).
  split; [apply example_limit; auto using sd_total; try lia; unfold oakley_sd; lra|apply sd_indices; auto].
Qed.

Lemma example_computes : exists f, forall v, length v = 15%nat -> oakley_evaluate [v] oakley_A oakley_M = Ok [f v].
Proof.
  eexists. intros v L. rewrite A_rows. rewrite (evaluate_value 15) by (try reflexivity; try apply M_rect; repeat constructor; exact L). cbn [map]. reflexivity.
Qed.
