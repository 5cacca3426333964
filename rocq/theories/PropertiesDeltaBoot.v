(** * Delta: bootstrap draws and the subsets that are saved: C119. *)
From Coq Require Import Reals String List Arith ZArith Bool Lia Lra.
From Verif Require Import Base Arrays ListFacts ModelGroups ModelScale ProofsScale Stats Sums Quant ModelRsa SpecRsa ModelFast ModelDelta ModelDeltaBoot SpecDelta
  ProofsDelta ProofsDelta2 ProofsDelta3 ProofsDelta9 ProofsDeltaBoot.
Import ListNotations.
Local Open Scope nat_scope.

(** C119: whether drawing a subset fails, with which exception, and how many positions it yields does not depend on the random draws. *)
Theorem C119_draws : forall c c' X y mo edges k,
  match resample c X y mo edges k, resample c' X y mo edges k with
  | Ok a, Ok b => length a = length b
  | Err e, Err e' => e = e'
  | _, _ => False
  end.
Proof.
  intros c c' X y mo edges k. destruct (outcome_cases _ _ _ _ _ (resample_outcome c c' X y mo edges k)) as [(a & b & -> & -> & L)|(e & -> & ->)]; auto.
Qed.
Print Assumptions C119_draws.

(** C119: once the first subset is drawn, all bootstrap subsets are drawn, with the same size. *)
Theorem C119_all_draws : forall (c : nat -> nat -> nat -> nat) X y mo edges k ind n, resample (c 0) X y mo edges k = Ok ind ->
  exists rs, mapM (fun j => resample (c (S j)) X y mo edges k) (seq 0 n) = Ok rs /\ Forall (fun r => length r = length ind) rs /\ length rs = n.
Proof. exact all_draws. Qed.
Print Assumptions C119_all_draws.

(** C119: no parameter is ever reported with the error of the bootstrap handler. *)
Theorem C119_no_bootstrap_error : forall kde nq, (forall d g, kde d g <> Err RuntimeError) ->
  forall dc sc p X Y n conf yo method specs out ns l, delta_analyze kde nq dc sc p X Y n conf yo method specs = Ok out ->
  d_notes out = Some ns -> In l ns -> ~ In (NoteError RuntimeError) l.
Proof. intros kde nq H. apply quiet_notes. exact H. Qed.
Print Assumptions C119_no_bootstrap_error.

(** C119: the columns are named apart when the parameters are. *)
Theorem C119_names : forall kde nq dc Y params n conf y, NoDup (map (fun p => fst (fst p)) params) ->
  NoDup (map fst (boot_matrix kde nq dc Y params n conf y)).
Proof. exact matrix_keys. Qed.
Print Assumptions C119_names.

(** C119: every column has the length asked for. It holds the values at the positions of the subset that was drawn for the
    index, in their order, or nothing when the subset has another size. *)
Theorem C119_columns : forall kde nq dc Y params n conf y key col, In (key, col) (boot_matrix kde nq dc Y params n conf y) ->
  length col = y /\ exists i name X edges m ind, nth_error params i = Some (name, X, edges) /\
    key = (name ++ "_" ++ match m with Balanced => "balanced" | Raw => "raw" | Step => "step" end)%string /\
    resample (dc i m 0) X y m edges (Nat.max (length X / 200) 10) = Ok ind /\
    ((length ind = y /\ exists v, col = map Some v /\ Forall2 (fun p x => nth_error X p = Some x) ind v) \/ (length ind <> y /\ col = repeat None y)).
Proof. exact matrix_columns. Qed.
Print Assumptions C119_columns.

(** C119: that every reported index comes with its subset is false: with the largest value as a cut point the balanced index is
    a number, and nothing is saved for it. *)
Theorem C119_saved_refuted : forall kde nq, (forall d g, exists l, kde d g = Ok l) ->
  forall dc Y X n conf y, length X = length Y -> ~ constant X -> 1 <= n -> 10 <= length X -> Nat.max (length X / 200) 10 <= y / 2 ->
  exists edges d h ind, check_bininfo (Some (BList [maxl X])) (minl X) (maxl X) = Ok (edges, []) /\
    bias_reduced kde nq (dc Balanced) Y (linspace (minl Y) (maxl Y) 100) X (grid_m y (classes y)) n conf y Balanced edges (Nat.max (length X / 200) 10) = Ok (Some d, h, ind) /\
    In (Balanced, repeat None y) (boot_param kde nq dc Y X n conf y edges).
Proof. intros kde nq H. apply saved_gap. exact H. Qed.
Print Assumptions C119_saved_refuted.

(** C119: the file written ends in ".parquet", and the suffix is not doubled. *)
Theorem C119_path : forall s, ends_with (parquet_path s) ".parquet" = true /\ parquet_path (parquet_path s) = parquet_path s.
Proof. intros s. split; [apply path_suffix|apply path_idempotent]. Qed.
Print Assumptions C119_path.
Example C119_path_example : parquet_path "out" = "out.parquet"%string /\ parquet_path "out.parquet" = "out.parquet"%string /\ parquet_path "out.parquet.bak" = "out.parquet.bak.parquet"%string.
Proof. repeat split; reflexivity. Qed.

(** Ten zeros and ten ones. *)
Lemma twenty_length : length twenty = 20.
Proof. unfold twenty. rewrite app_length, !repeat_length. reflexivity. Qed.
Example C119_example : forall dc, exists edges d h ind,
  bias_reduced (fun _ _ => Ok []) (fun x => x) (dc Balanced) twenty (linspace (minl twenty) (maxl twenty) 100) twenty (grid_m 20 (classes 20)) 5 (1/2)%R 20 Balanced edges 10 = Ok (Some d, h, ind) /\
  In (Balanced, repeat None 20) (boot_param (fun _ _ => Ok []) (fun x => x) dc twenty twenty 5 (1/2)%R 20 edges).
Proof.
  intros dc. destruct (C119_saved_refuted (fun _ _ => Ok []) (fun x => x) (fun _ _ => ex_intro _ [] eq_refl) dc twenty twenty 5 (1/2)%R 20) as (edges & d & h & ind & _ & E & I); [reflexivity| | | | |].
  - intros C. assert (H : (0 = 1)%R); [|lra]. apply C; unfold twenty; apply in_or_app; [left|right]; simpl; auto.
  - lia.
  - rewrite twenty_length. lia.
  - rewrite twenty_length. apply Nat.leb_le. reflexivity.
  - replace (Nat.max (length twenty / 200) 10) with 10 in E by (rewrite twenty_length; reflexivity). exists edges, d, h, ind. split; [exact E|exact I].
Qed.
Example C119_draw_example : forall c, exists ind, resample c [1; 2; 3]%R 4 Raw [] 1 = Ok ind /\ length ind = 4.
Proof.
  intros c. destruct (resample_raw c [1; 2; 3]%R 4 [] 1) as (ind & E & L & _); [discriminate| |eauto].
  intros C. assert (H : (1 = 2)%R); [|lra]. apply C; simpl; auto.
Qed.
