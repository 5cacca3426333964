(** * PAWN: statements in the terms of the specification. *)
From Coq Require Import Reals String List Arith ZArith Bool Lia Lra Permutation.
From Verif Require Import Base Arrays ListFacts ModelGroups SpecGroups ProofsGroups ModelScale ProofsScale Stats Sums ModelFast ModelMorris ModelMorrisAnalyze ProofsFast2 ProofsMorris3 ProofsMorris7
  SpecSobol ProofsSobol Quant ModelPawn SpecPawn ProofsPawn ProofsPawn2 ProofsPawn3.
Import ListNotations.
Local Open Scope nat_scope.

Lemma ungrouped_check : forall p, ungrouped p -> check_groups p = None.
Proof.
  intros p H. destruct (check_groups p) as [g|] eqn:E; auto. exfalso. apply (H g). apply check_groups_iff. auto.
Qed.
Lemma grouped_check : forall p g, grouped p g -> check_groups p = Some g.
Proof. intros p g H. apply check_groups_iff. auto. Qed.
Lemma names_of_labels : forall p ls, labels_of p ls -> first_appearance ls (fst (extract_group_names p)).
Proof.
  intros p ls H. assert (E : fst (extract_group_names p) = pd_unique ls); [|rewrite E; apply first_appearance_pd_unique].
  unfold extract_group_names, truthy_groups. destruct H as [(g & gs & -> & ->)|[[->| ->] ->]]; reflexivity.
Qed.

Lemma row_of_spec : forall xs Y n, length xs = length Y -> 0 < n -> parameter_row xs Y n (row_of xs Y n).
Proof.
  intros xs Y n HL Hn. destruct (row_spec xs Y n HL Hn) as (cells & L & HC & HS & _).
  exists (fun k => quantile (somes xs) (INR k / INR n)), cells. split; [|auto].
  intros Hne k Hk. apply quantile_spec; auto. apply frac; auto.
Qed.

Lemma pawn_ungrouped : forall p X Y n ls, 0 < n -> pawn_input (p_num_vars p) X Y -> ungrouped p -> labels_of p ls ->
  exists out, pawn_analyze p X Y n = Ok out /\ first_appearance ls (pw_names out) /\ length (pw_rows out) = p_num_vars p /\
    forall d row, nth_error (pw_rows out) d = Some row -> parameter_row (column_of X d) Y n row.
Proof.
  intros p X Y n ls Hn HI Hu Hl. rewrite analyze_eq, (ungrouped_check p Hu) by auto. cbn [bind].
  eexists. split; [reflexivity|]. cbn [pw_names pw_rows]. split; [apply names_of_labels; auto|].
  split; [rewrite map_length, seq_length; auto|]. intros d row H. rewrite nth_error_map', nth_error_seq in H.
  destruct (d <? p_num_vars p); [|discriminate]. simpl in H. injection H as <-. apply row_of_spec; auto. rewrite column_of_length. apply HI.
Qed.

Lemma fmean_spec : forall vs, nan_mean vs (fmean vs).
Proof.
  intros vs. split.
  - intros H. unfold fmean. assert (E : all_some vs = None); [|rewrite E; auto].
    induction vs as [|[x|] vs IH]; simpl in *; auto; [tauto|]. destruct H as [H|H]; [discriminate|]. rewrite (IH H). auto.
  - intros r ->. unfold fmean. rewrite all_some_map. auto.
Qed.

Lemma pawn_groups : forall p X Y n g, 0 < n -> pawn_input (p_num_vars p) X Y -> grouped p g ->
  (length g <> p_num_vars p -> pawn_analyze p X Y n = Err IndexError) /\
  (length g = p_num_vars p -> exists out rows, pawn_analyze p X Y n = Ok out /\
     first_appearance g (pw_names out) /\ length (pw_rows out) = length (pw_names out) /\
     (forall d, d < p_num_vars p -> parameter_row (column_of X d) Y n (rows d)) /\
     forall i x row, nth_error (pw_names out) i = Some x -> nth_error (pw_rows out) i = Some row -> exists js,
       NoDup js /\ (forall j, In j js <-> nth_error g j = Some x) /\ length row = 6 /\
       forall k v, nth_error row k = Some v -> nan_mean (map (fun j => nth k (rows j) None) js) v).
Proof.
  intros p X Y n g Hn HI Hg. apply grouped_check in Hg. destruct (pawn_grouped p X Y n g Hn HI Hg) as [H1 H2]. split; auto.
  intros HL. destruct (H2 HL) as (out & E & EN & LN & HR). exists out, (fun d => row_of (column_of X d) Y n).
  split; auto. split; [rewrite EN; apply first_appearance_pd_unique|]. split; auto.
  split; [intros d Hd; apply row_of_spec; auto; rewrite column_of_length; apply HI|].
  intros i x row Hi Hr. destruct (HR i x Hi) as (js & row' & HJ & ND & Hr' & HK). rewrite Hr in Hr'. injection Hr' as <-.
  exists js. split; auto. split; auto.
  assert (L6 : length row = 6).
  { rewrite analyze_eq, Hg in E by auto. rewrite group_means_ok in E by (rewrite map_length, seq_length; auto). cbn [bind] in E. injection E as <-.
    cbn [pw_rows] in Hr. rewrite nth_error_map' in Hr. destruct (nth_error (pd_unique g) i); [|discriminate]. simpl in Hr. injection Hr as <-. reflexivity. }
  split; auto. intros k v Hv. assert (Hk : k < 6) by (rewrite <- L6; eapply nth_error_Some_lt; eauto).
  pose proof (HK k Hk) as Hv'. rewrite Hv in Hv'. injection Hv' as ->. apply fmean_spec.
Qed.

Lemma pawn_flat : forall p X Y n ls d x0, 0 < n -> pawn_input (p_num_vars p) X Y -> ungrouped p -> labels_of p ls -> d < p_num_vars p ->
  (forall x, In (Some x) (column_of X d) -> x = x0) ->
  exists out, pawn_analyze p X Y n = Ok out /\ nth_error (pw_rows out) d = Some (repeat None 6).
Proof.
  intros p X Y n ls d x0 Hn HI Hu Hl Hd HC. rewrite analyze_eq, (ungrouped_check p Hu) by auto. cbn [bind].
  eexists. split; [reflexivity|]. cbn [pw_rows]. rewrite nth_error_map', nth_error_seq.
  destruct (Nat.ltb_spec d (p_num_vars p)); [|lia]. simpl option_map. f_equal.
  apply (pawn_constant _ _ _ x0); auto. rewrite column_of_length. apply HI.
Qed.

Lemma pawn_zero : forall p X Y, pawn_analyze p X Y 0 = Err ZeroDivisionError.
Proof. reflexivity. Qed.
