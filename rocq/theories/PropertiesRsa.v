(** * Regional sensitivity analysis: C42. *)
From Coq Require Import Reals String List Arith ZArith Bool Lia Lra Permutation.
From Verif Require Import Base Arrays ListFacts ModelGroups SpecGroups ModelScale ProofsScale Stats Sums ModelMorrisAnalyze
  SpecSobol Quant ModelPawn SpecPawn ProofsPawn ModelRsa SpecRsa ProofsRsa ProofsRsa2 ProofsRsa3 ProofsRsa4.
Import ListNotations.
Local Open Scope nat_scope.

(** C42: every value of the binned array belongs to exactly one bin. *)
Theorem C42_partition : forall xs bins c, xs <> [] -> 0 < bins -> (forall k, k <= bins -> quantile_at xs (INR k / INR bins) (c k)) ->
  forall x, In x xs -> exists! s, s < bins /\ in_bin c s x.
Proof. exact bins_partition. Qed.
Print Assumptions C42_partition.

(** C42: the table has a column per parameter and a cell per bin between the k/bins-quantiles.  A cell is nan unless
    something is outside the bin and the outputs inside vary; then it is the Cramer-von Mises statistic of the two parts.
    The only error is ValueError, and only if some bin has varying outputs and exactly one run outside. *)
Theorem C42_cells : forall X y bins target c t m, rsa_input X y -> 0 < bins ->
  (forall d, d < cols X -> roles target X y d (t d) (m d)) ->
  (forall d k, d < cols X -> k <= bins -> quantile_at (t d) (INR k / INR bins) (c d k)) ->
  match rsa X y bins target with
  | Ok r => length r = cols X /\ forall d, d < cols X -> length (nth d r []) = bins /\
      forall s, s < bins -> bin_cell (c d) (t d) y (m d) s (Ok (nth s (nth d r []) None))
  | Err e => e = ValueError /\ exists d s, d < cols X /\ s < bins /\ bin_cell (c d) (t d) y (m d) s (Err ValueError)
  end.
Proof. exact table_spec. Qed.
Print Assumptions C42_cells.

(** The hypotheses of [C42_cells] can always be met. *)
Theorem C42_cells_apply : forall X y bins target, rsa_input X y -> 0 < bins -> target = "X"%string \/ target = "Y"%string ->
  exists (t m : nat -> list R) (c : nat -> nat -> R), (forall d, roles target X y d (t d) (m d)) /\
    forall d k, k <= bins -> quantile_at (t d) (INR k / INR bins) (c d k).
Proof. exact cuts_exist. Qed.
Print Assumptions C42_cells_apply.

(** C42: without ties the statistic is n m / (n+m)^2 times the squared distances of the two distribution functions,
    summed over the pooled values; so it is never negative.  It does not depend on which part is called inside. *)
Theorem C42_statistic : forall x y v, x <> [] -> y <> [] -> NoDup (x ++ y) -> cvm_is x y v ->
  v = (INR (length x) * INR (length y) / (INR (length x) + INR (length y)) ^ 2 * Rsum (map (fun w => (ecdf x w - ecdf y w) ^ 2) (x ++ y)))%R
  /\ (0 <= v)%R.
Proof.
  intros x y v Hx Hy ND H. pose proof (cvm_distance x y v Hx Hy ND H) as E. split; auto. rewrite E.
  pose proof (INR_length_pos _ x Hx). pose proof (INR_length_pos _ y Hy). apply Rmult_le_pos.
  - apply Rdiv_nonneg; [apply Rmult_le_pos; lra|]. apply pow_lt. lra.
  - apply Rsum_nonneg. intros u Hu. apply in_map_iff in Hu. destruct Hu as (w & <- & _). apply sq_nonneg.
Qed.
Print Assumptions C42_statistic.
Theorem C42_complement : forall x y v, cvm_is x y v -> cvm_is y x v.
Proof. exact cvm_symmetric. Qed.
Print Assumptions C42_complement.

(** C42 is false in its nan clause: three runs in two bins, the first bin leaves one run outside and the analysis raises. *)
Definition rsa_ex3 : mat R := mkMat 1 [[1]; [2]; [3]]%R.
Ltac rdec := repeat match goal with
  | |- context [Rle_dec ?a ?b] => destruct (Rle_dec a b); try (exfalso; lra)
  | |- context [Rlt_dec ?a ?b] => destruct (Rlt_dec a b); try (exfalso; lra)
  | |- context [Req_EM_T ?a ?b] => destruct (Req_EM_T a b); try (exfalso; lra)
  end.
Ltac rsort := unfold sortR; cbn [fold_right]; repeat (cbn [insertR]; rdec); reflexivity.
Lemma quantiles_123 : forall n k a, sortR a = a -> length a - 1 = 2 * n -> k <= 2 -> quantile a (INR k / INR 2) = nth (k * n) a 0%R.
Proof.
  intros n k a ES E Hk. rewrite quantile_interp, ES. rewrite E.
  replace (INR k / INR 2 * INR (2 * n))%R with (INR (k * n)) by (rewrite !mult_INR; simpl; field). apply interp_int.
Qed.
Theorem C42_single_complement_refuted : exists X y, rsa_input X y /\
  forall p, rsa_analyze p X y 2 "Y" = Err ValueError /\ rsa_analyze p X y 2 "X" = Err ValueError.
Proof.
  exists rsa_ex3, [1; 2; 3]%R. split; [repeat split; [repeat constructor|discriminate]|].
  assert (ES : sortR [1; 2; 3]%R = [1; 2; 3]%R) by rsort.
  assert (E : rsa_cell [1; 2; 3]%R [1; 2; 3]%R (rsa_bin (fun k => quantile [1; 2; 3]%R (INR k / INR 2)) [1; 2; 3]%R 0) = Err ValueError).
  { assert (EB : rsa_bin (fun k => quantile [1; 2; 3]%R (INR k / INR 2)) [1; 2; 3]%R 0 = [true; true; false]).
    { unfold rsa_bin. rewrite !(quantiles_123 1) by (auto; simpl; lia). cbn [map nth Nat.mul Nat.add Nat.eqb]. repeat (rdec; cbn [andb]). reflexivity. }
    rewrite EB. unfold rsa_cell, has_samples, select. cbn -[in_dec cvm_2samp]. destruct (in_dec Req_EM_T 1%R [2%R]) as [[H|[]]|_]; [exfalso; lra|].
    cbn -[cvm_2samp]. reflexivity. }
  assert (R1 : forall target, target = "Y"%string \/ target = "X"%string -> rsa rsa_ex3 [1; 2; 3]%R 2 target = Err ValueError).
  { intros target [->| ->]; unfold rsa, rsa_ex3; cbn [Nat.eqb cols rows seq mapM get nth_error bind]; unfold rsa_column;
    cbn [String.eqb Ascii.eqb Bool.eqb bind mapM seq]; rewrite E; reflexivity. }
  intros p. unfold rsa_analyze. rewrite !R1 by auto. auto.
Qed.
Print Assumptions C42_single_complement_refuted.

(** C42: without groups the column of a parameter is reported under its name, with the lower edges of the bins. *)
Theorem C42_report : forall p X Y bins target ls ns r, ungrouped p -> labels_of p ls -> first_appearance ls ns -> length ns <= cols X ->
  rsa X Y bins target = Ok r -> exists d, rsa_analyze p X Y bins target = Ok d /\ reported d ns bins target r.
Proof. exact rsa_ungrouped. Qed.
Print Assumptions C42_report.

(** C42: groups of one parameter each give the parameters' own columns under the group labels. *)
Theorem C42_singleton_groups : forall p X Y bins target g r, grouped p g -> length g = cols X -> NoDup g -> rsa X Y bins target = Ok r ->
  exists d, rsa_analyze p X Y bins target = Ok d /\ reported d g bins target r.
Proof. intros p X Y bins target g r HG HL ND HR. apply (rsa_grouped p X Y bins target g r HG HL HR). auto. Qed.
Print Assumptions C42_singleton_groups.

(** C42 is false in its group clause: as soon as two parameters share a group the analysis raises. *)
Theorem C42_groups_refuted : forall p X Y bins target g r, grouped p g -> length g = cols X -> ~ NoDup g -> rsa X Y bins target = Ok r ->
  rsa_analyze p X Y bins target = Err IndexError.
Proof. intros p X Y bins target g r HG HL ND HR. apply (rsa_grouped p X Y bins target g r HG HL HR). auto. Qed.
Print Assumptions C42_groups_refuted.

(** C42 is false when all parameters share one label: the label gets the first parameter's column, the others are lost. *)
Theorem C42_one_label_refuted : forall p X Y bins target g r, p_groups p = Some (repeat g (cols X)) -> 2 <= cols X ->
  rsa X Y bins target = Ok r -> exists d, rsa_analyze p X Y bins target = Ok d /\ reported d [g] bins target r.
Proof. exact rsa_one_label. Qed.
Print Assumptions C42_one_label_refuted.

(** C42 is false for a parameter called names, bins or target: its column is overwritten and missing from to_df. *)
Theorem C42_reserved_name_refuted : forall p X Y bins target d n ls, rsa_analyze p X Y bins target = Ok d -> labels_of p ls -> In n ls ->
  In n ["names"; "bins"; "target"]%string -> (forall v, dict_get d n <> Some (Values v)) /\ exists df, rsa_to_df d = Ok df /\ In (n, None) df.
Proof.
  intros p X Y bins target d n ls H HL Hn Hr. apply (reserved_lost p X Y bins target d n _ H eq_refl); auto.
  apply (ProofsPawn4.names_of_labels p ls HL). auto.
Qed.
Print Assumptions C42_reserved_name_refuted.

(** C42: the order of the runs does not matter. *)
Theorem C42_row_order : forall p X Y bins target s, rsa_input X Y -> Permutation s (seq 0 (length Y)) ->
  rsa_analyze p (mkMat (cols X) (map (fun k => nth k (rows X) []) s)) (map (fun k => nth k Y 0%R) s) bins target = rsa_analyze p X Y bins target.
Proof. intros p X Y bins target s HI HP. unfold rsa_analyze. rewrite rsa_row_order by auto. reflexivity. Qed.
Print Assumptions C42_row_order.

(** C42: neither do strictly increasing transformations of the compared array and positive affine ones of the binned array. *)
Theorem C42_rescaled : forall p X Y bins target (g : nat -> R -> R) (h : R -> R), rsa_input X Y ->
  ((target = "X"%string /\ increasing h /\ exists a b, forall d, (0 < a d)%R /\ g d = (fun x => a d * x + b d)%R) \/
   (target = "Y"%string /\ (forall d, increasing (g d)) /\ exists a b, (0 < a)%R /\ h = (fun x => a * x + b)%R)) ->
  rsa_analyze p (recol g X) (map h Y) bins target = rsa_analyze p X Y bins target.
Proof. intros p X Y bins target g h HI HT. unfold rsa_analyze. rewrite rsa_rescale by auto. reflexivity. Qed.
Print Assumptions C42_rescaled.

(** C42: no bins, or another target, raises. *)
Theorem C42_bad_arguments : forall p X Y bins target, wf_mat X -> 0 < cols X ->
  rsa_analyze p X Y 0 target = Err ZeroDivisionError /\
  (0 < bins -> target <> "X"%string -> target <> "Y"%string -> rsa_analyze p X Y bins target = Err UnboundLocalError).
Proof.
  intros p X Y bins target W HC. split; [apply rsa_no_bins|]. intros HB H1 H2. unfold rsa_analyze. rewrite rsa_other_target by auto. reflexivity.
Qed.
Print Assumptions C42_bad_arguments.

(** Five runs of y = x in two bins, {1,2,3} and {4,5}. *)
Definition rsa_ex5 : mat R := mkMat 1 [[1]; [2]; [3]; [4]; [5]]%R.
Definition ex5 : list R := [1; 2; 3; 4; 5]%R.
Lemma ex5_sort : sortR ex5 = ex5.
Proof. unfold ex5. rsort. Qed.
Lemma ex5_bins : rsa_bin (fun k => quantile ex5 (INR k / INR 2)) ex5 0 = [true; true; true; false; false] /\
  rsa_bin (fun k => quantile ex5 (INR k / INR 2)) ex5 1 = [false; false; false; true; true].
Proof.
  split; unfold rsa_bin; rewrite !(quantiles_123 2) by (auto using ex5_sort; simpl; lia);
  cbn [map nth Nat.mul Nat.add Nat.eqb ex5]; repeat (rdec; cbn [andb]); reflexivity.
Qed.
Lemma ex5_dist : forall x y, x = [1; 2; 3]%R -> y = [4; 5]%R -> NoDup (x ++ y) /\
  Rsum (map (fun w => (ecdf x w - ecdf y w) ^ 2)%R (x ++ y)) = (65 / 36)%R.
Proof.
  intros x y -> ->. split.
  - simpl. repeat constructor; simpl; intros H; repeat (destruct H as [H|H]; [lra|]); auto.
  - unfold ecdf, mean, Rsum. cbn [map length fold_right app]. rdec. simpl. field.
Qed.
Lemma ex5_cvm : cvm_2samp [1; 2; 3]%R [4; 5]%R = Ok (13/30)%R /\ cvm_2samp [4; 5]%R [1; 2; 3]%R = Ok (13/30)%R.
Proof.
  destruct (ex5_dist [1; 2; 3]%R [4; 5]%R eq_refl eq_refl) as (ND & D). split.
  - destruct (cvm_spec [1; 2; 3]%R [4; 5]%R) as (v & -> & V); [simpl; lia..|]. apply cvm_distance in V; auto; try discriminate.
    rewrite V, D. simpl. f_equal. field.
  - destruct (cvm_spec [4; 5]%R [1; 2; 3]%R) as (v & -> & V); [simpl; lia..|]. apply cvm_symmetric in V. apply cvm_distance in V; auto; try discriminate.
    rewrite V, D. simpl. f_equal. field.
Qed.
Lemma ex5_distinct : 1 < distinct [1; 2; 3]%R /\ 1 < distinct [4; 5]%R.
Proof. split; apply distinct_two; [exists 1%R, 2%R|exists 4%R, 5%R]; simpl; repeat split; auto; lra. Qed.
Example C42_example : rsa rsa_ex5 ex5 2 "Y" = Ok [[Some (13/30)%R; Some (13/30)%R]].
Proof.
  destruct ex5_bins as (B0 & B1). destruct ex5_cvm as (V0 & V1). destruct ex5_distinct as (D0 & D1). apply Nat.ltb_lt in D0, D1.
  unfold rsa, rsa_ex5. cbn [Nat.eqb cols rows seq mapM get nth_error bind]. unfold rsa_column. cbn [String.eqb Ascii.eqb Bool.eqb bind mapM seq].
  change ex5 with [1; 2; 3; 4; 5]%R in *. cbv beta zeta iota. rewrite B0, B1. unfold rsa_cell, has_samples, select.
  cbn -[distinct cvm_2samp Nat.ltb]. rewrite D0, D1. cbn -[distinct cvm_2samp]. rewrite V0, V1. reflexivity.
Qed.
(** The values are not normalised to a greatest value of 1, which the documentation promises (rsa.py:66-67). *)
Theorem C42_normalised_refuted : exists X y r, rsa_input X y /\ rsa X y 2 "Y" = Ok r /\
  forall d s v, nth_error r d = Some s -> In (Some v) s -> v <> 1%R.
Proof.
  exists rsa_ex5, ex5. eexists. split; [repeat split; [repeat constructor|unfold ex5; discriminate]|]. split; [exact C42_example|].
  intros [|[|d]] s v H Hv; simpl in H; try discriminate. injection H as <-. destruct Hv as [H|[H|[]]]; injection H as <-; lra.
Qed.
Print Assumptions C42_normalised_refuted.
(** Two parameters in one group "g", a third in "h": the analysis of these runs raises. *)
Example C42_groups_example : exists g p X r, grouped p g /\ length g = cols X /\ ~ NoDup g /\ rsa X ex5 2 "Y" = Ok r.
Proof.
  exists ["g"; "g"; "h"]%string, (mkProblem 3 ["a"; "b"; "c"] [] (Some ["g"; "g"; "h"]) None false)%string,
    (mkMat 3 (map (fun x => [x; x; x]) ex5)), (repeat [Some (13/30)%R; Some (13/30)%R] 3).
  split; [split; [reflexivity|]; split; [discriminate|]; exists "g"%string, "h"%string; simpl; repeat split; auto; discriminate|].
  split; [reflexivity|]. split; [intros N; inversion N; subst; apply H1; left; reflexivity|].
  pose proof C42_example as E. unfold rsa, rsa_ex5, ex5 in *. cbn [Nat.eqb cols rows seq mapM get nth_error bind map ex5] in *.
  destruct (rsa_column [1; 2; 3; 4; 5]%R [1; 2; 3; 4; 5]%R 2 "Y") as [u|] eqn:EU; cbn [bind] in E; [|discriminate].
  cbn [bind]. injection E as ->. reflexivity.
Qed.
