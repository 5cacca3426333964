(** * Quantile levels of PAWN and regional sensitivity analysis in double precision: C107, C108. *)
From Coq Require Import Reals String List Arith ZArith Bool Lia Lra Permutation.
From Flocq Require Import Core.
From Verif Require Import Base Arrays ListFacts ModelGroups SpecGroups ModelScale Stats Sums ModelMorrisAnalyze SpecSobol Quant ModelPawn SpecPawn ProofsPawn2 ModelRsa SpecRsa ProofsRsa
  PropertiesPawn PropertiesRsa ModelDouble ProofsDouble5 ModelLevels SpecLevels ProofsLevels ProofsLevels2 ProofsLevels3 ProofsLevels4 ProofsLevels5.
Import ListNotations.
Local Open Scope nat_scope.

(** ** C107: PAWN *)

(** C107 is false: with six slices numpy's arange gives a level above 1, and every analysis raises. *)
Theorem C107_six_slices_refuted : forall p X Y, 0 < p_num_vars p -> Forall (fun r => p_num_vars p <= length r) X -> pawn_analyze_fl p X Y 6 = Err ValueError.
Proof.
  intros p X Y HD HX. apply pawn_refused; auto; [lia|vm_compute; discriminate|]. intros F. apply (pawn_fits_100 6 ltac:(lia)) in F. apply F. left. reflexivity.
Qed.
Print Assumptions C107_six_slices_refuted.

(** Up to one hundred slices these seventeen numbers, and no other, are refused. *)
Theorem C107_hundred : forall S, 1 <= S <= 100 ->
  let bad := [6; 9; 21; 24; 28; 29; 30; 38; 46; 49; 54; 57; 73; 81; 87; 94; 96] in
  (In S bad -> forall p X Y, 0 < p_num_vars p -> Forall (fun r => p_num_vars p <= length r) X -> pawn_analyze_fl p X Y S = Err ValueError) /\
  (~ In S bad -> forall p X Y, pawn_input (p_num_vars p) X Y -> ungrouped p -> exists out, pawn_analyze_fl p X Y S = Ok out /\ length (pw_rows out) = p_num_vars p).
Proof.
  intros S HS bad. assert (NU : (Z.of_nat S <= 2 ^ 49)%Z) by lia. split.
  - intros HB p X Y HD HX. apply pawn_refused; auto; [lia|]. intros F. apply (pawn_fits_100 S HS) in F. contradiction.
  - intros HB p X Y HI HU. apply (pawn_fits_100 S HS) in HB. rewrite pawn_accepted by (auto; lia). unfold finish. rewrite (ProofsPawn4.ungrouped_check p HU). cbn [bind].
    eexists. split; [reflexivity|]. cbn [pw_rows]. rewrite map_length, seq_length. auto.
Qed.
Print Assumptions C107_hundred.

(** In general one quotient decides.  If it is not above S + 1 there are S + 1 levels, from 0 strictly upwards to at least 1 - 2^-53 and each within 2^-51 of k/S;
    the rows are those of C41 for these levels, and every value but the largest is in exactly one slice.  Otherwise every analysis raises. *)
Theorem C107_slices_partial : forall S, 1 <= S -> (Z.of_nat S <= 2 ^ 49)%Z ->
  let step := fl (1 / INR S) in
  ((fl (fl (1 + step) / step) <= INR S + 1)%R -> exists l, good_levels S l /\ (1 - / 2 ^ 53 <= l S <= 1)%R /\
    (forall p X Y ls, pawn_input (p_num_vars p) X Y -> ungrouped p -> labels_of p ls ->
      exists out, pawn_analyze_fl p X Y S = Ok out /\ first_appearance ls (pw_names out) /\ length (pw_rows out) = p_num_vars p /\
        forall d row, nth_error (pw_rows out) d = Some row -> row_at l (column_of X d) Y S row /\ ordered_row row) /\
    (forall p X Y g, pawn_input (p_num_vars p) X Y -> grouped p g -> length g = p_num_vars p ->
      exists out rows, pawn_analyze_fl p X Y S = Ok out /\
        first_appearance g (pw_names out) /\ length (pw_rows out) = length (pw_names out) /\
        (forall d, d < p_num_vars p -> row_at l (column_of X d) Y S (rows d)) /\
        forall i x row, nth_error (pw_names out) i = Some x -> nth_error (pw_rows out) i = Some row -> exists js,
          NoDup js /\ (forall j, In j js <-> nth_error g j = Some x) /\ length row = 6 /\
          forall k v, nth_error row k = Some v -> nan_mean (map (fun j => nth k (rows j) None) js) v) /\
    (forall xs c, xs <> [] -> (Z.of_nat (length xs) <= 2 ^ 53)%Z -> (forall k, k <= S -> quantile_at xs (l k) (c k)) ->
      forall x, In x xs -> (x < maxl xs)%R -> exists! s, s < S /\ in_slice c s x)) /\
  ((INR S + 1 < fl (fl (1 + step) / step))%R -> forall p X Y, 0 < p_num_vars p -> Forall (fun r => p_num_vars p <= length r) X ->
    pawn_analyze_fl p X Y S = Err ValueError).
Proof.
  intros S N1 NU step. split.
  - intros F. exists (edge S). split; [apply edge_good; auto|]. split; [apply edge_last; auto|].
    split; [intros; apply pawn_fl_ungrouped; auto|]. split; [intros; apply pawn_fl_groups; auto|]. apply slices_at; auto.
  - intros F p X Y HD HX. apply pawn_refused; auto. unfold pawn_fits. fold step. lra.
Qed.
Print Assumptions C107_slices_partial.

(** With a power of two of slices the levels are exact and C41 applies as it stands. *)
Theorem C107_powers : forall k p X Y, k <= 49 -> pawn_input (p_num_vars p) X Y -> pawn_analyze_fl p X Y (2 ^ k) = pawn_analyze p X Y (2 ^ k).
Proof. exact pawn_power. Qed.
Print Assumptions C107_powers.

(** The example of C41 in two slices; in six slices it raises, in the default ten it does not. *)
Example C107_example : pawn_analyze_fl pawn_ex pawn_ex_X pawn_ex_Y 2 = pawn_analyze pawn_ex pawn_ex_X pawn_ex_Y 2 /\
  pawn_analyze_fl pawn_ex pawn_ex_X pawn_ex_Y 6 = Err ValueError /\
  exists out, pawn_analyze_fl pawn_ex pawn_ex_X pawn_ex_Y 10 = Ok out /\ length (pw_rows out) = 1.
Proof.
  assert (HI : pawn_input (p_num_vars pawn_ex) pawn_ex_X pawn_ex_Y) by (split; [repeat constructor|reflexivity]).
  assert (HU : ungrouped pawn_ex) by (intros g (H & _); discriminate).
  split; [apply (C107_powers 1); auto; lia|]. split; [apply C107_six_slices_refuted; [simpl; lia|apply HI]|].
  apply (C107_hundred 10 ltac:(lia)); auto. simpl. intros H. repeat (destruct H as [H|H]; [discriminate|]). auto.
Qed.

(** ** C108: regional sensitivity analysis *)

(** C108 is false: with 49 bins Si["bins"] has 50 entries, to_df raises, and the largest value of a parameter is in no bin. *)
Theorem C108_extra_bin_refuted : exists l,
  (forall p X Y target ls ns r, ungrouped p -> labels_of p ls -> first_appearance ls ns -> length ns <= cols X -> rsa_fl X Y 49 target = Ok r ->
    exists d b, rsa_analyze_fl p X Y 49 target = Ok d /\ reported_at d ns b target r /\ length b = 50 /\
      ((exists x, In x ns /\ ~ In x ["names"; "bins"; "target"]%string) -> rsa_table_fl d = Err ValueError)) /\
  (forall X y target c t m, rsa_input X y -> (forall d, d < cols X -> roles target X y d (t d) (m d)) ->
    (forall d k, d < cols X -> k <= 49 -> quantile_at (t d) (l k) (c d k)) ->
    match rsa_fl X y 49 target with
    | Ok r => length r = cols X /\ forall d, d < cols X -> length (nth d r []) = 49 /\
        forall s, s < 49 -> bin_cell (c d) (t d) y (m d) s (Ok (nth s (nth d r []) None))
    | Err e => e = ValueError /\ exists d s, d < cols X /\ s < 49 /\ bin_cell (c d) (t d) y (m d) s (Err ValueError)
    end) /\
  forall xs c x r, Permutation xs (x :: r) -> r <> [] -> Forall (fun z => (z < x)%R) r ->
    (forall k, k <= 49 -> quantile_at xs (l k) (c k)) -> forall s, s < 49 -> ~ in_bin c s x.
Proof.
  assert (NF : ~ rsa_fits 49). { intros F. apply (rsa_fits_100 49 ltac:(lia)) in F. apply F. left. reflexivity. }
  assert (NU : (Z.of_nat 49 <= 2 ^ 49)%Z) by (vm_compute; discriminate).
  exists (used 49). split; [intros p X Y target ls ns r; apply (rsa_report_wrong 49); auto; lia|].
  split; [intros; apply table_at; auto; lia|]. exact largest_49.
Qed.
Print Assumptions C108_extra_bin_refuted.

(** Up to one hundred bins only 49 and 98 have the extra entry. *)
Theorem C108_hundred : forall bins, 1 <= bins <= 100 -> forall p X Y target ls ns r, ungrouped p -> labels_of p ls -> first_appearance ls ns -> length ns <= cols X ->
  rsa_fl X Y bins target = Ok r -> (exists x, In x ns /\ ~ In x ["names"; "bins"; "target"]%string) ->
  exists d, rsa_analyze_fl p X Y bins target = Ok d /\
    (In bins [49; 98] -> rsa_table_fl d = Err ValueError) /\ (~ In bins [49; 98] -> exists b columns, rsa_table_fl d = Ok (b, columns) /\ length b = bins).
Proof.
  intros bins HB p X Y target ls ns r HU HL HA HC HR HX. assert (NU : (Z.of_nat bins <= 2 ^ 49)%Z) by lia.
  destruct (in_dec Nat.eq_dec bins [49; 98]) as [I|I].
  - destruct (rsa_report_wrong bins ltac:(lia) NU p X Y target ls ns r) as (d & b & E & _ & _ & T); auto.
    { intros F. apply (rsa_fits_100 bins HB) in F. contradiction. }
    exists d. split; auto. split; auto. contradiction.
  - destruct (rsa_report_right bins ltac:(lia) NU p X Y target ls ns r) as (d & columns & E & _ & T & _); auto.
    { apply rsa_fits_100; auto. }
    exists d. split; auto. split; [contradiction|]. intros _. do 2 eexists. split; [exact T|]. rewrite map_length, seq_length. auto.
Qed.
Print Assumptions C108_hundred.

(** In general one quotient decides.  If it is not above the number of bins, the levels go from 0 strictly upwards to 1, each within 2^-51 of k/bins; the cells are
    those of C42 for these levels, every value is in exactly one bin, and to_df labels the values of a parameter with the lower edges. *)
Theorem C108_bins_partial : forall bins, 1 <= bins -> (Z.of_nat bins <= 2 ^ 49)%Z ->
  ((fl (1 / fl (1 / INR bins)) <= INR bins)%R -> exists l, good_levels bins l /\ l bins = 1%R /\
    (forall X y target c t m, rsa_input X y -> (forall d, d < cols X -> roles target X y d (t d) (m d)) ->
      (forall d k, d < cols X -> k <= bins -> quantile_at (t d) (l k) (c d k)) ->
      match rsa_fl X y bins target with
      | Ok r => length r = cols X /\ forall d, d < cols X -> length (nth d r []) = bins /\
          forall s, s < bins -> bin_cell (c d) (t d) y (m d) s (Ok (nth s (nth d r []) None))
      | Err e => e = ValueError /\ exists d s, d < cols X /\ s < bins /\ bin_cell (c d) (t d) y (m d) s (Err ValueError)
      end) /\
    (forall xs c, xs <> [] -> (forall k, k <= bins -> quantile_at xs (l k) (c k)) -> forall x, In x xs -> exists! s, s < bins /\ in_bin c s x) /\
    forall p X Y target ls ns r, ungrouped p -> labels_of p ls -> first_appearance ls ns -> length ns <= cols X -> rsa_fl X Y bins target = Ok r ->
      exists d columns, rsa_analyze_fl p X Y bins target = Ok d /\ reported_at d ns (map l (seq 0 bins)) target r /\
        rsa_table_fl d = Ok (map l (seq 0 bins), columns) /\ map fst columns = ns /\
        forall i x, nth_error ns i = Some x -> ~ In x ["names"; "bins"; "target"]%string -> nth_error columns i = Some (x, Some (nth i r []))) /\
  ((INR bins < fl (1 / fl (1 / INR bins)))%R -> forall p X Y target ls ns r, ungrouped p -> labels_of p ls -> first_appearance ls ns -> length ns <= cols X ->
    rsa_fl X Y bins target = Ok r -> exists d b, rsa_analyze_fl p X Y bins target = Ok d /\ reported_at d ns b target r /\ length b = bins + 1 /\
      ((exists x, In x ns /\ ~ In x ["names"; "bins"; "target"]%string) -> rsa_table_fl d = Err ValueError)).
Proof.
  intros n N1 NU. split.
  - intros F. exists (lev n). destruct (lev_good n N1 NU) as (G & GN). split; auto. split; auto.
    split. { intros X y target c t m HI HR Hc. apply table_at; auto. rewrite (used_right n F). auto. }
    split; [apply bins_at; auto|]. intros p X Y target ls ns r. apply (rsa_report_right n N1 NU). exact F.
  - intros F p X Y target ls ns r. apply (rsa_report_wrong n N1 NU). unfold rsa_fits. lra.
Qed.
Print Assumptions C108_bins_partial.

(** Doubling the number of bins changes nothing: Si["bins"] has its proper length for [bins] exactly when it has for [bins * 2^k]. *)
Theorem C108_doubling : forall bins k, 1 <= bins -> (Z.of_nat (bins * 2 ^ k) <= 2 ^ 49)%Z ->
  (length (rsa_edges (bins * 2 ^ k)) = bins * 2 ^ k <-> length (rsa_edges bins) = bins).
Proof. exact edges_scale. Qed.
Print Assumptions C108_doubling.

(** So there is no bound beyond which the numbers are good: to_df raises for 49, 98, 196, ... bins. *)
Theorem C108_family : forall k, k <= 43 -> forall p X Y target ls ns r, ungrouped p -> labels_of p ls -> first_appearance ls ns -> length ns <= cols X ->
  rsa_fl X Y (49 * 2 ^ k) target = Ok r -> (exists x, In x ns /\ ~ In x ["names"; "bins"; "target"]%string) ->
  exists d, rsa_analyze_fl p X Y (49 * 2 ^ k) target = Ok d /\ rsa_table_fl d = Err ValueError.
Proof.
  intros k K p X Y target ls ns r HU HL HA HC HR HX. pose proof (Nat.pow_nonzero 2 k ltac:(lia)).
  destruct (rsa_report_wrong (49 * 2 ^ k) ltac:(lia)) with (p := p) (X := X) (Y := Y) (target := target) (ls := ls) (ns := ns) (r := r) as (d & b & E & _ & _ & T); auto.
  - rewrite Nat2Z.inj_mul, Nat2Z.inj_pow. change (Z.of_nat 49) with 49%Z. change (Z.of_nat 2) with 2%Z.
    assert (2 ^ Z.of_nat k <= 2 ^ 43)%Z by (apply Z.pow_le_mono_r; lia). apply Z.le_trans with (49 * 2 ^ 43)%Z; [lia|vm_compute; discriminate].
  - apply wrong_49; auto.
  - exists d. auto.
Qed.
Print Assumptions C108_family.

(** With a power of two of bins the levels are exact and C42 applies as it stands. *)
Theorem C108_powers : forall k p X Y target, k <= 49 -> rsa_analyze_fl p X Y (2 ^ k) target = rsa_analyze p X Y (2 ^ k) target.
Proof. exact rsa_power. Qed.
Print Assumptions C108_powers.

(** The example of C42 in two bins, and its table with the labels 0 and 1/2. *)
Example C108_example : let p := mkProblem 1 ["a"]%string [[0; 6]]%R None None false in
  exists d, rsa_analyze_fl p rsa_ex5 ex5 2 "Y" = Ok d /\ rsa_table_fl d = Ok ([INR 0 / INR 2; INR 1 / INR 2]%R, [("a"%string, Some [Some (13/30)%R; Some (13/30)%R])]).
Proof.
  intros p. pose proof (C108_powers 1 p rsa_ex5 ex5 "Y" ltac:(lia)) as E. change (2 ^ 1) with 2 in E. rewrite E. unfold rsa_analyze. rewrite C42_example. cbn [bind].
  eexists. split; reflexivity.
Qed.
