(** * The Sobol' analysis in double precision: sign changes, scales, silent groups. *)
From Coq Require Import Reals String List Arith ZArith Bool Lia Lra Permutation.
From Flocq Require Import Core.
From Verif Require Import Base Arrays ListFacts ModelGroups ModelScale ProofsScale Stats ModelSobol SpecSobol ProofsSobol ProofsSobol2 ProofsSobol4 ModelDouble ModelDouble4 SpecDouble2
  ProofsDouble ProofsDouble5 ProofsDouble6 ProofsDouble8 ProofsDouble10 ProofsDouble11.
Import ListNotations.
Local Open Scope R_scope.

Section Opp.
Variable arr : nat -> tree.

Lemma tsum_opp : forall t l, tsum t (opp l) = - tsum t l.
Proof.
  induction t; intros l; cbn [tsum].
  - unfold opp. transitivity (nth i (map Ropp l) (- 0)); [f_equal; ring|]. apply (map_nth Ropp).
  - rewrite IHt1, IHt2, <- fl_opp. f_equal. ring.
Qed.
Lemma opp_length : forall l, length (opp l) = length l.
Proof. intros. apply map_length. Qed.
Lemma mean_fl_opp : forall l, mean_fl arr (opp l) = - mean_fl arr l.
Proof. intros l. unfold mean_fl, sum_fl. rewrite opp_length, tsum_opp, <- fl_opp. f_equal. unfold Rdiv. ring. Qed.
Lemma squares_opp : forall m l, squares_fl (- m) (opp l) = squares_fl m l.
Proof.
  intros m l. unfold squares_fl, opp. rewrite map_map. apply map_ext. intros y. replace (- y - - m) with (- (y - m)) by ring. rewrite fl_opp. f_equal. ring.
Qed.
Lemma var_fl_opp : forall l, var_fl arr (opp l) = var_fl arr l.
Proof. intros l. unfold var_fl. rewrite mean_fl_opp, squares_opp, opp_length. reflexivity. Qed.
Lemma ptp_fl_opp : forall l, ptp_fl (opp l) = ptp_fl l.
Proof. intros l. unfold ptp_fl. f_equal. apply ptp_opp. Qed.
Lemma sub_opp : forall x y, sub_fl (- x) (- y) = - sub_fl x y.
Proof. intros. unfold sub_fl. rewrite <- fl_opp. f_equal. ring. Qed.
Lemma mul_opp : forall x y, mul_fl (- x) (- y) = mul_fl x y.
Proof. intros. unfold mul_fl. f_equal. ring. Qed.
Lemma first_col_fl_opp : forall A AB B, first_col_fl arr (opp A) (opp AB) (opp B) = first_col_fl arr A AB B.
Proof.
  intros. unfold first_col_fl. rewrite <- opp_app, var_fl_opp, (map2_opp sub_fl Ropp) by apply sub_opp. fold opp.
  rewrite (map2_opp mul_fl (fun x => x)) by apply mul_opp. rewrite map_id. reflexivity.
Qed.
Lemma total_col_fl_opp : forall A AB B, total_col_fl arr (opp A) (opp AB) (opp B) = total_col_fl arr A AB B.
Proof.
  intros. unfold total_col_fl. rewrite <- opp_app, var_fl_opp, (map2_opp sub_fl Ropp), map_map by apply sub_opp.
  rewrite (map_ext (fun x => mul_fl (- x) (- x)) (fun x => mul_fl x x)) by (intros; apply mul_opp). reflexivity.
Qed.
Lemma second_col_fl_opp : forall A ABj ABk BAj B, second_col_fl arr (opp A) (opp ABj) (opp ABk) (opp BAj) (opp B) = second_col_fl arr A ABj ABk BAj B.
Proof.
  intros. unfold second_col_fl. rewrite !first_col_fl_opp, <- opp_app, var_fl_opp. rewrite !(map2_opp mul_fl (fun x => x)) by apply mul_opp.
  rewrite !map_id. reflexivity.
Qed.
Lemma first_fl_opp : forall A AB B, first_fl arr (opp A) (opp AB) (opp B) = first_fl arr A AB B.
Proof. intros. unfold first_fl. rewrite <- opp_app, ptp_fl_opp, first_col_fl_opp. reflexivity. Qed.
Lemma total_fl_opp : forall A AB B, total_fl arr (opp A) (opp AB) (opp B) = total_fl arr A AB B.
Proof. intros. unfold total_fl. rewrite <- opp_app, ptp_fl_opp, total_col_fl_opp. reflexivity. Qed.
Lemma second_fl_opp : forall A ABj ABk BAj B, second_fl arr (opp A) (opp ABj) (opp ABk) (opp BAj) (opp B) = second_fl arr A ABj ABk BAj B.
Proof. intros. unfold second_fl. rewrite <- opp_app, ptp_fl_opp, second_col_fl_opp. reflexivity. Qed.
Lemma first2_fl_opp : forall a b c, first2_fl arr (map opp a) (map opp b) (map opp c) = first2_fl arr a b c.
Proof. intros. unfold first2_fl. rewrite !concat_opp, <- opp_app, ptp_fl_opp, map3_opp; auto. apply first_col_fl_opp. Qed.
Lemma total2_fl_opp : forall a b c, total2_fl arr (map opp a) (map opp b) (map opp c) = total2_fl arr a b c.
Proof. intros. unfold total2_fl. rewrite !concat_opp, <- opp_app, ptp_fl_opp, map3_opp; auto. apply total_col_fl_opp. Qed.
Lemma second2_fl_opp : forall a b c d e, second2_fl arr (map opp a) (map opp b) (map opp c) (map opp d) (map opp e) = second2_fl arr a b c d e.
Proof. intros. unfold second2_fl. rewrite !concat_opp, <- opp_app, ptp_fl_opp, map5_opp; auto. apply second_col_fl_opp. Qed.
End Opp.

Lemma nth_map_opp : forall j l, nth j (map opp l) [] = opp (nth j l []).
Proof. intros. apply (map_nth opp l [] j). Qed.

Lemma sobol_fl_opp : forall arr arr2 Zq resample p Y second conf,
  sobol_fl arr arr2 Zq resample p (map Ropp Y) second conf = sobol_fl arr arr2 Zq resample p Y second conf.
Proof.
  intros arr arr2 Zq resample p Y second conf. change (map Ropp Y) with (opp Y). unfold sobol_fl. rewrite opp_length, mean_fl_opp. unfold std_fl. rewrite var_fl_opp.
  set (D := snd (extract_group_names p)). destruct (negb _); auto. destruct (negb _); auto. destruct (_ && _)%nat; auto. destruct (Reqb _ 0); auto.
  set (sigma := fl (sqrt (var_fl arr Y))). set (mu := mean_fl arr Y).
  replace (map (fun y => fl (fl (y - - mu) / sigma)) (opp Y)) with (map Ropp (map (fun y => fl (fl (y - mu) / sigma)) Y)).
  2:{ unfold opp. rewrite !map_map. apply map_ext. intros y. replace (- y - - mu) with (- (y - mu)) by ring. rewrite fl_opp, <- fl_opp. f_equal. unfold Rdiv. ring. }
  rewrite separate_map. destruct (separate_output_values _ _ _ _) as [[[[A B] AB] BA]|e]; auto. cbn [bind]. fold opp. change (map (map Ropp)) with (map opp).
  rewrite !gather_opp, !concat_opp, <- opp_app, ptp_fl_opp. rewrite !map_map.
  f_equal. f_equal.
  - apply map_ext. intros ab. apply first_fl_opp.
  - apply map_ext. intros ab. rewrite gather_opp, first2_fl_opp. reflexivity.
  - apply map_ext. intros ab. apply total_fl_opp.
  - apply map_ext. intros ab. rewrite gather_opp, total2_fl_opp. reflexivity.
  - destruct BA as [ba|]; auto. cbn [option_map]. f_equal. apply map_ext. intros j. apply map_ext. intros k. destruct (j <? k)%nat; auto.
    rewrite !nth_map_opp. apply second_fl_opp.
  - destruct BA as [ba|]; auto. cbn [option_map]. f_equal. apply map_ext. intros j. apply map_ext. intros k. destruct (j <? k)%nat; auto.
    rewrite !nth_map_opp, !gather_opp, second2_fl_opp. reflexivity.
Qed.

Lemma sobol_fl_scale : forall arr arr2 Zq resample p Y second conf k, (Z.of_nat (length Y) <= 2 ^ 53)%Z ->
  (forall y, In y Y -> moderate y /\ moderate (bpow radix2 k * y)) ->
  sobol_fl arr arr2 Zq resample p (map (fun y => bpow radix2 k * y) Y) second conf = sobol_fl arr arr2 Zq resample p Y second conf.
Proof.
  intros arr arr2 Zq resample p Y second conf k L H. destruct Y as [|y0 Y0] eqn:EY; [reflexivity|]. rewrite <- EY in *.
  assert (NE : Y <> []) by (rewrite EY; discriminate). clear EY.
  destruct (normalised_scale arr k Y L NE H) as (M & DS & S). assert (C : 0 < bpow radix2 k) by apply bpow_gt_0. set (c := bpow radix2 k) in *.
  unfold sobol_fl. rewrite map_length, M, S. set (sigma := std_fl arr Y) in *. set (mu := mean_fl arr Y) in *.
  destruct (negb _); auto. destruct (negb _); auto. destruct (_ && _)%nat; auto.
  replace (Reqb (c * sigma) 0) with (Reqb sigma 0).
  2:{ destruct (Reqb sigma 0) eqn:E; symmetry; [apply Reqb_true in E; rewrite E; apply Reqb_true; ring|apply Reqb_false in E; apply Reqb_false]. intros X. apply Rmult_integral in X. destruct X; lra. }
  destruct (Reqb sigma 0) eqn:E; auto. apply Reqb_false in E.
  replace (map (fun y => fl (fl (y - c * mu) / (c * sigma))) (map (fun y => c * y) Y)) with (map (fun y => fl (fl (y - mu) / sigma)) Y); [reflexivity|].
  rewrite map_map. apply map_ext_in. intros y Hy.
  rewrite (DS y Hy). f_equal. field. split; lra.
Qed.

(** ** The entries of the result *)
Lemma sobol_fl_parts : forall arr arr2 Zq resample p Y second conf s, sobol_fl arr arr2 Zq resample p Y second conf = Ok s ->
  let G := snd (extract_group_names p) in
  let N := (length Y / block_size G second)%nat in
  let r := resample N in
  (exists n, s = all_nan G n false second false) \/
  (exists n : R -> R, let Yn := map n Y in
   exists A B AB BA, length Y = (N * block_size G second)%nat /\ separate_output_values Yn G N second = Ok (A, B, AB, BA) /\
     let conf' := fun e => if Reqb (ptp_fl (concat (gather A r) ++ concat (gather B r))) 0 then Some 0 else confidence_fl arr (Zq conf) e in
     S1 s = map (fun ab => first_fl arr A ab B) AB /\ S1_conf s = map (fun ab => conf' (first2_fl arr2 (gather A r) (gather ab r) (gather B r))) AB /\
     ST s = map (fun ab => total_fl arr A ab B) AB /\ ST_conf s = map (fun ab => conf' (total2_fl arr2 (gather A r) (gather ab r) (gather B r))) AB /\
     S2 s = option_map (fun ba => map (fun j => map (fun k => if (j <? k)%nat then second_fl arr A (nth j AB []) (nth k AB []) (nth j ba []) B else None) (seq 0 G)) (seq 0 G)) BA /\
     S2_conf s = option_map (fun ba => map (fun j => map (fun k => if (j <? k)%nat then
       confidence_fl arr (Zq conf) (second2_fl arr2 (gather A r) (gather (nth j AB []) r) (gather (nth k AB []) r) (gather (nth j ba []) r) (gather B r)) else None) (seq 0 G)) (seq 0 G)) BA).
Proof.
  intros arr arr2 Zq resample p Y second conf s H. cbv zeta. set (G := snd (extract_group_names p)). unfold sobol_fl in H. fold G in H.
  change (if second then (2 * G + 2)%nat else (G + 2)%nat) with (block_size G second) in H. set (N := (length Y / block_size G second)%nat) in *.
  assert (BP : (0 < block_size G second)%nat) by (unfold block_size; destruct second; lia).
  destruct (length Y mod block_size G second =? 0)%nat eqn:EM; [|discriminate]. cbn [negb] in H. apply Nat.eqb_eq in EM.
  assert (L : length Y = (N * block_size G second)%nat) by (unfold N; pose proof (Nat.div_mod (length Y) (block_size G second)); lia).
  destruct (negb (Rltb 0 conf && Rltb conf 1)); [discriminate|]. destruct (_ && _)%nat; [discriminate|].
  destruct (Reqb (std_fl arr Y) 0); [left; injection H as <-; eauto|]. right.
  exists (fun y => fl (fl (y - mean_fl arr Y) / std_fl arr Y)). cbv zeta in H |- *.
  destruct (separate_output_values _ G N second) as [[[[A B] AB] BA]|e] eqn:ES; [|discriminate]. cbn [bind] in H. injection H as <-.
  exists A, B, AB, BA. cbn [S1 S1_conf ST ST_conf S2 S2_conf]. repeat (split; [auto; fail|]). auto.
Qed.

Lemma nth_error_ext : forall A (l l' : list A), (forall i, nth_error l i = nth_error l' i) -> l = l'.
Proof.
  induction l as [|a l IH]; intros [|b l'] H; auto; try (specialize (H 0%nat); discriminate).
  pose proof (H 0%nat) as E. injection E as <-. f_equal. apply IH. intros i. apply (H (S i)).
Qed.

(** The columns of a silent group are those of A and B. *)
Lemma silent_columns : forall (n : R -> R) Y G second N A B AB BA j, length Y = (N * block_size G second)%nat -> silent G second Y j -> (j < G)%nat ->
  separate_output_values (map n Y) G N second = Ok (A, B, AB, BA) ->
  length AB = G /\ nth_error AB j = Some A /\ nth j AB [] = A /\ (forall ba, BA = Some ba -> nth j ba [] = B).
Proof.
  intros n Y G second N A B AB BA j L H J E. rewrite separate_map in E.
  destruct (separate_ok _ Y G N second L) as (a & b & ab & ba & E' & La & Lb & Lab & Fab & Hba & Hba' & Ea & Eb & Eab). rewrite E' in E. injection E as <- <- <- <-.
  assert (BP : (0 < block_size G second)%nat) by (unfold block_size; destruct second; lia).
  assert (Q : (length Y / block_size G second)%nat = N) by (rewrite L; apply Nat.div_mul; lia). unfold silent in H. cbv zeta in H. rewrite Q in H.
  assert (C : forall (m : list (list R)) (x : list R), length m = G -> Forall (fun c => length c = N) m -> length x = N -> (forall i, (i < N)%nat -> entry m j i = nth_error x i) -> nth_error m j = Some x).
  { intros m x Lm Fm Lx Hm. destruct (nth_error m j) as [c|] eqn:Ec; [|apply nth_error_None in Ec; lia]. f_equal.
    assert (Lc : length c = N) by (rewrite Forall_forall in Fm; apply Fm; eapply nth_error_In; eauto).
    apply nth_error_ext. intros i. destruct (Nat.lt_ge_cases i N) as [I|I].
    - specialize (Hm i I). unfold entry in Hm. rewrite Ec in Hm. exact Hm.
    - rewrite (proj2 (nth_error_None c i)), (proj2 (nth_error_None x i)) by lia. reflexivity. }
  assert (CA : nth_error ab j = Some a).
  { apply C; auto. intros i I. rewrite Eab, Ea by auto. apply (H i I). }
  split; [rewrite map_length; auto|]. split; [rewrite nth_error_map', CA; reflexivity|]. split.
  - apply nth_error_nth. rewrite nth_error_map', CA. reflexivity.
  - intros ba0 Eba. destruct second; [|rewrite (Hba' eq_refl) in Eba; discriminate]. destruct (Hba eq_refl) as (ba' & -> & Lba & Fba & Eba').
    cbn [option_map] in Eba. injection Eba as <-. assert (CB : nth_error ba' j = Some b).
    { apply C; auto. intros i I. rewrite Eba', Eb by auto. apply (H i I). reflexivity. }
    apply nth_error_nth. rewrite nth_error_map', CB. reflexivity.
Qed.
