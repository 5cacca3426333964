(** * Errors of the Morris and DGSM analyses: cases. *)
From Coq Require Import Reals String List Arith ZArith Bool Lia Lra Psatz.
From Flocq Require Import Core.
From Verif Require Import Base Arrays ListFacts ModelGroups ModelScale ProofsScale SpecGroups Stats ModelFast ModelMorris ModelMorrisAnalyze ModelDgsm SpecMorris SpecDgsm
  ModelDouble ModelDouble2 ModelDouble4 ModelDouble5 ModelDouble6 SpecDouble3 SpecError ProofsDouble ProofsDouble5 ProofsDouble10 ProofsDouble13 ProofsDouble15 ProofsDouble16 ProofsDouble17 ProofsDouble19 ProofsDouble20
  ProofsDouble21 ProofsDouble22 ProofsError ProofsError3 ProofsError6 ProofsError7.
Import ListNotations.
Local Open Scope R_scope.

(** Three trajectories with effects 2^53, 1 and -2^53. *)
Definition three_X : mat R := mkMat 1 [[0]; [1]; [0]; [1]; [0]; [1]].
Definition three_Y : list R := [0; big; 0; 1; 0; - big].

Lemma three_at : forall i, (i < 3)%nat -> x_at 2 (rows three_X) i 0 0 = 0 /\ x_at 2 (rows three_X) i 1 0 = 1 /\ y_at 2 three_Y i 0 = 0 /\ y_at 2 three_Y i 1 = nth i lossB 0.
Proof. intros i H. do 3 (destruct i as [|i]; [repeat split; reflexivity|]). lia. Qed.
Lemma loss_double : forall i, double (nth i lossB 0).
Proof. intros i. do 3 (destruct i as [|i]; [cbn; first [apply big_double|apply one_double|apply double_opp, big_double]|]). destruct i; apply double_0. Qed.
Lemma three_effect : forall i, (i < 3)%nat -> effect_fl left_sums 2 (rows three_X) three_Y (delta_fl 2) false i 0 = Some (nth i lossB 0).
Proof.
  intros i H. destruct (three_at i H) as (X0 & X1 & Y0 & Y1). unfold effect_fl, difference_fl, reorganize_fl, picked, pad_before, pad_after. cbn [seq map Nat.sub Nat.ltb Nat.leb andb s_einsum left_sums left_to_right comb tsum nth].
  unfold increased_fl, decreased_fl. cbn [Nat.add]. rewrite X0, X1, Rminus_0_r, fl_one, Y0, Y1. rewrite (proj2 (Rltb_true 0 1)) by lra. rewrite (proj2 (Rltb_false 1 0)) by lra. cbn [orb andb].
  pose proof (loss_double i) as D. set (v := nth i lossB 0) in *. rewrite !Rplus_0_l, ?Rplus_0_r, ?fl_0, ?Rminus_0_r, !(fl_double v D). unfold fdiv_fl. rewrite delta_two.
  destruct (Reqb 1 0) eqn:Z; [apply Reqb_true in Z; lra|]. replace (v / 1) with v by field. rewrite (fl_double v D). reflexivity.
Qed.
Lemma three_proper : proper six_p ["a"%string] 1 3 three_X three_Y.
Proof. split; [apply six_labels|]. split; [apply six_count|]. cbn. repeat split; lia. Qed.
Lemma three_result : forall nq cl resample, 0 < cl < 1 -> exists out, snd (morris_analyze_fl left_sums nq six_p three_X three_Y cl false 2 resample) = Ok out /\
  m_names out = ["a"%string] /\ m_mu out = [Some 0].
Proof.
  intros nq cl resample Hcl. destruct three_proper as (H1 & H2 & H3 & H4 & H5 & H6 & H7 & H8).
  destruct (shaped left_sums nq six_p ["a"%string] 1 3 three_X three_Y cl false 2 resample) as (p1 & m & Em & _ & _ & E); auto.
  cbv zeta in E. rewrite E. vm_compute in Em. injection Em as <-. cbn [snd]. eexists. split; [reflexivity|]. cbn [m_names m_mu six_p p_num_vars seq map]. split; [reflexivity|].
  assert (C : col_fl left_sums 1 (rows three_X) three_Y 2 false 3 0 = map Some lossB) by (unfold col_fl; cbn [seq map]; rewrite !three_effect by lia; reflexivity). rewrite C.
  assert (F : fmean_fl (s_over left_sums) (map Some lossB) = Some 0).
  { unfold fmean_fl. change (all_some (map Some lossB)) with (Some lossB). cbn [option_map left_sums s_over]. unfold mean_fl. rewrite loss_sum. unfold Rdiv. rewrite Rmult_0_l, fl_0. reflexivity. }
  rewrite F. unfold grouped_metric_fl, grouped_fl. cbn. do 2 f_equal. unfold Rdiv. rewrite Rmult_0_l. apply fl_0.
Qed.
Lemma three_effects : forall i, (i < 3)%nat -> is_effect (step 2) (block (rows three_X) 2 i) (block three_Y 2 i) 0 (nth i lossB 0).
Proof.
  assert (S2 : step 2 = 1) by (unfold step; simpl; field). intros i H. rewrite S2.
  do 3 (destruct i as [|i]; [exists 0%nat, [0], [1]; split; [reflexivity|]; split; [reflexivity|]; left; split; [cbn; lra|unfold block; cbn; field]|]). lia.
Qed.
Lemma three_mean : mean (map (fun i => nth i lossB 0) (seq 0 3)) = / 3.
Proof. unfold mean, Rsum, lossB. cbn. field. Qed.
Lemma three_doubles : (forall r x, In r (rows three_X) -> In x r -> double x) /\ (forall y, In y three_Y -> double y).
Proof.
  pose proof double_0. pose proof one_double. pose proof big_double. pose proof (double_opp _ big_double). split.
  - intros r x Hr Hx. cbn in Hr. repeat (destruct Hr as [<-|Hr]; [cbn in Hx; destruct Hx as [<-|[]]; auto|]). destruct Hr.
  - intros y Hy. cbn in Hy. repeat (destruct Hy as [<-|Hy]; [auto|]). destruct Hy.
Qed.

(** Two base points, both steps of slope 2. *)
Lemma slopes_example : forall square nq resample, exists out, dgsm_analyze_fl left_to_right square 9 nq flat_p [[0]; [1]; [0]; [1]] [0; 2; 1; 3] (/ 2) resample = Ok out /\ d_vi out = [Some 4].
Proof.
  intros square nq resample. assert (Z : forall z, (Z.abs z <= 2 ^ 53)%Z -> fl (IZR z) = IZR z) by (intros z Hz; apply fl_double, double_Z; exact Hz).
  unfold dgsm_analyze_fl. change (length [0%R; 2%R; 1%R; 3%R] mod (p_num_vars flat_p + 1))%nat with 0%nat. cbn [Nat.eqb negb].
  rewrite (proj2 (Rltb_true 0 (/ 2))) by lra. rewrite (proj2 (Rltb_true (/ 2) 1)) by lra. cbn [andb negb]. change (length [0%R; 2%R; 1%R; 3%R] / (p_num_vars flat_p + 1))%nat with 2%nat. change (p_num_vars flat_p) with 1%nat. cbn [seq mapM].
  rewrite param_eq. change (length [[0%R]; [1%R]; [0%R]; [1%R]] <? length [0%R; 2%R; 1%R; 3%R])%nat with false. cbv iota. change (steps [[0]; [1]; [0]; [1]] 2 1 0) with (Ok [fl (1 - 0); fl (1 - 0)]). cbn [bind].
  change (width (p_bounds flat_p) 0) with (Ok (fl (1 - 0))). cbn [bind Nat.eqb map]. eexists. split; [reflexivity|]. cbn [d_vi map]. f_equal. unfold row. cbn [fst].
  unfold slope_at, base_at, pert_at. cbn [seq map nth Nat.mul Nat.add]. change (length [0%R; 2%R; 1%R; 3%R] / 2)%nat with 2%nat. cbn [seq map nth Nat.mul Nat.add map2]. rewrite !Rminus_0_r, fl_one. unfold slope2_fl, fdiv_fl. destruct (Reqb 1 0) eqn:Q; [apply Reqb_true in Q; lra|].
  replace (3 - 1) with (IZR 2) by ring. replace (2 - 0) with (IZR 2) by ring. rewrite !(Z 2%Z) by discriminate. replace (2 / 1) with (IZR 2) by field. rewrite (Z 2%Z) by discriminate. cbn [option_map].
  replace (2 * 2) with (IZR 4) by ring. rewrite (Z 4%Z) by discriminate. unfold fmean_fl. cbn [all_some option_map]. f_equal. unfold mean_fl, sum_fl, left_to_right. cbn [length Nat.sub comb tsum nth].
  replace (4 + 4) with (IZR 8) by ring. rewrite (Z 8%Z) by discriminate. replace (8 / INR 2) with (IZR 4) by (simpl; field). apply (Z 4%Z). discriminate.
Qed.
