(** * A silent group whose second-order index is not 0 in double precision. *)
From Coq Require Import Reals String List Arith ZArith Bool Lia Lra Permutation.
From Flocq Require Import Core.
From Verif Require Import Base Arrays ListFacts ModelGroups ModelScale ProofsScale Stats ModelSobol ModelDouble ModelDouble4 ProofsDouble ProofsDouble5 ProofsDouble10 ProofsLevels2.
Import ListNotations.
Local Open Scope R_scope.

Definition check (p q a b : Z) : bool := match rnd (p, q) with Some (p', q') => (p' * b =? a * q')%Z && (0 <? b)%Z | None => false end.
Lemma fl_is : forall p q a b x, x = IZR p / IZR q -> check p q a b = true -> fl x = IZR a / IZR b.
Proof.
  intros p q a b x -> H. unfold check in H. destruct (rnd (p, q)) as [[p' q']|] eqn:E; [|discriminate]. apply andb_prop in H. destruct H as [H B].
  apply Z.eqb_eq in H. apply Z.ltb_lt, IZR_lt in B. apply rnd_spec in E. destruct E as (P & Q & ->). apply IZR_lt in Q.
  apply (f_equal IZR) in H. rewrite !mult_IZR in H. apply Rmult_eq_reg_r with (IZR q' * IZR b); [|nra]. field_simplify; lra.
Qed.
Lemma fl_neg_is : forall p q a b x, x = - (IZR p / IZR q) -> check p q a b = true -> fl x = - (IZR a / IZR b).
Proof. intros p q a b x -> H. rewrite fl_opp. f_equal. eapply fl_is; eauto. Qed.
Lemma fl_int : forall z x, x = IZR z -> (Z.abs z <= 2 ^ 53)%Z -> fl x = IZR z.
Proof. intros z x -> H. apply fl_double, double_Z. auto. Qed.

Ltac byZ z := apply (fl_int z); [simpl; lra|reflexivity || (simpl; lia)].

Definition wit_Y : list R := [-3; -3; -2; 4; 0; 4].
Definition wit_t : R := - (IZR 6004799503160661 / IZR 9007199254740992).
Definition wit_b : R := IZR 6004799503160661 / IZR 4503599627370496.

Lemma wit_mean : mean_fl left_to_right wit_Y = 0.
Proof.
  unfold mean_fl, sum_fl, wit_Y, left_to_right. cbn [length Nat.sub comb tsum nth].
  replace (fl (-3 + -3)) with (-6) by (symmetry; byZ (-6)%Z). replace (fl (-6 + -2)) with (-8) by (symmetry; byZ (-8)%Z).
  replace (fl (-8 + 4)) with (-4) by (symmetry; byZ (-4)%Z). replace (fl (-4 + 0)) with (-4) by (symmetry; byZ (-4)%Z).
  replace (fl (-4 + 4)) with 0 by (symmetry; byZ 0%Z). unfold Rdiv. rewrite Rmult_0_l. apply fl_0.
Qed.
Lemma wit_std : std_fl left_to_right wit_Y = 3.
Proof.
  unfold std_fl, var_fl. rewrite wit_mean. unfold squares_fl, wit_Y. cbn [map].
  replace (fl (-3 - 0)) with (-3) by (symmetry; byZ (-3)%Z). replace (fl (-2 - 0)) with (-2) by (symmetry; byZ (-2)%Z).
  replace (fl (4 - 0)) with 4 by (symmetry; byZ 4%Z). replace (fl (0 - 0)) with 0 by (symmetry; byZ 0%Z).
  replace (fl (-3 * -3)) with 9 by (symmetry; byZ 9%Z). replace (fl (-2 * -2)) with 4 by (symmetry; byZ 4%Z).
  replace (fl (4 * 4)) with 16 by (symmetry; byZ 16%Z). replace (fl (0 * 0)) with 0 by (symmetry; byZ 0%Z).
  unfold sum_fl, left_to_right. cbn [length Nat.sub comb tsum nth].
  replace (fl (9 + 9)) with 18 by (symmetry; byZ 18%Z). replace (fl (18 + 4)) with 22 by (symmetry; byZ 22%Z).
  replace (fl (22 + 16)) with 38 by (symmetry; byZ 38%Z). replace (fl (38 + 0)) with 38 by (symmetry; byZ 38%Z).
  replace (fl (38 + 16)) with 54 by (symmetry; byZ 54%Z).
  replace (fl (54 / INR 6)) with 9 by (symmetry; byZ 9%Z). replace (sqrt 9) with 3 by (replace 9 with (3 * 3) by lra; rewrite sqrt_square; lra). byZ 3%Z.
Qed.

Lemma wit_normal : map (fun y => fl (fl (y - 0) / 3)) wit_Y = [-1; -1; wit_t; wit_b; 0; wit_b].
Proof.
  unfold wit_Y. cbn [map].
  replace (fl (-3 - 0)) with (-3) by (symmetry; byZ (-3)%Z). replace (fl (-2 - 0)) with (-2) by (symmetry; byZ (-2)%Z).
  replace (fl (4 - 0)) with 4 by (symmetry; byZ 4%Z). replace (fl (0 - 0)) with 0 by (symmetry; byZ 0%Z).
  replace (fl (-3 / 3)) with (-1) by (symmetry; byZ (-1)%Z). replace (fl (0 / 3)) with 0 by (symmetry; byZ 0%Z).
  replace (fl (-2 / 3)) with wit_t by (symmetry; apply (fl_neg_is 2 3); [lra|vm_compute; reflexivity]).
  replace (fl (4 / 3)) with wit_b by (symmetry; apply (fl_is 4 3); [lra|vm_compute; reflexivity]). reflexivity.
Qed.

Lemma wit_var : var_fl left_to_right [-1; wit_b] = IZR 383118718300615 / IZR 281474976710656.
Proof.
  unfold var_fl, mean_fl, sum_fl, left_to_right, squares_fl. cbn [map length Nat.sub comb tsum nth].
  replace (fl (-1 + wit_b)) with (IZR 1501199875790165 / IZR 4503599627370496) by (symmetry; apply (fl_is 1501199875790165 4503599627370496); [unfold wit_b; lra|vm_compute; reflexivity]).
  replace (fl (IZR 1501199875790165 / IZR 4503599627370496 / INR 2)) with (IZR 1501199875790165 / IZR 9007199254740992)
    by (symmetry; apply (fl_is 1501199875790165 9007199254740992); [simpl; lra|vm_compute; reflexivity]).
  replace (fl (-1 - IZR 1501199875790165 / IZR 9007199254740992)) with (- (IZR 2627099782632789 / IZR 2251799813685248))
    by (symmetry; apply (fl_neg_is 10508399130531157 9007199254740992); [lra|vm_compute; reflexivity]).
  replace (fl (wit_b - IZR 1501199875790165 / IZR 9007199254740992)) with (IZR 2627099782632789 / IZR 2251799813685248)
    by (symmetry; apply (fl_is 10508399130531157 9007199254740992); [unfold wit_b; lra|vm_compute; reflexivity]).
  set (q := fl (IZR 2627099782632789 / IZR 2251799813685248 * (IZR 2627099782632789 / IZR 2251799813685248))).
  replace (fl (- (IZR 2627099782632789 / IZR 2251799813685248) * - (IZR 2627099782632789 / IZR 2251799813685248))) with q by (unfold q; f_equal; lra).
  assert (Q : q = IZR 383118718300615 / IZR 281474976710656).
  { apply (fl_is (2627099782632789 * 2627099782632789) (2251799813685248 * 2251799813685248)); [rewrite !mult_IZR; field|vm_compute; reflexivity]. }
  rewrite Q. replace (fl (IZR 383118718300615 / IZR 281474976710656 + IZR 383118718300615 / IZR 281474976710656)) with (IZR 383118718300615 / IZR 140737488355328)
    by (symmetry; apply (fl_is 383118718300615 140737488355328); [lra|vm_compute; reflexivity]).
  apply (fl_is 383118718300615 281474976710656); [simpl; lra|vm_compute; reflexivity].
Qed.

Lemma wit_ptp : Reqb (ptp_fl [-1; wit_b]) 0 = false.
Proof.
  apply Reqb_false. unfold ptp_fl, maxl, minl. cbn [fold_left]. assert (B : -1 < wit_b) by (unfold wit_b; lra). rewrite Rmax_right, Rmin_left by lra.
  assert (G : 1 <= fl (wit_b - -1)) by (apply fl_ge; [apply double_1|unfold wit_b; lra]). lra.
Qed.

Lemma wit_mean1 : forall x, double x -> mean_fl left_to_right [x] = x.
Proof. intros x D. unfold mean_fl, sum_fl, left_to_right. cbn [length Nat.sub comb tsum nth]. replace (x / INR 1) with x by (simpl; field). apply fl_double. auto. Qed.

Lemma wit_second : second_fl left_to_right [-1] [-1] [wit_t] [wit_b] [wit_b] = Some (- (IZR 1 / IZR 18014398509481984)).
Proof.
  unfold second_fl. cbn [app]. rewrite wit_ptp. unfold second_col_fl, first_col_fl. cbn [app map2]. rewrite wit_var. unfold mul_fl, sub_fl.
  rewrite !wit_mean1 by apply double_fl. replace (-1 - -1) with 0 by ring. rewrite fl_0, Rmult_0_r, fl_0.
  replace (fl (wit_b * wit_t)) with (- (IZR 2001599834386887 / IZR 2251799813685248)).
  2:{ symmetry. apply (fl_neg_is (6004799503160661 * 6004799503160661) (4503599627370496 * 9007199254740992)); [unfold wit_b, wit_t; rewrite !mult_IZR; field|vm_compute; reflexivity]. }
  replace (fl (-1 * wit_b)) with (- wit_b) by (symmetry; apply (fl_neg_is 6004799503160661 4503599627370496); [unfold wit_b; lra|vm_compute; reflexivity]).
  replace (fl (- (IZR 2001599834386887 / IZR 2251799813685248) - - wit_b)) with (IZR 2001599834386887 / IZR 4503599627370496)
    by (symmetry; apply (fl_is 2001599834386887 4503599627370496); [unfold wit_b; lra|vm_compute; reflexivity]).
  replace (fl (wit_t - -1)) with (IZR 3002399751580331 / IZR 9007199254740992) by (symmetry; apply (fl_is 3002399751580331 9007199254740992); [unfold wit_t; lra|vm_compute; reflexivity]).
  replace (fl (wit_b * (IZR 3002399751580331 / IZR 9007199254740992))) with (IZR 8006399337547549 / IZR 18014398509481984).
  2:{ symmetry. apply (fl_is (6004799503160661 * 3002399751580331) (4503599627370496 * 9007199254740992)); [unfold wit_b; rewrite !mult_IZR; field|vm_compute; reflexivity]. }
  unfold fdiv_fl. replace (Reqb (IZR 383118718300615 / IZR 281474976710656) 0) with false by (symmetry; apply Reqb_false; lra). cbn [fsub_fl].
  replace (fl (IZR 2001599834386887 / IZR 4503599627370496 / (IZR 383118718300615 / IZR 281474976710656))) with (IZR 5882252574524731 / IZR 18014398509481984).
  2:{ symmetry. apply (fl_is (2001599834386887 * 281474976710656) (4503599627370496 * 383118718300615)); [rewrite !mult_IZR; field|vm_compute; reflexivity]. }
  replace (fl (0 / (IZR 383118718300615 / IZR 281474976710656))) with 0 by (unfold Rdiv at 1; rewrite Rmult_0_l, fl_0; reflexivity).
  replace (fl (IZR 8006399337547549 / IZR 18014398509481984 / (IZR 383118718300615 / IZR 281474976710656))) with (IZR 1470563143631183 / IZR 4503599627370496).
  2:{ symmetry. apply (fl_is (8006399337547549 * 281474976710656) (18014398509481984 * 383118718300615)); [rewrite !mult_IZR; field|vm_compute; reflexivity]. }
  replace (fl (IZR 5882252574524731 / IZR 18014398509481984 - 0)) with (IZR 5882252574524731 / IZR 18014398509481984)
    by (symmetry; apply (fl_is 5882252574524731 18014398509481984); [lra|vm_compute; reflexivity]).
  f_equal. apply (fl_neg_is 1 18014398509481984); [lra|vm_compute; reflexivity].
Qed.

Definition wit_p : problem := mkProblem 2 ["a"; "b"]%string [[0; 1]; [0; 1]] None None false.
Lemma wit_analysis : forall Zq, exists s m, sobol_fl left_to_right left_to_right Zq (fun _ => [[0%nat]; [0%nat]]) wit_p wit_Y true (/ 2) = Ok s /\
  S2 s = Some m /\ nth_error m 0 = Some [None; Some (- (IZR 1 / IZR 18014398509481984))] /\
  (exists x, nth_error (S1 s) 0 = Some (Some x)) /\ (exists x, nth_error (ST s) 0 = Some (Some x)).
Proof.
  intros Zq. assert (C : Rltb 0 (/ 2) && Rltb (/ 2) 1 = true) by (apply andb_true_intro; split; apply Rltb_true; lra).
  assert (E3 : Reqb 3 0 = false) by (apply Reqb_false; lra).
  unfold sobol_fl. rewrite wit_mean, wit_std, wit_normal, E3, C. cbn -[second_fl first_fl total_fl confidence_fl ptp_fl Reqb wit_t wit_b].
  eexists _, _. split; [reflexivity|]. cbn [S2]. split; [reflexivity|]. cbn [nth_error S1 ST]. rewrite wit_second. split; [reflexivity|].
  unfold first_fl, total_fl, first_col_fl, total_col_fl, fdiv_fl. cbn [app]. rewrite wit_ptp, wit_var.
  replace (Reqb (IZR 383118718300615 / IZR 281474976710656) 0) with false by (symmetry; apply Reqb_false; lra). eauto.
Qed.
