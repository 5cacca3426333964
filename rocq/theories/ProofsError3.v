(** * Errors that are reached: absorbed and cancelled terms. *)
From Coq Require Import Reals String List Arith ZArith Bool Lia Lra Psatz.
From Flocq Require Import Core.
From Verif Require Import Base Arrays ListFacts ModelScale ProofsScale Stats ModelSobol ModelDouble ModelDouble4 SpecError ProofsDouble ProofsDouble5 ProofsDouble10 ProofsDouble13 ProofsError ProofsError2.
Import ListNotations.
Local Open Scope R_scope.

Definition big : R := IZR 9007199254740992.
Lemma big_double : double big. Proof. apply double_Z. discriminate. Qed.
Lemma one_double : double 1. Proof. apply (double_Z 1). discriminate. Qed.
Lemma absorbed : fl (big + 1) = big.
Proof. rewrite (fl_is 9007199254740993 1 9007199254740992 1); [unfold big; lra|unfold big; lra|vm_compute; reflexivity]. Qed.
Lemma big_u : u * big = 1.
Proof. unfold u, big. change 9007199254740992%Z with (2 ^ 53)%Z. change (IZR (2 ^ 53)) with (bpow radix2 53). rewrite <- bpow_plus. reflexivity. Qed.

(** The bound of a sum is reached up to one part in 2^53. *)
Lemma reached : sum_fl left_to_right [big; 1] = big /\ Rabs (sum_fl left_to_right [big; 1] - Rsum [big; 1]) = 1 /\ err 1 * Rsum (map Rabs [big; 1]) = 1 + bpow radix2 (-53).
Proof.
  assert (E : sum_fl left_to_right [big; 1] = big) by (unfold sum_fl, left_to_right; cbn [length Nat.sub comb tsum nth]; apply absorbed).
  assert (B : 0 < big) by (unfold big; lra). rewrite E. split; auto. unfold Rsum. cbn [fold_right map]. rewrite (Rabs_pos_eq big), (Rabs_pos_eq 1) by lra. split.
  - replace (big - (big + (1 + 0))) with (- (1)) by ring. rewrite Rabs_Ropp. apply Rabs_R1.
  - rewrite err_S, err_0. fold u. pose proof big_u. lra.
Qed.

Definition lossB : list R := [big; 1; - big].
Lemma loss_sum : sum_fl left_to_right lossB = 0.
Proof. unfold sum_fl, left_to_right, lossB. cbn [length Nat.sub comb tsum nth]. rewrite absorbed. rewrite Rplus_opp_r. apply fl_0. Qed.
Lemma loss_var : 1 <= var_fl left_to_right ([0; 0; 0] ++ lossB).
Proof.
  assert (B : 1 <= big) by (unfold big; lra). pose proof big_double as D. set (l := [0; 0; 0] ++ lossB).
  assert (M : mean_fl left_to_right l = 0).
  { unfold mean_fl, sum_fl, left_to_right, l, lossB. cbn [app length Nat.sub comb tsum nth]. rewrite !Rplus_0_l, !fl_0, !Rplus_0_l, !fl_0, Rplus_0_l, (fl_double big D), absorbed, Rplus_opp_r, fl_0.
    unfold Rdiv. rewrite Rmult_0_l. apply fl_0. }
  unfold var_fl. rewrite M. unfold squares_fl, l, lossB. cbn [app map]. rewrite !Rminus_0_r, !fl_0, Rmult_0_l, fl_0, fl_opp, !(fl_double big D), (fl_double 1 one_double), Rmult_1_l, (fl_double 1 one_double).
  unfold sum_fl, left_to_right. cbn [length Nat.sub comb tsum nth]. rewrite !Rplus_0_l, !fl_0, !Rplus_0_l, !fl_0, Rplus_0_l.
  assert (S : 16 <= fl (big * big)). { apply fl_ge; [apply (double_Z 16); discriminate|]. unfold big. lra. }
  replace (- big * - big) with (big * big) by ring. set (q := fl (big * big)) in *. rewrite (fl_double q) by apply double_fl.
  assert (S1 : 16 <= fl (q + 1)). { apply fl_ge; [apply (double_Z 16); discriminate|lra]. }
  assert (S2 : 16 <= fl (fl (q + 1) + q)). { apply fl_ge; [apply (double_Z 16); discriminate|lra]. }
  apply fl_ge; [apply one_double|]. simpl. lra.
Qed.

(** First-order indices have no relative accuracy: here the computed one is 0, the exact one, with either variance, is not. *)
Lemma loss_first : first_fl left_to_right [0; 0; 0] [1; 1; 1] lossB = Some 0 /\
  0 < mean (map2 (fun b d => b * d) lossB (map2 (fun ab a => ab - a) [1; 1; 1] [0; 0; 0])) / var_fl left_to_right ([0; 0; 0] ++ lossB) /\
  0 < mean (map2 (fun b d => b * d) lossB (map2 (fun ab a => ab - a) [1; 1; 1] [0; 0; 0])) / var ([0; 0; 0] ++ lossB).
Proof.
  pose proof loss_var as LV. assert (B : 1 <= big) by (unfold big; lra). pose proof big_double as D. pose proof one_double as D1. pose proof double_0 as D0.
  assert (M : mean (map2 (fun b d => b * d) lossB (map2 (fun ab a => ab - a) [1; 1; 1] [0; 0; 0])) = / 3) by (unfold mean, Rsum, lossB; cbn [map2 fold_right length INR]; field).
  rewrite M. split; [|split].
  - unfold first_fl. rewrite ptp_differs.
    2:{ unfold lossB. cbn [app]. repeat (apply Forall_cons; auto). apply double_opp; auto. }
    2:{ exists 0, big. unfold lossB. cbn [app In]. split; [auto|]. split; [auto|lra]. }
    unfold first_col_fl, fdiv_fl. destruct (Reqb (var_fl left_to_right ([0; 0; 0] ++ lossB)) 0) eqn:E; [apply Reqb_true in E; lra|].
    assert (Z : map2 mul_fl lossB (map2 sub_fl [1; 1; 1] [0; 0; 0]) = lossB).
    { unfold lossB, mul_fl, sub_fl. cbn [map2]. rewrite !Rminus_0_r, !(fl_double 1 D1), !Rmult_1_r, fl_opp, (fl_double big D), (fl_double 1 D1). auto. }
    rewrite Z. unfold mean_fl. rewrite loss_sum. unfold Rdiv. rewrite Rmult_0_l, fl_0, Rmult_0_l, fl_0. auto.
  - unfold Rdiv. apply Rmult_lt_0_compat; [lra|]. apply Rinv_0_lt_compat. lra.
  - unfold Rdiv. apply Rmult_lt_0_compat; [lra|]. apply Rinv_0_lt_compat. unfold var, mean, Rsum, lossB. cbn [app map fold_right length INR].
    set (m := (0 + _) / _). unfold Rdiv. apply Rmult_lt_0_compat; [|lra]. pose proof (pow2_ge_0 (0 - m)). pose proof (pow2_ge_0 (1 - m)). pose proof (pow2_ge_0 (- big - m)).
    pose proof (pow2_ge_0 (big - m)). destruct (Req_dec m 0) as [->|K]; [nra|]. assert (0 < (0 - m) ^ 2) by nra. lra.
Qed.

(** Total orders of small integers are exact. *)
Lemma exact_total : total_fl left_to_right [0; 1] [1; 1] [1; 0] = Some 1 /\ var_fl left_to_right [0; 1; 1; 0] = / 4.
Proof.
  pose proof one_double as D1. pose proof double_0 as D0.
  assert (D2 : double (/ 2)). { pose proof (double_F 1 (-1) ltac:(reflexivity) ltac:(discriminate)) as H. replace (/ 2) with (1 * bpow radix2 (-1)); [auto|simpl; lra]. }
  assert (D4 : double (/ 4)). { pose proof (double_F 1 (-2) ltac:(reflexivity) ltac:(discriminate)) as H. replace (/ 4) with (1 * bpow radix2 (-2)); [auto|simpl; lra]. }
  assert (F2 : fl (1 + 1) = 2) by byZ 2%Z.
  assert (V : var_fl left_to_right [0; 1; 1; 0] = / 4).
  { assert (M : mean_fl left_to_right [0; 1; 1; 0] = / 2).
    { unfold mean_fl, sum_fl, left_to_right. cbn [length Nat.sub comb tsum nth]. rewrite Rplus_0_l, (fl_double 1 D1), F2, Rplus_0_r.
      replace (fl 2) with 2 by (symmetry; byZ 2%Z). replace (2 / INR 4) with (/ 2) by (simpl; field). apply fl_double; auto. }
    unfold var_fl. rewrite M. unfold squares_fl. cbn [map]. replace (1 - / 2) with (/ 2) by field. rewrite Rminus_0_l, fl_opp, (fl_double _ D2). replace (- / 2 * - / 2) with (/ 4) by field. replace (/ 2 * / 2) with (/ 4) by field.
    rewrite (fl_double _ D4). unfold sum_fl, left_to_right. cbn [length Nat.sub comb tsum nth]. replace (/ 4 + / 4) with (/ 2) by field. rewrite (fl_double _ D2).
    assert (F34 : fl (/ 2 + / 4) = 3 / 4) by (apply (fl_is 3 4 3 4); [field|vm_compute; reflexivity]). rewrite F34. replace (3 / 4 + / 4) with 1 by field. rewrite (fl_double _ D1).
    replace (1 / INR 4) with (/ 4) by (simpl; field). apply fl_double; auto. }
  split; auto. unfold total_fl. cbn [app]. rewrite ptp_differs; [|repeat (apply Forall_cons; auto)|exists 0, 1; cbn [In]; split; [auto|split; [auto|lra]]].
  unfold total_col_fl, fdiv_fl. cbn [app]. rewrite V. destruct (Reqb (/ 4) 0) eqn:E; [apply Reqb_true in E; lra|]. f_equal.
  unfold sub_fl, mul_fl. cbn [map2 map]. rewrite Rminus_0_l, fl_opp, (fl_double 1 D1), Rminus_diag_eq, !fl_0 by auto. replace (- (1) * - (1)) with 1 by ring. rewrite Rmult_0_l, fl_0, ?(fl_double 1 D1).
  unfold mean_fl, sum_fl, left_to_right. cbn [length Nat.sub comb tsum nth]. rewrite Rplus_0_r, (fl_double 1 D1). replace (1 / INR 2) with (/ 2) by (simpl; field). rewrite (fl_double _ D2).
  replace (/ 2 * / 2) with (/ 4) by field. rewrite (fl_double _ D4). replace (/ 4 / / 4) with 1 by field. apply fl_double; auto.
Qed.
