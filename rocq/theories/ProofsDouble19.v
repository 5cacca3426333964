(** * The Morris analysis in double precision: six equal effects. *)
From Coq Require Import Reals String List Arith ZArith Bool Lia Lra Permutation.
From Flocq Require Import Core.
From Verif Require Import Base Arrays ListFacts ModelGroups ModelScale ProofsScale SpecGroups ProofsGroups Stats ModelFast ModelMorris ModelMorrisAnalyze SpecMorris ProofsMorris1 ProofsMorris3 ProofsMorris7
  ModelDouble ModelDouble2 ModelDouble4 ModelDouble5 SpecDouble3 ProofsDouble ProofsDouble2 ProofsDouble5 ProofsDouble8 ProofsDouble9 ProofsDouble10 ProofsDouble15 ProofsDouble16 ProofsDouble17 ProofsLevels2.
Import ListNotations.
Local Open Scope R_scope.

Definition six_p : problem := mkProblem 1 ["a"%string] [[0; 1]] None None false.
Definition six_X : mat R := mkMat 1 (concat (repeat [[0]; [1]] 6)).
Definition six_Y : list R := concat (repeat [0; tenth] 6).
Definition left_sums : sums := mkSums left_to_right left_to_right left_to_right left_to_right left_to_right.

Lemma fl_one : fl 1 = 1.
Proof. apply fl_double, double_1. Qed.
Lemma delta_two : delta_fl 2 = 1.
Proof. unfold delta_fl. replace (2 * (INR 2 - 1)) with (bpow radix2 1) by (simpl; lra). rewrite (fl_double (bpow radix2 1)) by (apply generic_format_FLT_bpow; [reflexivity|lia]). replace (INR 2 / bpow radix2 1) with 1 by (simpl; lra). apply fl_one. Qed.
Lemma tenth_double : double tenth.
Proof. apply double_fl. Qed.

Lemma six_coord : forall i, (i < 6)%nat -> x_at 2 (rows six_X) i 0 0 = 0 /\ x_at 2 (rows six_X) i 1 0 = 1 /\ y_at 2 six_Y i 0 = 0 /\ y_at 2 six_Y i 1 = tenth.
Proof. intros i H. do 6 (destruct i as [|i]; [repeat split; reflexivity|]). lia. Qed.

Lemma six_effect : forall i, (i < 6)%nat -> effect_fl left_sums 2 (rows six_X) six_Y (delta_fl 2) false i 0 = Some tenth.
Proof.
  intros i H. destruct (six_coord i H) as (X0 & X1 & Y0 & Y1). unfold effect_fl, difference_fl, reorganize_fl, picked, pad_before, pad_after. cbn [seq map Nat.sub Nat.ltb Nat.leb andb s_einsum left_sums left_to_right comb tsum nth].
  unfold increased_fl, decreased_fl. cbn [Nat.add]. rewrite X0, X1, Rminus_0_r, fl_one, Y0, Y1. rewrite (proj2 (Rltb_true 0 1)) by lra. rewrite (proj2 (Rltb_false 1 0)) by lra. cbn [orb andb].
  rewrite !Rplus_0_l, fl_0, !Rminus_0_r, fl_double by apply double_fl. rewrite (fl_double tenth tenth_double). unfold fdiv_fl. rewrite delta_two.
  destruct (Reqb 1 0) eqn:E; [apply Reqb_true in E; lra|]. unfold Rdiv. rewrite Rinv_1, Rmult_1_r. f_equal. apply fl_double, tenth_double.
Qed.
Lemma six_col : col_fl left_sums 1 (rows six_X) six_Y 2 false 6 0 = map Some tenths.
Proof. unfold col_fl. cbn [seq map]. rewrite !six_effect by lia. reflexivity. Qed.

Lemma six_sum : tsum (left_to_right 6) tenths = IZR 5404319552844595 / IZR 9007199254740992.
Proof.
  cbn [left_to_right Nat.sub comb tsum nth tenths repeat]. rewrite tenth_value.
  rewrite (add_by 7205759403792794 72057594037927936 7205759403792794 72057594037927936 7205759403792794 36028797018963968) by (reflexivity || (vm_compute; reflexivity)).
  rewrite (add_by 7205759403792794 36028797018963968 7205759403792794 72057594037927936 5404319552844596 18014398509481984) by (reflexivity || (vm_compute; reflexivity)).
  rewrite (add_by 5404319552844596 18014398509481984 7205759403792794 72057594037927936 7205759403792794 18014398509481984) by (reflexivity || (vm_compute; reflexivity)).
  rewrite (add_by 7205759403792794 18014398509481984 7205759403792794 72057594037927936 4503599627370496 9007199254740992) by (reflexivity || (vm_compute; reflexivity)).
  apply add_by; reflexivity || (vm_compute; reflexivity).
Qed.
Lemma six_average : mean_fl left_to_right tenths = tenth - bpow radix2 (-56).
Proof.
  unfold mean_fl, sum_fl. change (length tenths) with 6%nat. rewrite six_sum. replace (INR 6) with 6 by (simpl; lra).
  replace (IZR 5404319552844595 / IZR 9007199254740992 / 6) with (IZR 5404319552844595 / IZR (6 * 9007199254740992)) by (rewrite mult_IZR; field).
  rewrite (proj2 (proj2 (rnd_spec 5404319552844595 (6 * 9007199254740992) 7205759403792793 72057594037927936 ltac:(vm_compute; reflexivity)))).
  rewrite tenth_value. change (bpow radix2 (-56)) with (/ IZR 72057594037927936). lra.
Qed.
Lemma six_spread : exists v, std1_fl left_to_right tenths = Some v /\ 0 < v.
Proof.
  unfold std1_fl. change (length tenths) with 6%nat. cbn [Nat.ltb Nat.leb]. eexists. split; [reflexivity|]. rewrite six_average.
  assert (B : forall e, (-1074 <= e)%Z -> double (bpow radix2 e)) by (intros e He; apply generic_format_FLT_bpow; [reflexivity|lia]).
  assert (Q : squares_fl (tenth - bpow radix2 (-56)) tenths = repeat (bpow radix2 (-112)) 6).
  { unfold squares_fl, tenths. cbn [repeat map]. replace (tenth - (tenth - bpow radix2 (-56))) with (bpow radix2 (-56)) by ring. rewrite (fl_double _ (B (-56)%Z ltac:(lia))), <- bpow_plus.
    change (-56 + -56)%Z with (-112)%Z. rewrite (fl_double _ (B (-112)%Z ltac:(lia))). reflexivity. }
  rewrite Q. unfold sum_fl. cbn [length repeat left_to_right Nat.sub comb tsum nth]. set (b := bpow radix2 (-112)). assert (P : 0 < b) by apply bpow_gt_0.
  assert (S : forall x, b <= x -> b <= fl (x + b)) by (intros x Hx; apply fl_ge; [apply B; lia|lra]).
  match goal with |- 0 < fl (sqrt (fl (?t / _))) => assert (T : b <= t) by (repeat apply S; lra); set (s := t) in * end.
  assert (W : bpow radix2 (-115) <= fl (s / INR 5)).
  { apply fl_ge; [apply B; lia|]. replace (INR 5) with 5 by (simpl; lra). unfold b in T. change (-112)%Z with (3 + -115)%Z in T. rewrite bpow_plus in T. change (bpow radix2 3) with 8 in T. pose proof (bpow_gt_0 radix2 (-115)). lra. }
  apply Rlt_le_trans with (bpow radix2 (-58)); [apply bpow_gt_0|]. apply fl_ge; [apply B; lia|]. rewrite <- (sqrt_square (bpow radix2 (-58))) by apply bpow_ge_0. apply sqrt_le_1_alt.
  rewrite <- bpow_plus. eapply Rle_trans; [|exact W]. apply bpow_le. lia.
Qed.

Lemma six_labels : labels_of six_p ["a"%string].
Proof. unfold labels_of. cbn. auto. Qed.
Lemma six_count : distinct_count ["a"%string] 1.
Proof. exists ["a"%string]. repeat split; auto; try (constructor; auto; constructor). Qed.

Lemma six_result : forall nq cl resample, 0 < cl < 1 -> exists out s, snd (morris_analyze_fl left_sums nq six_p six_X six_Y cl false 2 resample) = Ok out /\
  m_names out = ["a"%string] /\ m_mu out = [Some (tenth - bpow radix2 (-56))] /\ m_mu_star out = [Some (tenth - bpow radix2 (-56))] /\ m_sigma out = [Some s] /\ 0 < s.
Proof.
  intros nq cl resample Hcl. destruct (shaped left_sums nq six_p ["a"%string] 1 6 six_X six_Y cl false 2 resample) as (p1 & m & Em & _ & _ & E); auto using six_labels, six_count; try (cbn; lia).
  - cbv zeta in E. rewrite E. vm_compute in Em. injection Em as <-. cbn [snd]. destruct six_spread as (s & Es & Ps).
    assert (D : double (tenth - bpow radix2 (-56))) by (rewrite <- six_average; apply double_fl).
    assert (G : forall x, double x -> grouped_fl left_to_right [Some x] [[1%nat]] 0 = Some x).
    { intros x Dx. unfold grouped_fl. cbn. f_equal. rewrite (fl_double (x / 1)); [lra|]. replace (x / 1) with x by field. auto. }
    eexists _, s. split; [reflexivity|]. cbn [m_names m_mu m_mu_star m_sigma six_p p_num_vars seq map]. rewrite six_col.
    assert (F : all_some (map Some tenths) = Some tenths) by reflexivity. assert (AB : map fabs (map Some tenths) = map Some tenths).
    { cbn. rewrite Rabs_pos_eq; auto. unfold tenth. apply fl_pos. lra. }
    rewrite AB. unfold fmean_fl, fsd1_fl. rewrite F. cbn [option_map left_sums s_over s_within]. rewrite six_average, Es.
    assert (Ds : double s). { unfold std1_fl in Es. change (length tenths) with 6%nat in Es. cbn [Nat.ltb Nat.leb] in Es. injection Es as <-. apply double_fl. }
    unfold grouped_metric_fl, grouped_sigma_fl. cbn [seq map]. change (list_sum (column [[1%nat]] 0) =? 1)%nat with true. rewrite !G by auto. repeat split; auto.
Qed.
Lemma six_effects : elementary_effects_fl left_sums 2 (rows six_X) six_Y 1 (delta_fl 2) false = Ok [repeat (Some tenth) 6].
Proof.
  unfold elementary_effects_fl. change (length (rows six_X) / 2)%nat with 6%nat. change (negb (6 * 2 =? length six_Y)%nat) with false. change (negb (6 * 2 * 1 =? length (rows six_X) * 1)%nat) with false. cbv iota.
  unfold tab. cbn [seq map]. rewrite !six_effect by lia. reflexivity.
Qed.
