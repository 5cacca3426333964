(** * HDMR plots: a shifted component, and the plot of the analysed data. *)
From Coq Require Import Reals String List Arith ZArith Bool Lia Lra Psatz Sorted Permutation.
From Verif Require Import Base Arrays ListFacts ModelGroups ModelScale ProofsScale Stats Sums ModelFast ModelMorris ModelMorrisAnalyze ModelDgsm ModelPawn ProofsMorris7 ProofsDgsm2 ProofsDelta5
  ModelHdmr SpecHdmr ProofsHdmr ProofsHdmr2 ProofsHdmr3 ProofsHdmr4 ProofsHdmr5 ProofsHdmr6 ModelPlotting ProofsPlotting ProofsPlotting7 ModelHdmrPlot ProofsHdmrPlot ProofsHdmrPlot2.
Import ListNotations.
Local Open Scope nat_scope.

Lemma training_panel : forall regress crit quantile argsorts junk names X y maxorder maxiter m Ro alpha lambdax h, wf_mat X ->
  hdmr_analyze regress crit quantile argsorts junk names X (Vector y) maxorder maxiter m 1 Ro alpha lambdax = Ok h ->
  (forall k, Permutation (argsorts k) (seq 0 (length (rows X)))) -> cols X <= length names ->
  exists pts rs f, h_Em h = [f] /\
    forall t, hdmr_plot h names X y (emulate_call h t X (Some y)) =
      Ok ([(0, 1, 1, pts)], rs, Some (map (fun p => (Some (fst p), snd p)) pts, Some (INR (length y) * fit_RMSE f ^ 2)%R)).
Proof.
  intros regress crit quantile argsorts junk names X y mo mi m Ro al la h WF E P LN.
  destruct (run_emulator _ _ _ _ _ _ _ _ _ _ _ _ _ _ _ WF E) as (f & Ef & Le & _ & EM & _).
  destruct (run_trial _ _ _ _ _ _ _ _ _ _ _ _ _ _ _ _ E P) as (LY & _ & LE & LI & RT).
  destruct (RT 0) as (f' & idx & Ef' & Ei & L2 & HI & Lf & _ & RM & _); [simpl; lia|].
  rewrite Ef in Ef'. injection Ef' as <-.
  assert (EI : idx = seq 0 (length y)).
  { pose proof E as E0. apply run_inv in E0. destruct E0 as (_ & y' & fits & EY & _ & F). cbv zeta in F. apply finalize_inv in F.
    destruct F as (_ & _ & _ & _ & F5 & _). rewrite F5 in Ei. unfold bootstrap_rows in Ei. cbn [settings_of st_K] in Ei. change (Z.to_nat 1 =? 1) with true in Ei. cbv iota in Ei. cbn [nth_error] in Ei. rewrite LY. injection Ei as <-. reflexivity. }
  assert (TY : take_rows 0%R idx y = y) by (rewrite EI; apply take_rows_all; auto).
  exists (combine (fit_Y_e f) y). eexists. exists f. split; auto. intros t. unfold hdmr_plot. rewrite Ef. cbn [length].
  change (trial_panels 1) with (Ok [(0, 1, 0)]). cbn [bind]. rewrite regressions_shown by auto. cbn [bind].
  unfold emulate_call. rewrite EM, testing_numbers by auto. cbn [bind map Nat.sub]. unfold trial_points. rewrite Ef, Ei. cbn [nth_error]. rewrite TY.
  do 2 f_equal. f_equal. f_equal.
  - clear. generalize (fit_Y_e f) as e. induction e as [|a e IH] in y |- *; [reflexivity|]. destruct y as [|b y]; [reflexivity|]. cbn [map combine fst snd]. f_equal. apply IH.
  - f_equal. rewrite sumsq_points by auto. rewrite TY in RM. rewrite <- RM. rewrite EI, seq_length. reflexivity.
Qed.

(** ** Two trials with different means *)
Definition two_X : mat R := mkMat 2 (map (fun i => [INR i; - INR i]%R) (seq 0 300)).
Definition two_y : list R := map INR (seq 0 300).
Definition two_rows (k : nat) : list nat := match k with 0 => seq 0 300 | _ => rev (seq 0 300) end.

Lemma Rsum_INR : forall l, Rsum (map INR l) = INR (list_sum l).
Proof. unfold Rsum. induction l; [reflexivity|]. cbn [map fold_right list_sum]. rewrite plus_INR, IHl. reflexivity. Qed.

Lemma two_mean : forall idx n, (forall i, In i idx -> i < 300) -> length idx = 150 -> Z.of_nat (list_sum idx) = n -> mean (map (fun i => nth i two_y 0%R) idx) = (IZR n / 150)%R.
Proof.
  intros idx n H L S. assert (Q : map (fun i => nth i two_y 0%R) idx = map INR idx).
  { apply map_ext_in. intros i Hi. unfold two_y. rewrite (nth_indep _ 0%R (INR 0)) by (rewrite map_length, seq_length; auto). rewrite map_nth, seq_nth by auto. reflexivity. }
  rewrite Q. unfold mean. rewrite Rsum_INR, map_length, L, !INR_IZR_INZ, S. reflexivity.
Qed.

Lemma last_trial_shifted : exists X y argsorts, wf_mat X /\ (forall k, Permutation (argsorts k) (seq 0 (length (rows X)))) /\
  forall regress crit quantile junk, (forall b l, exists t, regress b l = Ok t) ->
  exists h ts red black rs f idx, hdmr_analyze regress crit quantile argsorts junk ["a"; "b"]%string X (Vector y) 1 100 2 2 None (95 / 100) (1 / 100) = Ok h /\
    hdmr_plot h ["a"; "b"]%string X y untested = Ok (ts, (0, 1, "a"%string, (red, black)) :: rs, None) /\
    nth_error (h_Em h) 1 = Some f /\ nth_error (h_idx h) 1 = Some idx /\
    forall r i, nth_error idx r = Some i -> exists x c, nth_error (nth 0 (fit_Y_em f) []) r = Some c /\
      nth_error black r = Some (x, fit_f0 f + c - 75)%R.
Proof.
  exists two_X, two_y, two_rows.
  assert (LX : length (rows two_X) = 300) by (unfold two_X; cbn [rows]; rewrite map_length; apply seq_length).
  assert (WF : wf_mat two_X).
  { unfold wf_mat, two_X. cbn [rows cols]. apply Forall_forall. intros r Hr. apply in_map_iff in Hr. destruct Hr as (i & <- & _). reflexivity. }
  assert (P : forall k, Permutation (two_rows k) (seq 0 (length (rows two_X)))).
  { intros [|k]; rewrite LX; [apply Permutation_refl|]. apply Permutation_sym, Permutation_rev. }
  split; auto. split; auto. intros regress crit quantile junk HR.
  destruct (run_ok regress crit quantile two_rows junk ["a"; "b"]%string two_X two_y 1 100 2 2 None (95 / 100) (1 / 100)) as (h & E).
  - unfold settings_ok. unfold two_y. rewrite LX. cbn [two_X cols y_rows y_size]. rewrite !map_length, !seq_length. repeat split; try lia; try lra; discriminate.
  - auto.
  - simpl. lia.
  - intros j Hj. cbn [two_X cols] in Hj. rewrite column_map by (auto; simpl; lia). unfold two_X. cbn [rows]. rewrite map_map.
    intros Z. set (g := fun i => nth j [INR i; - INR i]%R 0%R) in *. assert (NE : map g (seq 0 300) <> []) by discriminate.
    assert (Q : g 0 = g 1) by (apply (proj1 (ptp_zero_iff _ NE) Z); apply in_map, in_seq; lia).
    unfold g in Q. destruct j as [|[|j]]; [| |lia]; simpl in Q; lra.
  - simpl. lia.
  - exists h.
    destruct (run_trial _ _ _ _ _ _ _ _ _ _ _ _ _ _ _ _ E P) as (LY & HK & LE & LI & RT).
    change (Z.to_nat 2) with 2 in *.
    assert (PL : exists ts rs, hdmr_plot h ["a"; "b"]%string two_X two_y untested = Ok (ts, rs, None)).
    { unfold hdmr_plot. rewrite LE. change (trial_panels 2) with (Ok [(0, 1, 0); (0, 2, 1)]). cbn [bind]. rewrite regressions_shown by (simpl; lia). cbn [bind].
      change (testing_panel untested) with (Ok (@None (list (fval * R) * fval))). cbn [bind]. eauto. }
    destruct PL as (ts & rs & PL).
    destruct (shown_regressions _ _ _ _ _ _ _ _ _ _ _ _ _ _ _ _ E P WF ltac:(simpl; lia) _ _ _ _ PL) as (LR & f & idx & Ef & Ei & F0 & SR).
    change (Z.to_nat 2 - 1) with 1 in *. cbn [two_X cols] in LR. destruct rs as [|p rs]; [discriminate|].
    specialize (SR 0 p eq_refl). destruct p as (((fig, pos), title), (red, black)). destruct SR as (Hfig & Hpos & Ht & _ & _ & g & c & Ec & SR).
    cbn in Hfig, Hpos, Ht. injection Ht as <-. subst fig pos. exists ts, red, black, rs, f, idx. split; auto. split; auto. split; auto. split; auto.
    assert (CI : h_idx h = [firstn 150 (two_rows 0); firstn 150 (two_rows 1)]).
    { pose proof E as E0. apply run_inv in E0. destruct E0 as (_ & y' & fits & EY & _ & F). cbv zeta in F. apply finalize_inv in F.
      destruct F as (_ & _ & _ & _ & F5 & _). rewrite F5. rewrite LX. unfold bootstrap_rows, settings_of. cbn [st_K st_R].
      change (Z.to_nat 2 =? 1) with false. cbv iota. change (Z.to_nat 2) with 2. change (2 =? 1)%Z with false. cbv iota. change (300 / 2) with 150. reflexivity. }
    assert (EI : idx = firstn 150 (two_rows 1)) by (rewrite CI in Ei; cbn [nth_error] in Ei; injection Ei as <-; reflexivity).
    pose proof (drawn_mean _ _ _ _ _ _ _ _ _ _ _ _ _ _ _ _ E P) as DM. rewrite CI in DM. cbn [map] in DM.
    assert (M0 : mean (map (fun i => nth i two_y 0%R) (firstn 150 (two_rows 0))) = (11175 / 150)%R).
    { apply two_mean; [|reflexivity|vm_compute; reflexivity]. intros i Hi. apply Nat.ltb_lt. revert i Hi. apply forallb_forall. vm_compute. reflexivity. }
    assert (M1 : mean (map (fun i => nth i two_y 0%R) (firstn 150 (two_rows 1))) = (33675 / 150)%R).
    { apply two_mean; [|reflexivity|vm_compute; reflexivity]. intros i Hi. apply Nat.ltb_lt. revert i Hi. apply forallb_forall. vm_compute. reflexivity. }
    rewrite M0, M1 in DM. rewrite EI, M1 in F0.
    assert (DV : (mean (map fit_f0 (h_Em h)) = fit_f0 f - 75)%R) by (rewrite DM, F0; unfold mean, Rsum; cbn [fold_right length INR]; lra).
    intros r i Hr. destruct (SR r i Hr) as (row & x & v & _ & _ & _ & Hc & _ & Hb). exists x, (g x). split.
    + rewrite (nth_error_nth _ _ [] Ec). auto.
    + rewrite Hb. do 2 f_equal. rewrite DV. ring.
Qed.
