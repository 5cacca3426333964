(** * The plots of HDMR results: C121 for src/SALib/plotting/hdmr.py. *)
From Coq Require Import Reals String List Arith ZArith Bool Lia Lra Psatz Permutation.
From Verif Require Import Base Arrays ListFacts ModelScale Stats ModelFast ModelMorrisAnalyze ModelHdmr SpecHdmr ProofsHdmr4 ProofsHdmr5 ModelPlotting ProofsPlotting7
  ModelHdmrPlot ProofsHdmrPlot ProofsHdmrPlot2 ProofsHdmrPlot3.
Import ListNotations.
Local Open Scope nat_scope.

(** C121: the panels of the emulator show the last ten trials in order, numbered backwards, so that "Trial 1" is the last one.  Each pairs what was emulated with
    what was observed at the same row, and the squared distances from the line of equality add up to the reported error. *)
Theorem C121_trials : forall regress crit quantile argsorts junk names X y maxorder maxiter m K Ro alpha lambdax h,
  hdmr_analyze regress crit quantile argsorts junk names X (Vector y) maxorder maxiter m K Ro alpha lambdax = Ok h ->
  (forall k, Permutation (argsorts k) (seq 0 (length (rows X)))) ->
  forall t ts rs te, hdmr_plot h names X y t = Ok (ts, rs, te) ->
  length ts = Nat.min (Z.to_nat K) 10 /\
  forall q p, nth_error ts q = Some p -> let '(fig, pos, title, pts) := p in
    fig = 0 /\ pos = q + 1 /\ title = Nat.min (Z.to_nat K) 10 - q /\
    exists f idx, nth_error (h_Em h) (Z.to_nat K - title) = Some f /\ nth_error (h_idx h) (Z.to_nat K - title) = Some idx /\
      length pts = length idx /\
      (forall r i, nth_error idx r = Some i -> exists e v, nth_error (fit_Y_e f) r = Some e /\ nth_error y i = Some v /\ nth_error pts r = Some (e, v)) /\
      Rsum (map (fun p => (snd p - fst p) ^ 2)%R pts) = (INR (length idx) * fit_RMSE f ^ 2)%R.
Proof. exact shown_trials. Qed.
Print Assumptions C121_trials.

(** C121: there is a panel per parameter, under its name.  Its red points are the samples of the last trial; its black points lie, over the same abscissae, on the graph
    of a function of the parameter alone: the fitted component of the last trial plus a constant. *)
Theorem C121_regressions : forall regress crit quantile argsorts junk names X y maxorder maxiter m K Ro alpha lambdax h,
  hdmr_analyze regress crit quantile argsorts junk names X (Vector y) maxorder maxiter m K Ro alpha lambdax = Ok h ->
  (forall k, Permutation (argsorts k) (seq 0 (length (rows X)))) -> wf_mat X -> cols X <= length names ->
  forall t ts rs te, hdmr_plot h names X y t = Ok (ts, rs, te) ->
  length rs = cols X /\
  exists f idx, nth_error (h_Em h) (Z.to_nat K - 1) = Some f /\ nth_error (h_idx h) (Z.to_nat K - 1) = Some idx /\
  fit_f0 f = mean (map (fun i => nth i y 0%R) idx) /\
  forall j p, nth_error rs j = Some p -> let '(fig, pos, title, (red, black)) := p in
    fig = j / 3 /\ pos = j mod 3 + 1 /\ nth_error names j = Some title /\ length red = length idx /\ length black = length idx /\
    exists (g : R -> R) c, nth_error (fit_Y_em f) j = Some c /\
      forall r i, nth_error idx r = Some i -> exists row x v, nth_error (rows X) i = Some row /\ nth_error row j = Some x /\ nth_error y i = Some v /\
        nth_error c r = Some (g x) /\
        nth_error red r = Some (x, v) /\ nth_error black r = Some (x, mean (map fit_f0 (h_Em h)) + g x)%R.
Proof. exact shown_regressions. Qed.
Print Assumptions C121_regressions.

(** The constant is the mean, over all trials, of the mean outputs of the trial. *)
Theorem C121_constant : forall regress crit quantile argsorts junk names X y maxorder maxiter m K Ro alpha lambdax h,
  hdmr_analyze regress crit quantile argsorts junk names X (Vector y) maxorder maxiter m K Ro alpha lambdax = Ok h ->
  (forall k, Permutation (argsorts k) (seq 0 (length (rows X)))) ->
  mean (map fit_f0 (h_Em h)) = mean (map (fun idx => mean (map (fun i => nth i y 0%R) idx)) (h_idx h)).
Proof. exact drawn_mean. Qed.
Print Assumptions C121_constant.

(** C121 is false of the title "(Last Trial)": the black points are not the fit of the last trial, whose mean may be another one. *)
Theorem C121_last_trial_refuted : exists X y argsorts, wf_mat X /\ (forall k, Permutation (argsorts k) (seq 0 (length (rows X)))) /\
  forall regress crit quantile junk, (forall b l, exists t, regress b l = Ok t) ->
  exists h ts red black rs f idx, hdmr_analyze regress crit quantile argsorts junk ["a"; "b"]%string X (Vector y) 1 100 2 2 None (95 / 100) (1 / 100) = Ok h /\
    hdmr_plot h ["a"; "b"]%string X y untested = Ok (ts, (0, 1, "a"%string, (red, black)) :: rs, None) /\
    nth_error (h_Em h) 1 = Some f /\ nth_error (h_idx h) 1 = Some idx /\
    forall r i, nth_error idx r = Some i -> exists x c, nth_error (nth 0 (fit_Y_em f) []) r = Some c /\
      nth_error black r = Some (x, fit_f0 f + c - 75)%R.
Proof. exact last_trial_shifted. Qed.
Print Assumptions C121_last_trial_refuted.

(** C121: after the emulator was called with observations, the testing panel shows predictions against them, with their squared distances added up. *)
Theorem C121_testing : forall h t X e y, emulate h X (Some y) = map Some e -> length y = length e ->
  testing_panel (emulate_call h t X (Some y)) =
  Ok (Some (combine (map Some e) y, Some (Rsum (map (fun p => (snd p - fst p) ^ 2)%R (combine e y))))).
Proof. intros h t X e y E L. unfold emulate_call. rewrite E. apply testing_numbers. auto. Qed.
Print Assumptions C121_testing.

(** Tested on the data analysed, without bootstrap, the panel is the one of the only trial, and the sum in its title is N times the squared error. *)
Theorem C121_training : forall regress crit quantile argsorts junk names X y maxorder maxiter m Ro alpha lambdax h, wf_mat X ->
  hdmr_analyze regress crit quantile argsorts junk names X (Vector y) maxorder maxiter m 1 Ro alpha lambdax = Ok h ->
  (forall k, Permutation (argsorts k) (seq 0 (length (rows X)))) -> cols X <= length names ->
  exists pts rs f, h_Em h = [f] /\
    forall t, hdmr_plot h names X y (emulate_call h t X (Some y)) =
      Ok ([(0, 1, 1, pts)], rs, Some (map (fun p => (Some (fst p), snd p)) pts, Some (INR (length y) * fit_RMSE f ^ 2)%R)).
Proof. exact training_panel. Qed.
Print Assumptions C121_training.

(** C121 is false of an emulator called without observations: the plot raises KeyError, or compares the predictions with the observations of an earlier call,
    which raises ValueError when there are more or fewer of them. *)
Theorem C121_unobserved_refuted : forall h X, wf_mat X ->
  testing_panel (emulate_call h untested X None) = Err KeyError /\
  forall t X' y, wf_mat X' -> let t' := emulate_call h (emulate_call h t X' (Some y)) X None in
    (length y <> length (rows X) -> testing_panel t' = Err ValueError) /\
    (length y = length (rows X) -> exists s, testing_panel t' = Ok (Some (combine (emulate h X None) y, s))).
Proof.
  intros h X WF. split; [reflexivity|]. intros t X' y WF'. cbv zeta. unfold testing_panel, emulate_call. cbn [t_emulated t_observed].
  rewrite emulate_length by auto. split; intros L.
  - destruct (Nat.eqb_spec (length (rows X)) (length y)); [congruence|reflexivity].
  - rewrite L, Nat.eqb_refl. eauto.
Qed.
Print Assumptions C121_unobserved_refuted.

(** Predictions 1 and 3 of the outputs 1 and 5: the sum is 4. *)
Example C121_example : testing_panel (mkTested (Some [Some 1; Some 3]%R) (Some [1; 5]%R)) = Ok (Some ([(Some 1, 1); (Some 3, 5)]%R, Some 4%R)) /\
  testing_panel (mkTested (Some [Some 1; None]%R) (Some [1; 5]%R)) = Ok (Some ([(Some 1, 1); (None, 5)]%R, None)) /\
  testing_panel (mkTested (Some [Some 1; Some 3]%R) (Some [1]%R)) = Err ValueError /\ testing_panel untested = Ok None.
Proof.
  repeat split. change [Some 1; Some 3]%R with (map Some [1; 3]%R). rewrite testing_numbers by reflexivity. cbn [combine map fst snd Rsum fold_right]. repeat f_equal. ring.
Qed.
