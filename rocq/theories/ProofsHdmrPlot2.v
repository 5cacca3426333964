(** * The panels of the HDMR plots. *)
From Coq Require Import Reals String List Arith ZArith Bool Lia Lra Psatz Sorted Permutation.
From Verif Require Import Base Arrays ListFacts ModelGroups ModelScale ProofsScale Stats Sums ModelFast ModelMorris ModelMorrisAnalyze ModelDgsm ModelPawn ProofsMorris7
  ModelHdmr SpecHdmr ProofsHdmr ProofsHdmr2 ProofsHdmr3 ProofsHdmr4 ProofsHdmr5 ProofsHdmr6 ModelPlotting ProofsPlotting ProofsPlotting7 ModelHdmrPlot ProofsHdmrPlot.
Import ListNotations.
Local Open Scope nat_scope.

Lemma trials_Ok : forall K l, 1 <= K -> trial_panels K = Ok l -> l = map (fun k => (0, 1 + k, K - Nat.min K 10 + k)) (seq 0 (Nat.min K 10)).
Proof.
  intros K l HK E. destruct (le_lt_dec K 10) as [H|H].
  - rewrite trials_shown in E by auto. congruence.
  - destruct (Nat.eq_dec (K mod 10) 0) as [Q|Q].
    + rewrite trials_shown in E by auto. congruence.
    + rewrite trials_unbound in E by auto. discriminate.
Qed.

Lemma plot_inv : forall h names X Y t ts rs te, hdmr_plot h names X Y t = Ok (ts, rs, te) -> exists ps qs,
  trial_panels (length (h_Em h)) = Ok ps /\ regression_panels names (cols X) = Ok qs /\ testing_panel t = Ok te /\
  ts = map (fun p => let '(f, it, i) := p in (f, it, length (h_Em h) - i, trial_points h Y i)) ps /\
  rs = map (fun p => let '(f, it, j, n) := p in (f, it, n, regression_points h X Y j)) qs.
Proof.
  intros h names X Y t ts rs te E. unfold hdmr_plot in E.
  destruct (trial_panels _) as [ps|] eqn:E1; [|discriminate]. cbn [bind] in E.
  destruct (regression_panels _ _) as [qs|] eqn:E2; [|discriminate]. cbn [bind] in E.
  destruct (testing_panel _) as [te'|] eqn:E3; [|discriminate]. cbn [bind] in E.
  injection E as <- <- <-. exists ps, qs. auto.
Qed.

Section Runs.
Variable regress : list (list R) -> R -> result (option (list (list R))).
Variable crit : R -> nat -> Z -> option R.
Variable quantile : R -> fval.
Variable argsorts : nat -> list nat.
Variable junk : nat -> nat -> list (list R).
Variable names : list string.
Variable X : mat R.
Variable y : list R.
Variables maxorder maxiter m K : Z.
Variable Ro : option Z.
Variables alpha lambdax : R.
Variable h : hdmr_out.
Hypothesis run : hdmr_analyze regress crit quantile argsorts junk names X (Vector y) maxorder maxiter m K Ro alpha lambdax = Ok h.
Hypothesis perm : forall k, Permutation (argsorts k) (seq 0 (length (rows X))).

Lemma shown_trials : forall t ts rs te, hdmr_plot h names X y t = Ok (ts, rs, te) ->
  length ts = Nat.min (Z.to_nat K) 10 /\
  forall q p, nth_error ts q = Some p -> let '(fig, pos, title, pts) := p in
    fig = 0 /\ pos = q + 1 /\ title = Nat.min (Z.to_nat K) 10 - q /\
    exists f idx, nth_error (h_Em h) (Z.to_nat K - title) = Some f /\ nth_error (h_idx h) (Z.to_nat K - title) = Some idx /\
      length pts = length idx /\
      (forall r i, nth_error idx r = Some i -> exists e v, nth_error (fit_Y_e f) r = Some e /\ nth_error y i = Some v /\ nth_error pts r = Some (e, v)) /\
      Rsum (map (fun p => (snd p - fst p) ^ 2)%R pts) = (INR (length idx) * fit_RMSE f ^ 2)%R.
Proof.
  intros t ts rs te E. destruct (run_trial _ _ _ _ _ _ _ _ _ _ _ _ _ _ _ _ run perm) as (LY & HK & LE & LI & RT).
  apply plot_inv in E. destruct E as (ps & qs & E1 & _ & _ & -> & _). rewrite LE in *. apply trials_Ok in E1; auto. subst ps.
  split; [rewrite !map_length, seq_length; auto|]. intros q p Hq. rewrite map_map in Hq.
  rewrite nth_error_map', nth_error_seq in Hq. destruct (Nat.ltb_spec q (Nat.min (Z.to_nat K) 10)) as [Lq|]; [|discriminate]. cbn [option_map] in Hq.
  injection Hq as <-. cbn [Nat.add]. set (k := Z.to_nat K - Nat.min (Z.to_nat K) 10 + q). split; auto. split; [lia|]. split; [lia|].
  replace (Z.to_nat K - (Z.to_nat K - k)) with k by lia.
  destruct (RT k) as (f & idx & Ef & Ei & L2 & HI & Le & _ & RM & _); [lia|]. exists f, idx. split; auto. split; auto.
  unfold trial_points. rewrite Ef, Ei.
  assert (Lt : length (take_rows 0%R idx y) = length idx) by apply length_take_rows.
  split; [rewrite combine_length; lia|]. split.
  - intros r i Hr. assert (r < length idx) by (apply nth_error_Some; congruence).
    destruct (nth_error_lt_Some (fit_Y_e f) (i := r)) as (e & Ee); [lia|].
    destruct (nth_error_lt_Some y (i := i)) as (v & Ev); [apply HI; eapply nth_error_In; eauto|].
    exists e, v. split; auto. split; auto. apply nth_combine_points; auto.
    rewrite (nth_take_rows _ 0%R idx y r i Hr), (nth_error_nth y i 0%R Ev). auto.
  - rewrite sumsq_points by lia. auto.
Qed.

(** The panel of a parameter. *)
Lemma shown_regressions : wf_mat X -> cols X <= length names -> forall t ts rs te, hdmr_plot h names X y t = Ok (ts, rs, te) ->
  length rs = cols X /\
  exists f idx, nth_error (h_Em h) (Z.to_nat K - 1) = Some f /\ nth_error (h_idx h) (Z.to_nat K - 1) = Some idx /\
  fit_f0 f = mean (map (fun i => nth i y 0%R) idx) /\
  forall j p, nth_error rs j = Some p -> let '(fig, pos, title, (red, black)) := p in
    fig = j / 3 /\ pos = j mod 3 + 1 /\ nth_error names j = Some title /\ length red = length idx /\ length black = length idx /\
    exists (g : R -> R) c, nth_error (fit_Y_em f) j = Some c /\
      forall r i, nth_error idx r = Some i -> exists row x v, nth_error (rows X) i = Some row /\ nth_error row j = Some x /\ nth_error y i = Some v /\
        nth_error c r = Some (g x) /\
        nth_error red r = Some (x, v) /\ nth_error black r = Some (x, mean (map fit_f0 (h_Em h)) + g x)%R.
Proof.
  intros WF LN t ts rs te E. destruct (run_trial _ _ _ _ _ _ _ _ _ _ _ _ _ _ _ _ run perm) as (LY & HK & LE & LI & RT).
  apply plot_inv in E. destruct E as (ps & qs & _ & E2 & _ & _ & ->). rewrite regressions_shown in E2 by auto. injection E2 as <-.
  split; [rewrite !map_length, seq_length; auto|].
  destruct (RT (Z.to_nat K - 1)) as (f & idx & Ef & Ei & L2 & HI & Le & F0 & _ & CL & _ & RC); [lia|].
  exists f, idx. split; auto. split; auto. split; auto. intros j p Hj. rewrite map_map in Hj.
  rewrite nth_error_map', nth_error_seq in Hj. destruct (Nat.ltb_spec j (cols X)) as [Lj|]; [|discriminate]. cbn [option_map] in Hj. injection Hj as <-.
  cbn [Nat.add]. destruct (regression_points h X y j) as (red, black) eqn:ER. split; auto. split; auto.
  split. { apply nth_error_nth'. lia. }
  destruct (rev_last _ (h_Em h) (Z.to_nat K - 1)) as (f' & tf & RE & NF); [lia|].
  destruct (rev_last _ (h_idx h) (Z.to_nat K - 1)) as (idx' & ti & RI & NI); [lia|].
  assert (f' = f) by congruence. assert (idx' = idx) by congruence. subst f' idx'.
  unfold regression_points in ER. rewrite RE, RI in ER. injection ER as <- <-.
  destruct (RC j Lj) as (C & v & Nv & NC). rewrite (nth_error_nth _ _ [] NC).
  set (c := matvec (take_rows [] idx (basis1 (h_m h) v)) C) in *.
  assert (Lc : length c = length idx) by (unfold c; rewrite length_matvec, length_take_rows; auto).
  split; [rewrite combine_length, !length_take_rows; lia|].
  split; [rewrite combine_length, length_take_rows, map_length; lia|].
  rewrite column_map in Nv by auto. set (col := map (fun r => nth j r 0%R) (rows X)) in *.
  unfold normalise in Nv. destruct (Reqb (ptp col) 0); [discriminate|]. injection Nv as Nv.
  exists (fun x => dot (map (fun i => spline (h_m h) i ((x - minl col) / ptp col)) (seq 0 (h_m h + 3))) C), c. split; auto.
  intros r i Hr. assert (Hi : i < length y) by (apply HI; eapply nth_error_In; eauto).
  destruct (nth_error_lt_Some (rows X) (i := i)) as (row & Erow); [lia|].
  assert (Lrow : length row = cols X) by (unfold wf_mat in WF; rewrite Forall_forall in WF; apply WF; eapply nth_error_In; eauto).
  destruct (nth_error_lt_Some row (i := j)) as (x & Ex); [lia|]. destruct (nth_error_lt_Some y (i := i)) as (w & Ew); [auto|].
  exists row, x, w. split; auto. split; auto. split; auto.
  assert (Cx : nth i col 0%R = x).
  { unfold col. apply nth_error_nth. rewrite nth_error_map', Erow. cbn. f_equal. apply nth_error_nth. auto. }
  assert (Cr : nth_error c r = Some (dot (map (fun i => spline (h_m h) i ((x - minl col) / ptp col)) (seq 0 (h_m h + 3))) C)).
  { unfold c, matvec. rewrite nth_error_map', (nth_take_rows _ [] idx _ r i Hr). cbn [option_map]. f_equal. f_equal.
    apply nth_error_nth. subst v. unfold basis1. rewrite map_map, nth_error_map'.
    assert (NE : nth_error col i = Some x). { rewrite <- Cx. apply nth_error_nth'. unfold col. rewrite map_length. lia. }
    rewrite NE. reflexivity. }
  split; auto. split.
  - apply nth_combine_points; [rewrite (nth_take_rows _ 0%R idx col r i Hr); congruence|].
    rewrite (nth_take_rows _ 0%R idx y r i Hr), (nth_error_nth y i 0%R Ew). auto.
  - apply nth_combine_points; [rewrite (nth_take_rows _ 0%R idx col r i Hr); congruence|]. rewrite nth_error_map', Cr. reflexivity.
Qed.

(** The mean the black points are drawn about. *)
Lemma drawn_mean : mean (map fit_f0 (h_Em h)) = mean (map (fun idx => mean (map (fun i => nth i y 0%R) idx)) (h_idx h)).
Proof.
  destruct (run_trial _ _ _ _ _ _ _ _ _ _ _ _ _ _ _ _ run perm) as (LY & HK & LE & LI & RT). f_equal.
  apply nth_error_ext'. intros k. rewrite !nth_error_map'. destruct (le_lt_dec (Z.to_nat K) k) as [H|H].
  - rewrite (proj2 (nth_error_None (h_Em h) k)), (proj2 (nth_error_None (h_idx h) k)) by lia. reflexivity.
  - destruct (RT k H) as (f & idx & Ef & Ei & _ & _ & _ & F0 & _). rewrite Ef, Ei. cbn. congruence.
Qed.
End Runs.

(** ** The testing panel *)
Lemma fsum_some : forall l, fsum (map Some l) = Some (Rsum l).
Proof.
  intros. unfold fsum. assert (A : all_some (map Some l) = Some l) by (induction l; [reflexivity|]; cbn [map all_some]; rewrite IHl; reflexivity).
  rewrite A. reflexivity.
Qed.

Lemma testing_numbers : forall e y, length e = length y ->
  testing_panel (mkTested (Some (map Some e)) (Some y)) = Ok (Some (combine (map Some e) y, Some (Rsum (map (fun p => (snd p - fst p) ^ 2)%R (combine e y))))).
Proof.
  intros e y L. unfold testing_panel. cbn [t_emulated t_observed]. rewrite map_length, L, Nat.eqb_refl. do 4 f_equal.
  rewrite <- fsum_some. f_equal. rewrite map_map. revert y L. induction e as [|a e IH]; intros [|b y] L; try discriminate; [reflexivity|].
  cbn [map combine fst snd option_map]. f_equal; [f_equal; ring|]. apply IH. simpl in L. lia.
Qed.
