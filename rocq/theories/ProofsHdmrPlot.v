(** * Lemmas about what the plots of HDMR results show. *)
From Coq Require Import Reals String List Arith ZArith Bool Lia Lra Psatz Sorted Permutation.
From Verif Require Import Base Arrays ListFacts ModelGroups ModelScale ProofsScale Stats Sums ModelFast ModelMorris ModelMorrisAnalyze ModelDgsm ModelPawn ProofsMorris7
  ModelHdmr SpecHdmr ProofsHdmr ProofsHdmr2 ProofsHdmr3 ProofsHdmr4 ProofsHdmr5 ProofsHdmr6 ModelPlotting ProofsPlotting ModelHdmrPlot.
Import ListNotations.
Local Open Scope nat_scope.

Lemma rev_last : forall A (l : list A) n, length l = S n -> exists x t, rev l = x :: t /\ nth_error l n = Some x.
Proof.
  intros A l n L. destruct l as [|a l] using rev_ind; [discriminate|]. rewrite rev_app_distr. exists a, (rev l). split; auto.
  rewrite app_length in L. simpl in L. rewrite nth_error_app2 by lia. replace (n - length l) with 0 by lia. reflexivity.
Qed.

Lemma column_map : forall X j, wf_mat X -> j < cols X -> Base.column (rows X) j = map (fun r => nth j r 0%R) (rows X).
Proof.
  intros X j WF Hj. unfold Base.column. unfold wf_mat in WF. induction (rows X) as [|r l IH]; [reflexivity|].
  inversion WF as [|? ? Lr WF']; subst. cbn [flat_map map]. destruct (nth_error_lt_Some r (i := j)) as (x & Ex); [lia|].
  rewrite Ex. rewrite (nth_error_nth r j 0%R Ex). cbn [app]. f_equal. auto.
Qed.

Lemma compute_one_rmse : forall regress crit st B1 Y idx junk f, compute_one regress crit st B1 Y idx junk = Ok f ->
  fit_RMSE f = sqrt (sumsq (vsub (take_rows 0%R idx Y) (fit_Y_e f)) / INR (st_R st)).
Proof.
  intros regress crit st B1 Y idx junk f E. unfold compute_one in E. destruct (all_some B1) as [Bs|]; [|discriminate].
  destruct (first_order _ _ _ _ _ _) as [((Y1, res1), C1)|] in E; [|discriminate]. cbn [bind] in E.
  destruct (higher_order _ _ _ _ _) as [((Y2, res2), C2)|] in E; [|discriminate]. cbn [bind] in E.
  destruct (higher_order _ _ _ _ _) as [((Y3, res3), C3)|] in E; [|discriminate]. cbn [bind] in E.
  destruct (ancova _ _ _) as ((s, sa), sb) in E. injection E as <-. reflexivity.
Qed.

(** Sums over points. *)
Lemma sumsq_points : forall e v, length e = length v ->
  Rsum (map (fun p => (snd p - fst p) ^ 2)%R (combine e v)) = sumsq (vsub v e).
Proof.
  unfold sumsq, vsub. induction e as [|a e IH]; intros [|b v] L; try discriminate; [reflexivity|]. cbn [combine map map2 fst snd Rsum fold_right].
  f_equal. apply IH. simpl in L. lia.
Qed.
Lemma sumsq_nonneg : forall l, (0 <= sumsq l)%R.
Proof. unfold sumsq. induction l; cbn [map Rsum fold_right]; [lra|]. pose proof (pow2_ge_0 a). unfold Rsum in IHl. lra. Qed.

Section Runs.
Variable regress : list (list R) -> R -> result (option (list (list R))).
Variable crit : R -> nat -> Z -> option R.
Variable quantile : R -> fval.
Variable argsorts : nat -> list nat.
Variable junk : nat -> nat -> list (list R).

(** A trial of a run. *)
Lemma run_trial : forall names X y maxorder maxiter m K Ro alpha lambdax h,
  hdmr_analyze regress crit quantile argsorts junk names X (Vector y) maxorder maxiter m K Ro alpha lambdax = Ok h ->
  (forall k, Permutation (argsorts k) (seq 0 (length (rows X)))) ->
  length y = length (rows X) /\ 1 <= Z.to_nat K /\ length (h_Em h) = Z.to_nat K /\ length (h_idx h) = Z.to_nat K /\
  forall k, k < Z.to_nat K -> exists f idx, nth_error (h_Em h) k = Some f /\ nth_error (h_idx h) k = Some idx /\
    2 <= length idx /\ (forall i, In i idx -> i < length y) /\ length (fit_Y_e f) = length idx /\
    fit_f0 f = mean (map (fun i => nth i y 0%R) idx) /\
    (INR (length idx) * fit_RMSE f ^ 2 = sumsq (vsub (take_rows 0%R idx y) (fit_Y_e f)))%R /\
    (forall c, In c (fit_Y_em f) -> length c = length idx) /\
    fit_Y_e f = map (fun v => fit_f0 f + v)%R (row_sums (length idx) (fit_Y_em f)) /\
    forall j, j < cols X -> exists C v, normalise (Base.column (rows X) j) = Some v /\
      nth_error (fit_Y_em f) j = Some (matvec (take_rows [] idx (basis1 (h_m h) v)) C).
Proof.
  intros names X y mo mi m K Ro al la h E P. pose proof (run_fits _ _ _ _ _ _ _ _ _ _ _ _ _ _ _ _ E) as (LE & LI & RF).
  pose proof (run_rows _ _ _ _ _ _ _ _ _ _ _ _ _ _ _ _ E P) as RR.
  pose proof E as E0. apply run_inv in E0. destruct E0 as (H & y' & fits & EY & _ & F). injection EY as <-.
  cbv zeta in F. apply finalize_inv in F. destruct F as (_ & _ & _ & _ & _ & HM & _).
  set (st := settings_of (length (rows X)) mo mi m K Ro al la) in *.
  assert (LY : length y = length (rows X)) by (destruct H as (_ & _ & H & _); exact H).
  assert (HK : 1 <= Z.to_nat K) by (destruct H as (_ & _ & _ & _ & _ & _ & _ & _ & HK & _); lia).
  repeat (split; [assumption|]). intros k Hk.
  destruct (nth_error_lt_Some (h_Em h) (i := k)) as (f & Ef); [lia|].
  destruct (nth_error_lt_Some (h_idx h) (i := k)) as (idx & Ei); [lia|].
  exists f, idx. split; auto. split; auto. destruct (RR idx) as (HR & L2 & _ & HI); [eapply nth_error_In; eauto|].
  specialize (RF k f idx Ef Ei). pose proof (compute_one_rmse _ _ _ _ _ _ _ _ RF) as RM.
  apply compute_one_inv in RF. destruct RF as (Bs & Y1 & Y2 & Y3 & A & C). cbv zeta in C. rewrite bases_length in C.
  destruct C as (L1 & LC2 & LC3 & E1 & E2 & E3 & EE & LEM & CE & F0 & _ & YE & _ & _).
  rewrite <- HR in F0, YE, RM.
  destruct (row_sums_spec (length idx) (fit_Y_em f) CE) as (RL & _).
  assert (LYe : length (fit_Y_e f) = length idx) by (rewrite YE, map_length; auto).
  assert (Np : (0 < INR (length idx))%R) by (apply lt_0_INR; lia).
  split; [lia|]. split; [intros i Hi; rewrite LY; auto|]. split; auto. split.
  { rewrite F0. unfold mean, take_rows. rewrite map_length. reflexivity. }
  split.
  { rewrite RM. rewrite <- Rsqr_pow2, Rsqr_sqrt; [field; lra|].
    apply Rmult_le_pos; [apply sumsq_nonneg|]. left. apply Rinv_0_lt_compat. auto. }
  split; auto. split; auto. intros j Hj.
  assert (LBs : length Bs = cols X).
  { apply all_some_inv in A. pose proof (bases_length (st_m st) X) as Q. rewrite A, map_length in Q. auto. }
  destruct (nth_error_lt_Some Bs (i := j)) as (B & EB); [lia|].
  assert (NB : nth_error (bases (st_m st) X) j = Some (Some B)).
  { rewrite (all_some_inv _ _ _ A). rewrite nth_error_map', EB. reflexivity. }
  unfold bases in NB. rewrite nth_error_map', nth_error_seq in NB. destruct (Nat.ltb_spec j (cols X)); [|lia]. cbn in NB.
  destruct (normalise (Base.column (rows X) j)) as [v|]; [|discriminate]. cbn in NB. injection NB as <-.
  destruct (nth_error_lt_Some (fit_C1 f) (i := j)) as (C & EC); [lia|]. exists C, v. split; auto.
  rewrite EE, E1. rewrite nth_error_app1 by (rewrite length_map2, map_length; lia).
  rewrite HM. clear - EB EC. revert EB EC. generalize (fit_C1 f) as l'. revert j. induction Bs as [|b Bs IH]; intros j l' EB EC; [destruct j; discriminate|].
  destruct l' as [|c l']; [destruct j; discriminate|]. destruct j; cbn [nth_error map map2] in EB, EC |- *; [injection EB as ->; injection EC as ->; reflexivity|]. apply IH; auto.
Qed.
End Runs.

(** ** The panels *)
Lemma nth_combine_points : forall A B (a : list A) (b : list B) r x y, nth_error a r = Some x -> nth_error b r = Some y ->
  nth_error (combine a b) r = Some (x, y).
Proof.
  induction a as [|u a IH]; intros [|v b] r x y Ha Hb; try (destruct r; discriminate). destruct r; cbn in *; [congruence|]. apply IH; auto.
Qed.

Lemma nth_take_rows : forall A (d : A) idx l r i, nth_error idx r = Some i -> nth_error (take_rows d idx l) r = Some (nth i l d).
Proof. intros. unfold take_rows. rewrite nth_error_map', H. reflexivity. Qed.

(** The predictions of the emulator: one per row. *)
Lemma emulate_length : forall h X Y, wf_mat X -> length (emulate h X Y) = length (rows X).
Proof.
  intros h X Y WF. unfold emulate. destruct (all_some _) as [Bs|] eqn:A; [|apply repeat_length]. rewrite map_length.
  set (N := length (rows X)).
  assert (LBs : length Bs = cols X) by (apply all_some_inv in A; apply (f_equal (@length _)) in A; rewrite !map_length, seq_length in A; auto).
  assert (HB : forall b, In b Bs -> length b = N).
  { intros b Hb. destruct (all_some_In_map _ _ _ _ b A Hb) as (j & Hj & Ej). apply in_seq in Hj.
    destruct (normalise (Base.column (rows X) j)) as [v|] eqn:Nv; [|discriminate]. cbn in Ej. injection Ej as <-.
    unfold basis1. rewrite map_length. apply normalise_unit in Nv. destruct Nv as (Lv & _). rewrite Lv, column_map by (auto; lia). apply map_length. }
  assert (HT : forall t, 1 <= length t <= 3 -> (forall x, In x t -> x < cols X) -> length (term_basis Bs t) = N).
  { intros t H1 H2. apply term_basis_length; auto. rewrite LBs. auto. }
  apply row_sums_spec. intros c Hc. rewrite !in_app_iff in Hc.
  assert (Q : exists it ts C, c = matvec (term_basis Bs (snd it)) C /\ In it (combine (seq 0 (length ts)) ts) /\
    (forall t, In t ts -> 1 <= length t <= 3 /\ forall x, In x t -> x < cols X)).
  { destruct Hc as [Hc|[Hc|Hc]]; apply in_map_iff in Hc; destruct Hc as (it & <- & Hit); exists it; eexists; eexists; (split; [reflexivity|]); (split; [exact Hit|]).
    - intros t Ht. apply in_map_iff in Ht. destruct Ht as (j & <- & Hj). apply in_seq in Hj. split; [simpl; lia|]. intros x [<-|[]]. lia.
    - intros t Ht. apply in_c2 in Ht. destruct Ht as (_ & T1 & T2 & _). split; auto. lia.
    - intros t Ht. apply in_c3 in Ht. destruct Ht as (_ & T1 & T2 & _). split; auto. lia. }
  destruct Q as (it & ts & C & -> & Hit & HTs). rewrite length_matvec. destruct it as (q, t). apply in_combine_r in Hit. apply HT; apply (HTs t Hit).
Qed.
