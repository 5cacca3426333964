(** * The coefficients of an HDMR run. *)
From Coq Require Import Reals List Arith ZArith Bool Lia Lra Psatz.
From Verif Require Import Base Arrays ListFacts ModelScale Stats Sums ModelFast ModelMorrisAnalyze ProofsMorris7 ModelHdmr SpecHdmr SpecRidge ProofsHdmr2 ProofsHdmr3 ProofsHdmr5 ProofsRidge ProofsRidge2.
Import ListNotations.
Local Open Scope nat_scope.

(** With a positive penalty minimisers agree. *)
Lemma minimal_unique : forall n m B y lam C E, length y = n -> (0 < lam)%R ->
  (forall F, (objective m B y lam C <= objective m B y lam F)%R) -> (forall F, (objective m B y lam E <= objective m B y lam F)%R) ->
  forall z i, z < length B -> i < m -> at2 C z i = at2 E z i.
Proof.
  intros n m B y lam C E LY L MC ME z i Hz Hi.
  set (A := map (fun z => map (fun i => (at2 C z i + at2 E z i) / 2)%R (seq 0 m)) (seq 0 (length B))).
  assert (AT : forall z i, z < length B -> i < m -> at2 A z i = ((at2 C z i + at2 E z i) / 2)%R).
  { intros a b Ha Hb. unfold A, at2 at 1. rewrite (nth_indep _ [] (map (fun i => (at2 C 0 i + at2 E 0 i) / 2)%R (seq 0 m))) by (rewrite map_length, seq_length; auto).
    rewrite (map_nth (fun z => map (fun i => (at2 C z i + at2 E z i) / 2)%R (seq 0 m))), seq_nth by auto.
    rewrite (nth_indep _ 0%R ((at2 C (0 + a) 0 + at2 E (0 + a) 0) / 2)%R) by (rewrite map_length, seq_length; auto).
    rewrite (map_nth (fun i => (at2 C (0 + a) i + at2 E (0 + a) i) / 2)%R), seq_nth by auto. reflexivity. }
  pose proof (MC A) as H1. pose proof (ME A) as H2. rewrite !(objective_obj n m B y lam LY) in H1, H2.
  pose proof (expand_diff _ _ (rs n) (ks m B) (bb B) (yy y) lam (co C) (co A)) as X1.
  pose proof (expand_diff _ _ (rs n) (ks m B) (bb B) (yy y) lam (co E) (co A)) as X2.
  assert (S : (Rsum (map (fun k => (co C k - co A k) * half _ _ (rs n) (ks m B) (bb B) (yy y) lam (co A) k) (ks m B)) +
               Rsum (map (fun k => (co E k - co A k) * half _ _ (rs n) (ks m B) (bb B) (yy y) lam (co A) k) (ks m B)) = 0)%R).
  { rewrite <- Rsum_map_plus. rewrite (Rsum_ext _ _ (fun _ => 0 * 0)%R); [rewrite (Rsum_map_scal _ (fun _ => 0%R)); lra|].
    intros (a, b) Hk. apply in_ks in Hk as (Ha & Hb). unfold co. cbn [fst snd]. rewrite AT by auto. field. }
  pose proof (sq_nonneg _ (fitK _ _ (ks m B) (bb B) (fun k => co C k - co A k)%R) (rs n)) as Q1.
  pose proof (sq_nonneg _ (fitK _ _ (ks m B) (bb B) (fun k => co E k - co A k)%R) (rs n)) as Q2.
  pose proof (normK_nonneg _ (ks m B) (fun k => co C k - co A k)%R) as N1. pose proof (normK_nonneg _ (ks m B) (fun k => co E k - co A k)%R) as N2.
  assert (Z : normK _ (ks m B) (fun k => co C k - co A k)%R = 0%R) by nra.
  assert (IK : In (z, i) (ks m B)) by (apply in_ks; auto).
  unfold normK in Z. pose proof (Rsum_zero_nonneg (map (fun k => (co C k - co A k) ^ 2)%R (ks m B))) as W.
  assert (V : ((co C (z, i) - co A (z, i)) ^ 2 = 0)%R).
  { apply W; auto; [|apply (in_map (fun k => (co C k - co A k) ^ 2)%R); auto]. intros x Hx. apply in_map_iff in Hx as (k & <- & _). apply pow2_ge_0. }
  unfold co in V. cbn [fst snd] in V. rewrite AT in V by auto. assert (at2 C z i - (at2 C z i + at2 E z i) / 2 = 0)%R by nra. lra.
Qed.

(** A single regression. *)
Lemma regression_alone : forall n m B T y lam, table n m B -> ridge_solution n m B lam T -> length y = n -> (0 <= lam)%R -> best_alone m B y lam (matvec T y).
Proof.
  intros n m B T y lam HB HT HY L. split; [rewrite length_matvec; apply (proj1 (proj1 HT))|].
  intros e. apply (fixed_minimal n m [B] [T] y lam); auto.
  - intros [|z] Hz; [exact HB|cbn in Hz; lia].
  - intros [|z] Hz; [exact HT|cbn in Hz; lia].
  - split; [reflexivity|]. intros [|z] Hz; [|cbn in Hz; lia]. cbn. rewrite length_matvec. apply (proj1 (proj1 HT)).
Qed.

Lemma total_S : forall k f, total (S k) f = (f 0%nat + total k (fun i => f (S i)))%R.
Proof. intros. unfold total. cbn [seq map]. rewrite Rsum_cons, <- seq_shift, map_map. reflexivity. Qed.

Section Orders.
Variable regress : list (list R) -> R -> result (option (list (list R))).
Variables (n m : nat) (lam : R).
Hypothesis HL : (0 <= lam)%R.

Lemma predicted_vsub : forall B C y r, (forall z, z < length B -> table n m (nth z B [])) -> length C = length B -> (forall z, z < length B -> length (nth z C []) = m) ->
  length y = n -> r < n -> nth r (fold_left vsub (map2 matvec B C) y) 0%R = (nth r y 0 - predicted m B C r)%R.
Proof.
  intros B. unfold predicted. induction B as [|b B IH]; intros C y r HB LC HC LY Hr.
  - cbn. unfold total. simpl. lra.
  - destruct C as [|c C]; [discriminate|]. cbn [map2 fold_left]. pose proof (HB 0 (Nat.lt_0_succ _)) as H0. pose proof (HC 0 (Nat.lt_0_succ _)) as C0. cbn in H0, C0.
    assert (LM : length (matvec b c) = n) by (rewrite length_matvec; apply (proj1 H0)).
    rewrite IH; auto.
    + rewrite nth_vsub by lia. rewrite (nth_matvec n m) by auto. cbn [length]. rewrite (total_S (length B)). unfold at3, at2. cbn [nth]. lra.
    + intros z Hz. apply (HB (S z)). cbn; lia.
    + intros z Hz. apply (HC (S z)). cbn; lia.
    + unfold vsub. rewrite length_map2, LM, LY. lia.
Qed.

Theorem first_order_fit : forall B1 y junk maxiter Y1 res C1,
  B1 <> [] -> (forall B, In B B1 -> table n m B /\ exists T, regress B lam = Ok (Some T) /\ ridge_solution n m B lam T) -> length y = n ->
  first_order regress B1 y junk maxiter lam = Ok (Y1, res, C1) ->
  exists C0 k, k <= maxiter /\ length C0 = length B1 /\ (forall z, z < length B1 -> best_alone m (nth z B1 []) y lam (nth z C0 [])) /\
    (objective m B1 y lam C1 <= objective m B1 y lam C0)%R /\
    (0 < maxiter -> 0 < k) /\
    (0 < lam -> forall E, objective m B1 y lam C1 - objective m B1 y lam E
       <= (gram_squares m n B1 / (gram_squares m n B1 + lam ^ 2)) ^ k * (objective m B1 y lam C0 - objective m B1 y lam E))%R /\
    length C1 = length B1 /\ (forall z, z < length B1 -> length (nth z C1 []) = m) /\
    (forall r, r < n -> nth r res 0%R = (nth r y 0 - predicted m B1 C1 r)%R).
Proof.
  intros B1 y junk maxiter Y1 res C1 NE HR HY E. unfold first_order in E. destruct B1 as [|b B] eqn:EB; [congruence|]. rewrite <- EB in *. clear EB b B NE.
  destruct (mapM _ _) as [T1|] eqn:M in E; [|discriminate]. cbn [bind] in E. injection E as <- <- <-.
  assert (LT : length T1 = length B1) by (apply mapM_Ok_length in M; rewrite combine_length, seq_length in M; lia).
  assert (HB : forall z, z < length B1 -> table n m (nth z B1 [])) by (intros z Hz; apply HR, nth_In; auto).
  assert (HT : forall z, z < length B1 -> ridge_solution n m (nth z B1 []) lam (nth z T1 [])).
  { intros z Hz. assert (NC : nth_error (combine (seq 0 (length B1)) B1) z = Some (z, nth z B1 [])).
    { assert (G : forall (l : list (list (list R))) a i c, nth_error l i = Some c -> nth_error (combine (seq a (length l)) l) i = Some (a + i, c)).
      { clear. induction l; intros b i c H; [destruct i; discriminate|]. destruct i; cbn.
        - injection H as ->. rewrite Nat.add_0_r. auto.
        - rewrite (IHl (S b) i c H). f_equal. f_equal. lia. }
      apply (G B1 0). apply nth_error_nth'. auto. }
    destruct (mapM_Ok_nth _ _ z M NC) as (t & Ey & Et). cbn [fst snd] in Ey.
    destruct (HR (nth z B1 [])) as (_ & T & R1 & R2); [apply nth_In; auto|]. rewrite R1 in Ey. cbn [bind] in Ey.
    assert (nth z T1 [] = T) as ->; [|exact R2]. injection Ey as <-; apply nth_error_nth; auto. }
  set (C0 := map (fun T => matvec T y) T1).
  assert (N0 : forall z, z < length B1 -> nth z C0 [] = matvec (nth z T1 []) y).
  { intros z Hz. unfold C0. rewrite (nth_indep _ [] (matvec [] y)) by (rewrite map_length; lia). rewrite (map_nth (fun T => matvec T y)). auto. }
  assert (S0 : shaped m B1 C0).
  { split; [unfold C0; rewrite map_length; auto|]. intros z Hz. rewrite N0 by auto. rewrite length_matvec. apply (proj1 (proj1 (HT z Hz))). }
  destruct (loop_passes n B1 T1 y HY maxiter 1%R C0) as (k & K1 & K2 & K3). rewrite K2.
  pose proof (passes_shaped n m B1 T1 y lam HT HY k C0 S0) as SK.
  exists C0, k. split; auto. split; [apply S0|]. split.
  { intros z Hz. rewrite N0 by auto. apply (regression_alone n); auto. }
  split; [apply (passes_descend n m B1 T1 y lam HB HT HY); auto|].
  split; [intros H0; destruct (Nat.eq_dec k 0) as [->|]; [|lia]; destruct (K3 H0) as [(_ & W)|(W & _)]; [lra|lia]|].
  split; [intros L E; apply (passes_contract n m B1 T1 y lam HB HT HY); auto|].
  destruct SK as (SK1 & SK2). split; auto. split; auto. intros r Hr. apply predicted_vsub; auto.
Qed.

Theorem higher_order_fit : forall size B y Y2 res C, (forall b, In b B -> table n m b /\ exists T, regress b lam = Ok (Some T) /\ ridge_solution n m b lam T) -> length y = n ->
  higher_order regress size B y lam = Ok (Y2, res, C) ->
  length C = length B /\ (forall z, z < length B -> best_alone m (nth z B []) y lam (nth z C [])) /\
  (forall r, r < n -> nth r res 0%R = (nth r y 0 - predicted m B C r)%R).
Proof.
  intros size B y Y2 res C HR HY E. unfold higher_order in E. destruct (mapM _ _) as [C'|] eqn:M in E; [|discriminate]. cbn [bind] in E. injection E as <- <- <-.
  assert (LC : length C' = length B) by (apply mapM_Ok_length in M; auto).
  assert (BA : forall z, z < length B -> best_alone m (nth z B []) y lam (nth z C' [])).
  { intros z Hz. assert (NC : nth_error B z = Some (nth z B [])) by (apply nth_error_nth'; auto).
    destruct (mapM_Ok_nth _ _ z M NC) as (t & Ey & Et). destruct (HR (nth z B [])) as (TB & T & R1 & R2); [apply nth_In; auto|]. rewrite R1 in Ey. cbn [bind] in Ey.
    assert (nth z C' [] = matvec T y) as ->; [|apply (regression_alone n); auto]. injection Ey as <-; apply nth_error_nth; auto. }
  split; auto. split; auto. intros r Hr. apply predicted_vsub; auto.
  - intros z Hz. apply HR, nth_In; auto.
  - intros z Hz. apply (proj1 (BA z Hz)).
Qed.
End Orders.

(** ** A run *)
Lemma column_nth : forall (rws : list (list R)) D j, (forall r, In r rws -> length r = D) -> j < D -> column rws j = map (fun r => nth j r 0%R) rws.
Proof.
  induction rws as [|r rws IH]; intros D j H Hj; auto. cbn. rewrite (nth_error_nth' r 0%R) by (rewrite (H r (or_introl eq_refl)); auto). cbn. f_equal.
  apply (IH D); auto. intros; apply H; right; auto.
Qed.
Lemma at2_take : forall idx B r i, r < length idx -> at2 (take_rows [] idx B) r i = at2 B (nth r idx 0) i.
Proof.
  intros idx B r i Hr. unfold at2, take_rows. f_equal. rewrite (nth_indep _ [] (nth 0 B [])) by (rewrite map_length; auto).
  rewrite (map_nth (fun i => nth i B [])). reflexivity.
Qed.
Lemma at2_basis : forall m col r i, r < length col -> i < m + 3 -> at2 (basis1 m col) r i = spline m i (nth r col 0%R).
Proof.
  intros m col r i Hr Hi. unfold at2, basis1.
  rewrite (nth_indep _ [] (map (fun i => spline m i 0%R) (seq 0 (m + 3)))) by (rewrite map_length; auto).
  rewrite (map_nth (fun x => map (fun i => spline m i x) (seq 0 (m + 3)))).
  rewrite (nth_indep _ 0%R (spline m 0 (nth r col 0%R))) by (rewrite map_length, seq_length; auto).
  rewrite (map_nth (fun i => spline m i (nth r col 0%R))), seq_nth by auto. reflexivity.
Qed.

Theorem run_first_order : forall regress crit quantile argsorts junk names X y maxorder maxiter m K Ro alpha lam h,
  hdmr_analyze regress crit quantile argsorts junk names X (Vector y) maxorder maxiter m K Ro alpha lam = Ok h ->
  (forall row, In row (rows X) -> length row = cols X) ->
  forall k f idx, nth_error (h_Em h) k = Some f -> nth_error (h_idx h) k = Some idx -> (forall i, In i idx -> i < length (rows X)) ->
  exists B, length B = cols X /\
    (forall z, z < cols X -> table (length idx) (Z.to_nat m + 3) (nth z B []) /\
       forall r i, r < length idx -> i < Z.to_nat m + 3 ->
         let x := map (fun row => nth z row 0%R) (rows X) in
         at3 B z r i = spline (Z.to_nat m) i ((nth (nth r idx 0%nat) x 0 - minl x) / (maxl x - minl x))%R) /\
    ((forall b, In b B -> exists T, regress b lam = Ok (Some T) /\ ridge_solution (length idx) (Z.to_nat m + 3) b lam T) ->
     let res := map (fun i => nth i y 0 - fit_f0 f)%R idx in
     exists C0 p, 0 < p <= Z.to_nat maxiter /\ length C0 = cols X /\
       (forall z, z < cols X -> best_alone (Z.to_nat m + 3) (nth z B []) res lam (nth z C0 [])) /\
       (objective (Z.to_nat m + 3) B res lam (fit_C1 f) <= objective (Z.to_nat m + 3) B res lam C0)%R /\
       (0 < lam -> forall E, objective (Z.to_nat m + 3) B res lam (fit_C1 f) - objective (Z.to_nat m + 3) B res lam E
          <= (gram_squares (Z.to_nat m + 3) (length idx) B / (gram_squares (Z.to_nat m + 3) (length idx) B + lam ^ 2)) ^ p
             * (objective (Z.to_nat m + 3) B res lam C0 - objective (Z.to_nat m + 3) B res lam E))%R).
Proof.
  intros regress crit quantile argsorts junk names X y mo mi m K Ro al la h E WF k f idx Hf Hi RI.
  pose proof (run_fits _ _ _ _ _ _ _ _ _ _ _ _ _ _ _ _ E) as (_ & _ & RF). specialize (RF k f idx Hf Hi).
  apply run_inv in E. destruct E as (SO & _). destruct SO as (_ & _ & _ & _ & _ & _ & MI & _ & _ & _ & _ & LL).
  set (st := settings_of (length (rows X)) mo mi m K Ro al la) in *.
  unfold compute_one in RF. destruct (all_some (bases (st_m st) X)) as [Bs|] eqn:A; [|discriminate].
  destruct (first_order _ _ _ _ _ _) as [((Y1, res1), C1)|] eqn:E1 in RF; [|discriminate]. cbn [bind] in RF.
  destruct (higher_order _ _ _ _ _) as [((Y2, res2), C2)|] eqn:E2 in RF; [|discriminate]. cbn [bind] in RF.
  destruct (higher_order _ _ _ _ _) as [((Y3, res3), C3)|] eqn:E3 in RF; [|discriminate]. cbn [bind] in RF.
  destruct (ancova _ _ _) as ((s, sa), sb) in RF. injection RF as <-. cbn [fit_C1 fit_f0]. change (st_lambda st) with la in E1. change (st_m st) with (Z.to_nat m) in A.
  apply all_some_inv in A. assert (LB : length Bs = cols X).
  { rewrite <- (map_length Some Bs), <- A. apply bases_length. }
  set (B := map (fun B => take_rows [] idx B) Bs) in *.
  assert (LBB : length B = cols X) by (unfold B; rewrite map_length; auto).
  assert (NB : forall z, z < cols X -> nth z B [] = take_rows [] idx (nth z Bs [])).
  { intros z Hz. unfold B. rewrite (nth_indep _ [] (take_rows [] idx [])) by (rewrite map_length; lia). rewrite (map_nth (fun B => take_rows [] idx B)). reflexivity. }
  assert (NS : forall z, z < cols X -> let x := map (fun row => nth z row 0%R) (rows X) in nth z Bs [] = basis1 (Z.to_nat m) (map (fun v => (v - minl x) / (maxl x - minl x))%R x)).
  { intros z Hz x. assert (Q : nth_error (bases (Z.to_nat m) X) z = Some (Some (nth z Bs []))).
    { rewrite A, nth_error_map', (nth_error_nth' Bs []) by lia. reflexivity. }
    unfold bases in Q. rewrite nth_error_map', nth_error_seq in Q. destruct (Nat.ltb_spec z (cols X)); [|lia]. cbn [option_map Nat.add] in Q.
    injection Q as Q. rewrite (column_nth (rows X) (cols X) z WF Hz) in Q. fold x in Q. unfold normalise in Q. destruct (Reqb (ptp x) 0); [discriminate|].
    cbn [option_map] in Q. injection Q as Q. rewrite <- Q. reflexivity. }
  assert (TB : forall z, z < cols X -> table (length idx) (Z.to_nat m + 3) (nth z B [])).
  { intros z Hz. rewrite NB by auto. split; [apply length_take_rows|]. intros row Hr. unfold take_rows in Hr. apply in_map_iff in Hr as (i & <- & Ii).
    rewrite NS by auto. unfold basis1. set (l := map _ (map _ (rows X))).
    assert (Il : i < length l) by (unfold l; rewrite !map_length; auto).
    
    rewrite (nth_indep _ [] (map (fun i0 => spline (Z.to_nat m) i0 0%R) (seq 0 (Z.to_nat m + 3)))) by (rewrite map_length; auto).
    rewrite (map_nth (fun x => map (fun i0 => spline (Z.to_nat m) i0 x) (seq 0 (Z.to_nat m + 3)))). rewrite map_length, seq_length. reflexivity. }
  exists B. split; auto. split.
  { intros z Hz. split; [auto|]. cbv zeta. intros r i Hr Hi2. set (x := map (fun row => nth z row 0%R) (rows X)) in *. unfold at3. rewrite NB by auto. rewrite at2_take by auto. rewrite NS by auto. fold x.
    assert (IR : nth r idx 0 < length x) by (unfold x; rewrite map_length; apply RI, nth_In; auto).
    rewrite at2_basis by (rewrite ?map_length; auto).
    rewrite (nth_indep _ 0%R ((0 - minl x) / (maxl x - minl x))%R) by (rewrite map_length; auto).
    rewrite (map_nth (fun v => (v - minl x) / (maxl x - minl x))%R). reflexivity. }
  intros HT. set (res := map (fun i => nth i y 0 - Rsum (take_rows 0%R idx y) / INR (st_R st))%R idx). assert (NE : B <> []).
  { intros Q. rewrite Q in E1. discriminate. }
  assert (RES : map (fun y0 => y0 - Rsum (take_rows 0%R idx y) / INR (st_R st))%R (take_rows 0%R idx y) = res).
  { unfold res, take_rows. rewrite map_map. reflexivity. }
  rewrite RES in E1. pose proof (proj1 LL) as L0.
  destruct (first_order_fit regress (length idx) (Z.to_nat m + 3) la L0 B res (junk k) (st_maxiter st) Y1 res1 C1 NE) as (C0 & p & F1 & F2 & F3 & F4 & F5 & F6 & _); auto.
  - intros b Hb. split; [|auto]. apply (In_nth _ _ []) in Hb as (z & Hz & <-). apply TB. lia.
  - unfold res. apply map_length.
  - exists C0, p. change (st_maxiter st) with (Z.to_nat mi) in *. split; [split; [apply F5; lia|auto]|]. split; [lia|]. split; [intros; apply F3; lia|]. auto.
Qed.
