(** * HDMR: whole runs. *)
From Coq Require Import Reals String List Arith ZArith Bool Lia Lra Psatz Sorted Permutation.
From Verif Require Import Base Arrays ListFacts ModelGroups ModelScale ProofsScale Stats Sums SpecMorris ModelFast ModelMorris ModelMorrisAnalyze ModelDgsm ModelPawn
  ProofsMorris3 ProofsMorris7 ProofsDgsm2 ProofsDelta5 ModelHdmr SpecHdmr ProofsHdmr ProofsHdmr2 ProofsHdmr3 ProofsHdmr4.
Import ListNotations.
Local Open Scope nat_scope.

Lemma own_order : forall d k m i o, 1 <= k <= 3 -> i < hdmr_n d k -> order_at d i o -> i <> d -> 2 * i <> 2 * d + d * (d - 1) ->
  f_test_p m (m * m) (m * m * m) d (length (hdmr_c2 d k)) i = m ^ o.
Proof.
  intros d k m i o K Hi O N1 N2. unfold f_test_p, hdmr_n in *. destruct (combinations_count d 0) as (H2 & _).
  assert (C2 : (k = 1 /\ length (hdmr_c2 d k) = 0 /\ length (hdmr_c3 d k) = 0) \/ 2 * length (hdmr_c2 d k) = d * (d - 1)).
  { unfold hdmr_c2, hdmr_c3. destruct k as [|[|[|[|k]]]]; try lia; cbn [Nat.ltb Nat.leb Nat.eqb]; auto. }
  destruct (Nat.leb_spec i d).
  - destruct O as [(-> & _)|[(_ & O & _)|(_ & O & _)]]; [simpl|..]; lia.
  - destruct (Nat.ltb_spec d i); [|lia]. cbn [andb]. destruct C2 as [(_ & E1 & E2)|C2]; [lia|].
    destruct (Nat.leb_spec i (d + length (hdmr_c2 d k))).
    + destruct O as [(_ & O)|[(-> & O)|(_ & _ & O)]]; [|simpl|]; lia.
    + destruct O as [(_ & O)|[(_ & O & O')|(-> & O)]]; [| |simpl]; lia.
Qed.

Lemma all_some_of_any : forall A B (l : list A) (f : A -> option B) (g : A -> B), (forall x, In x l -> f x = Some (g x)) ->
  all_some (map f l) = Some (map g l).
Proof.
  induction l; intros f g H; [reflexivity|]. cbn [map all_some]. rewrite (H a) by (left; auto). rewrite (IHl f g); auto. intros; apply H; right; auto.
Qed.

Section Runs.
Variable regress : list (list R) -> R -> result (option (list (list R))).
Variable crit : R -> nat -> Z -> option R.
Variable quantile : R -> fval.
Variable argsorts : nat -> list nat.
Variable junk : nat -> nat -> list (list R).

(** The bootstraps of a run. *)
Lemma run_fits : forall names X y maxorder maxiter m K Ro alpha lambdax h,
  hdmr_analyze regress crit quantile argsorts junk names X (Vector y) maxorder maxiter m K Ro alpha lambdax = Ok h ->
  let st := settings_of (length (rows X)) maxorder maxiter m K Ro alpha lambdax in
  length (h_Em h) = Z.to_nat K /\ length (h_idx h) = Z.to_nat K /\
  forall k f idx, nth_error (h_Em h) k = Some f -> nth_error (h_idx h) k = Some idx ->
    compute_one regress (crit alpha) st (bases (st_m st) X) y idx (junk k) = Ok f.
Proof.
  intros names X y mo mi m K Ro al la h E st. apply run_inv in E. destruct E as (H & y' & fits & EY & M & F). injection EY as <-.
  cbv zeta in M, F. fold st in M, F. apply finalize_inv in F. destruct F as (_ & _ & _ & F4 & F5 & _).
  set (idxs := bootstrap_rows (length (rows X)) st argsorts) in *.
  assert (HK : st_K st = Z.to_nat K) by reflexivity.
  assert (LI : length idxs = st_K st).
  { unfold idxs, bootstrap_rows. destruct (Nat.eqb_spec (st_K st) 1) as [E|E]; [rewrite E; reflexivity|]. rewrite map_length, seq_length. auto. }
  assert (LF : length fits = st_K st).
  { apply mapM_Ok_length in M. rewrite combine_length, seq_length, LI in M. lia. }
  rewrite F4, F5. split; [congruence|]. split; [congruence|]. intros k f idx Hf Hi.
  assert (CK : nth_error (combine (seq 0 (st_K st)) idxs) k = Some (k, idx)).
  { rewrite <- LI. clear - Hi. assert (G : forall (l : list (list nat)) a i c, nth_error l i = Some c -> nth_error (combine (seq a (length l)) l) i = Some (a + i, c)).
    { clear. induction l; intros b i c H; [destruct i; discriminate|]. destruct i; cbn.
      - injection H as ->. rewrite Nat.add_0_r. auto.
      - rewrite (IHl (S b) i c H). f_equal. f_equal. lia. }
    exact (G idxs 0 k idx Hi). }
  destruct (mapM_Ok_nth _ _ k M CK) as (f' & Ef & Ey). cbn [fst snd] in Ef, Ey. rewrite Hf in *. congruence.
Qed.

Lemma bases_length : forall m X, length (bases m X) = cols X.
Proof. intros. unfold bases. rewrite map_length, seq_length. auto. Qed.

(** The tests of a run. *)
Lemma run_select : forall names X y maxorder maxiter m K Ro alpha lambdax h,
  hdmr_analyze regress crit quantile argsorts junk names X (Vector y) maxorder maxiter m K Ro alpha lambdax = Ok h ->
  forall k i f idx b, nth_error (h_Em h) k = Some f -> nth_error (h_idx h) k = Some idx ->
    nth_error (h_select h) (i * Z.to_nat K + k) = Some b ->
    i < hdmr_n (cols X) (Z.to_nat maxorder) /\
    exists col, nth_error (fit_Y_em f) i = Some col /\
      let res := map (fun v => v - fit_f0 f)%R (map (fun j => nth j y 0%R) idx) in
      let m1 := Z.to_nat m + 3 in
      (b = true <-> significant (crit alpha) (squares res) (squares (map2 Rminus res col))
        (st_R (settings_of (length (rows X)) maxorder maxiter m K Ro alpha lambdax))
        (f_test_p m1 (m1 * m1) (m1 * m1 * m1) (cols X) (length (hdmr_c2 (cols X) (Z.to_nat maxorder))) i)).
Proof.
  intros names X y mo mi m K Ro al la h E k i f idx b Hf Hi Hb.
  pose proof (run_fits _ _ _ _ _ _ _ _ _ _ _ E) as (LE & LI & RF). specialize (RF k f idx Hf Hi).
  apply run_inv in E. destruct E as (H & y' & fits & EY & M & F). injection EY as <-.
  set (st := settings_of (length (rows X)) mo mi m K Ro al la) in *. cbv zeta in M, F. fold st in M, F.
  apply finalize_inv in F. destruct F as (_ & _ & _ & F4 & F5 & _ & _ & F8 & _). subst fits.
  change (st_maxorder st) with (Z.to_nat mo) in F8. set (n := hdmr_n (cols X) (Z.to_nat mo)) in *.
  assert (Hk : k < Z.to_nat K) by (apply nth_error_Some_lt in Hf; lia).
  rewrite F8 in Hb.
  assert (U : forall bs, In bs (map (fun i => map (fun f => nth i (fit_select f) false) (h_Em h)) (seq 0 n)) -> length bs = Z.to_nat K).
  { intros bs Hbs. apply in_map_iff in Hbs. destruct Hbs as (x & <- & _). rewrite map_length. auto. }
  rewrite (concat_uniform_nth (k := Z.to_nat K)) in Hb by (auto; try lia; apply Forall_forall; auto).
  rewrite Nat.div_add_l, Nat.div_small, Nat.add_0_r in Hb by lia.
  rewrite (Nat.add_comm (i * _)), Nat.mod_add, Nat.mod_small in Hb by lia.
  rewrite nth_error_map', nth_error_seq in Hb. destruct (Nat.ltb_spec i n) as [Hin|]; [|discriminate]. cbn [option_map Nat.add] in Hb.
  rewrite nth_error_map', Hf in Hb. cbn [option_map] in Hb. injection Hb as Hb. split; auto.
  apply compute_one_inv in RF. destruct RF as (Bs & Y1 & Y2 & Y3 & A & C). cbv zeta in C. rewrite bases_length in C.
  destruct C as (_ & _ & _ & _ & _ & _ & _ & LY & _ & _ & SE & _ & _ & _).
  change (st_maxorder st) with (Z.to_nat mo) in *. change (st_m st) with (Z.to_nat m) in *. fold n in LY.
  destruct (nth_error_lt_Some (fit_Y_em f) (i := i)) as (col & Ec); [lia|]. exists col. split; auto. cbv zeta.
  rewrite SE in Hb. erewrite nth_error_nth in Hb by (apply nth_f_test; exact Ec). rewrite <- Hb. apply f_selected_spec.
Qed.

(** The decomposition of a run. *)
Lemma run_decomposition : forall names X y maxorder maxiter m K Ro alpha lambdax h,
  hdmr_analyze regress crit quantile argsorts junk names X (Vector y) maxorder maxiter m K Ro alpha lambdax = Ok h ->
  forall k j f idx col, nth_error (h_Em h) k = Some f -> nth_error (h_idx h) k = Some idx -> nth_error (fit_Y_em f) j = Some col ->
    2 <= length idx -> st_R (settings_of (length (rows X)) maxorder maxiter m K Ro alpha lambdax) = length idx ->
    let Y := map (fun i => nth i y 0%R) idx in var Y <> 0%R ->
    exists s sa sb, nth_error (fit_S f) j = Some (Some s) /\ nth_error (fit_Sa f) j = Some (Some sa) /\ nth_error (fit_Sb f) j = Some (Some sb) /\
      length col = length idx /\ s = (cov1 col Y / var Y)%R /\ (sa = var col / var Y)%R /\
      (s - (sa + sb) = (cov1 col (vsub Y (fit_Y_e f)) + var col / (INR (length idx) - 1)) / var Y)%R.
Proof.
  intros names X y mo mi m K Ro al la h E k j f idx col Hf Hi Hc L2 HR Y V.
  pose proof (run_fits _ _ _ _ _ _ _ _ _ _ _ E) as (_ & _ & RF). specialize (RF k f idx Hf Hi).
  set (st := settings_of (length (rows X)) mo mi m K Ro al la) in *.
  apply compute_one_inv in RF. destruct RF as (Bs & Y1 & Y2 & Y3 & A & C). cbv zeta in C. rewrite bases_length in C.
  destruct C as (_ & _ & _ & _ & _ & _ & _ & _ & CL & _ & _ & YE & AN & _).
  assert (LY : length Y = length idx) by (unfold Y; apply map_length). change (take_rows 0%R idx y) with Y in *.
  destruct (ancova_gap Y (fit_Y_em f) (var Y) j col V) as (s & sa & sb & G); [lia|intros c Hcc; rewrite LY; auto|auto|].
  rewrite <- AN in G. destruct G as (G1 & G2 & G3 & G4 & G5 & G6). exists s, sa, sb. split; auto. split; auto. split; auto.
  assert (Lc : length col = length idx) by (apply CL; eapply nth_error_In; eauto).
  split; auto. split; auto. split; auto. rewrite G6. f_equal. rewrite LY. f_equal.
  destruct (row_sums_spec (length idx) (fit_Y_em f) CL) as (RL & _).
  rewrite YE. rewrite !cov1_minus by (rewrite ?map_length, ?HR; congruence). rewrite cov1_shift; [rewrite HR; auto|].
  rewrite HR. intros Q. rewrite Q in RL. simpl in RL. lia.
Qed.

(** A run succeeds when the settings are accepted, no parameter is constant, the regressions can be made and there are names. *)
Lemma first_order_ok : forall B1 Y_res jk mi la, B1 <> [] -> (forall b l, exists t, regress b l = Ok t) ->
  exists r, first_order regress B1 Y_res jk mi la = Ok r.
Proof.
  intros B1 Y_res jk mi la NE H. unfold first_order. destruct B1 as [|b B1]; [congruence|].
  match goal with |- context [mapM ?f ?l] => destruct (proj2 (mapM_Ok_iff f l)) as (T & ET) end.
  { intros jB _. destruct (H (snd jB) la) as (t & Et). rewrite Et. cbn [bind]. eauto. }
  rewrite ET. cbn [bind]. eauto.
Qed.
Lemma higher_order_ok : forall size B Y_res la, (forall b l, exists t, regress b l = Ok t) ->
  exists r, higher_order regress size B Y_res la = Ok r.
Proof.
  intros size B Y_res la H. unfold higher_order.
  match goal with |- context [mapM ?f ?l] => destruct (proj2 (mapM_Ok_iff f l)) as (T & ET) end.
  { intros Bj _. destruct (H Bj la) as (t & Et). rewrite Et. cbn [bind]. eauto. }
  rewrite ET. cbn [bind]. eauto.
Qed.

Lemma bases_some : forall m X, (forall j, j < cols X -> ptp (column (rows X) j) <> 0%R) -> exists Bs, all_some (bases m X) = Some Bs.
Proof.
  intros m X H. unfold bases.
  rewrite (all_some_of_any _ _ (seq 0 (cols X)) _ (fun j => basis1 m (map (fun x => (x - minl (column (rows X) j)) / ptp (column (rows X) j))%R (column (rows X) j)))).
  - eauto.
  - intros j Hj. apply in_seq in Hj. unfold normalise. destruct (Reqb (ptp (column (rows X) j)) 0) eqn:E; [|reflexivity].
    apply Reqb_true in E. exfalso. apply (H j); auto; lia.
Qed.
Lemma bases_none : forall m X j, j < cols X -> ptp (column (rows X) j) = 0%R -> all_some (bases m X) = None.
Proof.
  intros m X j Hj P. unfold bases. apply (all_some_none _ _ _ _ j); [apply in_seq; lia|].
  unfold normalise. rewrite (proj2 (Reqb_true _ _) P). auto.
Qed.

Lemma run_ok : forall names X y maxorder maxiter m K Ro alpha lambdax,
  settings_ok (length (rows X)) (cols X) (Vector y) maxorder maxiter m K Ro alpha lambdax ->
  (forall b l, exists t, regress b l = Ok t) -> 0 < cols X -> (forall j, j < cols X -> ptp (column (rows X) j) <> 0%R) ->
  cols X <= length names ->
  exists h, hdmr_analyze regress crit quantile argsorts junk names X (Vector y) maxorder maxiter m K Ro alpha lambdax = Ok h.
Proof.
  intros names X y mo mi m K Ro al la H HR D P LN. unfold hdmr_analyze. rewrite (check_settings_ok _ _ _ _ _ _ _ _ _ _ H). cbn [bind].
  set (st := settings_of _ _ _ _ _ _ _ _) in *. fold (bases (st_m st) X).
  destruct (bases_some (st_m st) X P) as (Bs & EB).
  assert (LB : length Bs = cols X) by (pose proof (all_some_inv _ _ _ EB) as Q; apply (f_equal (@length _)) in Q; rewrite bases_length, map_length in Q; auto).
  match goal with |- context [mapM ?f ?l] => destruct (proj2 (mapM_Ok_iff f l)) as (fits & EF) end.
  { intros ki _. unfold compute_one. rewrite EB.
    destruct (first_order_ok (map (fun B => take_rows [] (snd ki) B) Bs) (map (fun v => v - Rsum (take_rows 0%R (snd ki) y) / INR (st_R st))%R (take_rows 0%R (snd ki) y))
      (junk (fst ki)) (st_maxiter st) (st_lambda st)) as (((Y1, r1), C1) & E1); auto.
    { destruct Bs; [simpl in LB; lia|discriminate]. }
    rewrite E1. cbn [bind].
    match goal with |- context [higher_order regress ?s ?B r1 ?l] => destruct (higher_order_ok s B r1 l HR) as (((Y2, r2), C2) & E2) end.
    rewrite E2. cbn [bind].
    match goal with |- context [higher_order regress ?s ?B r2 ?l] => destruct (higher_order_ok s B r2 l HR) as (((Y3, r3), C3) & E3) end.
    rewrite E3. cbn [bind]. destruct (ancova _ _ _) as ((s, sa), sb). eauto. }
  rewrite EF. cbn [bind]. unfold finalize. destruct (hdmr_terms_ok names (cols X) (st_maxorder st) LN) as (ls & EL). rewrite EL. cbn [bind]. eauto.
Qed.

(** A constant parameter stops the analysis. *)
Lemma run_constant : forall names X y maxorder maxiter m K Ro alpha lambdax j,
  settings_ok (length (rows X)) (cols X) (Vector y) maxorder maxiter m K Ro alpha lambdax ->
  j < cols X -> ptp (column (rows X) j) = 0%R ->
  hdmr_analyze regress crit quantile argsorts junk names X (Vector y) maxorder maxiter m K Ro alpha lambdax = Err LinAlgError.
Proof.
  intros names X y mo mi m K Ro al la j H Hj P. unfold hdmr_analyze. rewrite (check_settings_ok _ _ _ _ _ _ _ _ _ _ H). cbn [bind].
  set (st := settings_of _ _ _ _ _ _ _ _) in *. fold (bases (st_m st) X).
  assert (LI : combine (seq 0 (st_K st)) (bootstrap_rows (length (rows X)) st argsorts) <> []).
  { intros Q. apply (f_equal (@length _)) in Q. rewrite bootstrap_rows_length in Q. change (st_K st) with (Z.to_nat K) in Q.
    destruct H as (_ & _ & _ & _ & _ & _ & _ & _ & H & _). simpl in Q. lia. }
  destruct (combine _ _) as [|ki l]; [congruence|]. cbn [mapM]. unfold compute_one at 1. rewrite (bases_none _ _ _ Hj P). reflexivity.
Qed.
End Runs.
