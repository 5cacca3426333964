(** * HDMR: the spline basis and the emulator. *)
From Coq Require Import Reals String List Arith ZArith Bool Lia Lra Psatz Sorted Permutation.
From Verif Require Import Base Arrays ListFacts ModelGroups ModelScale ProofsScale Stats Sums SpecMorris ModelFast ModelMorris ModelMorrisAnalyze ModelDgsm ModelPawn
  ProofsMorris3 ProofsMorris7 ProofsDgsm2 ProofsDelta5 ModelHdmr SpecHdmr ProofsHdmr ProofsHdmr2 ProofsHdmr3.
Import ListNotations.
Local Open Scope nat_scope.

(** ** Splines *)
Lemma spline_nonneg : forall m i x, (0 <= spline m i x)%R.
Proof. intros. unfold spline. destruct (Rltb _ 0) eqn:E; [lra|]. apply Rltb_false in E. auto. Qed.

Lemma cardinal_low : forall u, (u <= -1 -> cardinal u = (u + 2) ^ 3 / 6)%R.
Proof.
  intros u H. unfold cardinal. destruct (Rltb u (-1)) eqn:E1; auto. apply Rltb_false in E1. assert (u = -1)%R by lra. subst.
  rewrite (proj2 (Rltb_true (-1) 0)) by lra. field.
Qed.
Lemma cardinal_mid1 : forall u, (-1 <= u <= 0 -> cardinal u = (4 - 6 * u ^ 2 - 3 * u ^ 3) / 6)%R.
Proof.
  intros u H. unfold cardinal. rewrite (proj2 (Rltb_false u (-1))) by lra. destruct (Rltb u 0) eqn:E2; auto.
  apply Rltb_false in E2. assert (u = 0)%R by lra. subst. rewrite (proj2 (Rltb_true 0 1)) by lra. field.
Qed.
Lemma cardinal_mid2 : forall u, (0 <= u <= 1 -> cardinal u = (4 - 6 * u ^ 2 + 3 * u ^ 3) / 6)%R.
Proof.
  intros u H. unfold cardinal. rewrite (proj2 (Rltb_false u (-1))), (proj2 (Rltb_false u 0)) by lra. destruct (Rltb u 1) eqn:E2; auto.
  apply Rltb_false in E2. assert (u = 1)%R by lra. subst. field.
Qed.
Lemma cardinal_high : forall u, (1 <= u -> cardinal u = (2 - u) ^ 3 / 6)%R.
Proof.
  intros u H. unfold cardinal. rewrite (proj2 (Rltb_false u (-1))), (proj2 (Rltb_false u 0)), (proj2 (Rltb_false u 1)) by lra. auto.
Qed.

Lemma cube_neg : forall v, (v <= 0 -> v ^ 3 / 6 <= 0)%R.
Proof.
  intros v H. assert (0 <= (- v) ^ 3)%R by (apply pow_le; lra). replace (v ^ 3)%R with (- (- v) ^ 3)%R by ring. lra.
Qed.
Lemma cube_nonneg : forall v, (0 <= v -> 0 <= v ^ 3 / 6)%R.
Proof. intros v H. assert (0 <= v ^ 3)%R by (apply pow_le; lra). lra. Qed.

Lemma cardinal_outside : forall u, (u <= -2 \/ 2 <= u -> cardinal u <= 0)%R.
Proof.
  intros u [H|H].
  - rewrite cardinal_low by lra. apply cube_neg. lra.
  - rewrite cardinal_high by lra. apply cube_neg. lra.
Qed.
Lemma cardinal_inside : forall u, (-2 <= u <= 2 -> 0 <= cardinal u)%R.
Proof.
  intros u H. destruct (Rle_dec u (-1)); [|destruct (Rle_dec u 0); [|destruct (Rle_dec u 1)]].
  - rewrite cardinal_low by lra. apply cube_nonneg. lra.
  - rewrite cardinal_mid1 by lra. assert (0 <= 1 - u ^ 2)%R by nra. assert (0 <= u ^ 2 * (- u))%R by (apply Rmult_le_pos; nra). nra.
  - rewrite cardinal_mid2 by lra. assert (0 <= 1 - u ^ 2)%R by nra. assert (0 <= u ^ 2 * u)%R by (apply Rmult_le_pos; nra). nra.
  - rewrite cardinal_high by lra. apply cube_nonneg. lra.
Qed.

Lemma spline_outside : forall m i x, (INR m * x - (INR i - 1) <= -2 \/ 2 <= INR m * x - (INR i - 1))%R -> spline m i x = 0%R.
Proof.
  intros m i x H. unfold spline. pose proof (cardinal_outside _ H) as C. assert (0 <= INR m ^ 3)%R by (apply pow_le, pos_INR).
  destruct (Rltb _ 0) eqn:E; auto. apply Rltb_false in E. nra.
Qed.
Lemma spline_inside : forall m i x, (-2 <= INR m * x - (INR i - 1) <= 2)%R -> spline m i x = (cardinal (INR m * x - (INR i - 1)) * INR m ^ 3)%R.
Proof.
  intros m i x H. unfold spline. pose proof (cardinal_inside _ H) as C. assert (0 <= INR m ^ 3)%R by (apply pow_le, pos_INR).
  destruct (Rltb _ 0) eqn:E; auto. apply Rltb_true in E. nra.
Qed.

Lemma interval_of : forall m t, 1 <= m -> (0 <= t <= INR m)%R -> exists q, q < m /\ (INR q <= t <= INR q + 1)%R.
Proof.
  induction m; intros t H T; [lia|]. destruct m as [|m].
  - exists 0. simpl in *. split; [lia|lra].
  - rewrite S_INR in T. destruct (Rle_dec t (INR (S m))).
    + destruct (IHm t) as (q & Hq & Q); [lia|lra|]. exists q. split; [lia|auto].
    + exists (S m). split; [lia|lra].
Qed.

Lemma sum_split : forall a b f, sum (a + b) f = (sum a f + sum b (fun i => f (a + i)%nat))%R.
Proof.
  intros a b f. induction b; [rewrite Nat.add_0_r, sum_0; ring|]. rewrite Nat.add_succ_r, !sum_S, IHb. ring.
Qed.

(** At every point of the unit interval the splines add up to m^3. *)
Lemma spline_partition : forall m x, 1 <= m -> (0 <= x <= 1)%R -> sum (m + 3) (fun i => spline m i x) = (INR m ^ 3)%R.
Proof.
  intros m x Hm Hx. assert (Mp : (1 <= INR m)%R) by (apply (le_INR 1) in Hm; simpl in Hm; auto).
  destruct (interval_of m (INR m * x)) as (q & Hq & Q); [auto|nra|]. set (t := (INR m * x)%R) in *.
  replace (m + 3) with (q + (4 + (m - 1 - q))) by lia. rewrite sum_split, (sum_split 4).
  rewrite (sum_zero q), (sum_zero (m - 1 - q)).
  - rewrite !sum_S, sum_0. rewrite !spline_inside; fold t; rewrite !plus_INR; simpl INR; try lra.
    rewrite (cardinal_high (t - (INR q + 0 - 1))), (cardinal_mid2 (t - (INR q + 1 - 1))),
      (cardinal_mid1 (t - (INR q + (1 + 1) - 1))), (cardinal_low (t - (INR q + (1 + 1 + 1) - 1))) by lra.
    set (v := (t - INR q)%R). replace t with (v + INR q)%R by (unfold v; ring). field.
  - intros i Hi. apply spline_outside. fold t. left. rewrite !plus_INR. simpl INR. pose proof (pos_INR i). lra.
  - intros i Hi. apply spline_outside. fold t. right. assert (INR i + 1 <= INR q)%R by (rewrite <- S_INR; apply le_INR; lia). lra.
Qed.

Lemma normalise_unit : forall col v, normalise col = Some v -> length v = length col /\ forall x, In x v -> (0 <= x <= 1)%R.
Proof.
  intros col v E. unfold normalise in E. destruct (Reqb (ptp col) 0) eqn:P; [discriminate|]. injection E as <-.
  split; [apply map_length|]. intros x Hx. apply in_map_iff in Hx. destruct Hx as (y & <- & Hy).
  assert (NE : col <> []) by (intros ->; destruct Hy). assert (Pp : (0 < ptp col)%R).
  { pose proof (ptp_nonneg col). destruct (Req_dec (ptp col) 0) as [Z|Z]; [|lra]. apply Reqb_true in Z. congruence. }
  destruct (minl_spec _ NE) as (_ & M1). destruct (maxl_spec _ NE) as (_ & M2). specialize (M1 y Hy). specialize (M2 y Hy).
  unfold ptp in *. split.
  - apply Rmult_le_pos; [lra|]. left. apply Rinv_0_lt_compat. auto.
  - apply Rmult_le_reg_r with (maxl col - minl col)%R; auto. unfold Rdiv. rewrite Rmult_assoc, Rinv_l by lra. lra.
Qed.

(** ** The emulator on the analysed samples *)
Lemma take_rows_all : forall A (d : A) l n, length l = n -> take_rows d (seq 0 n) l = l.
Proof.
  intros A d l n <-. unfold take_rows. apply nth_error_ext'. intros i. rewrite nth_error_map', nth_error_seq.
  destruct (Nat.ltb_spec i (length l)).
  - cbn. symmetry. apply nth_error_nth'. auto.
  - cbn. symmetry. apply nth_error_None. auto.
Qed.

Lemma mean_one : forall x, mean [x] = x.
Proof. intros. unfold mean. cbn. field. Qed.

Lemma mean_coefficients_one : forall C f t, mean_coefficients C [f] t = nth t (C f) [].
Proof.
  intros. unfold mean_coefficients. set (c := nth t (C f) []). apply nth_error_ext'. intros i. rewrite nth_error_map', nth_error_seq.
  destruct (Nat.ltb_spec i (length c)).
  - cbn [option_map map]. rewrite mean_one. fold c. cbn [Nat.add]. symmetry. apply nth_error_nth'. auto.
  - cbn. symmetry. apply nth_error_None. auto.
Qed.

Lemma map2_nth_matvec : forall (g : list nat -> list (list R)) ts C, length C = length ts ->
  map2 matvec (map g ts) C = map (fun it => matvec (g (snd it)) (nth (fst it) C [])) (combine (seq 0 (length ts)) ts).
Proof.
  intros g ts. assert (G : forall ts C pre, length C = length ts ->
    map2 matvec (map g ts) C = map (fun it => matvec (g (snd it)) (nth (fst it) (pre ++ C) [])) (combine (seq (length pre) (length ts)) ts)).
  { clear. induction ts as [|t ts IH]; intros [|c C] pre L; try discriminate; [reflexivity|].
    cbn [map map2 length seq combine fst snd]. f_equal.
    - rewrite app_nth2, Nat.sub_diag by lia. reflexivity.
    - rewrite (IH C (pre ++ [c])) by (simpl in L; lia). rewrite app_length. simpl length. rewrite Nat.add_1_r.
      apply map_ext. intros it. rewrite <- app_assoc. reflexivity. }
  intros C L. exact (G ts C [] L).
Qed.

Lemma map_terms_one : forall (Bs : list (list (list R))), Bs = map (term_basis Bs) (map (fun j => [j]) (seq 0 (length Bs))).
Proof.
  intros. rewrite map_map. apply nth_error_ext'. intros i. rewrite nth_error_map', nth_error_seq.
  destruct (Nat.ltb_spec i (length Bs)).
  - cbn. apply nth_error_nth'. auto.
  - cbn. apply nth_error_None. auto.
Qed.

Lemma all_some_In_map : forall A (f : A -> option (list (list R))) l bs b, all_some (map f l) = Some bs -> In b bs -> exists x, In x l /\ f x = Some b.
Proof.
  intros A f l bs b E H. apply all_some_inv in E. assert (I : In (Some b) (map Some bs)) by (apply in_map; auto).
  rewrite <- E in I. apply in_map_iff in I. destruct I as (x & E' & Hx). eauto.
Qed.

Lemma term_basis_length : forall Bs N t, (forall b, In b Bs -> length b = N) -> 1 <= length t <= 3 -> (forall x, In x t -> x < length Bs) ->
  length (term_basis Bs t) = N.
Proof.
  intros Bs N t H L I. assert (G : forall a, In a t -> length (nth a Bs []) = N) by (intros a Ha; apply H, nth_In; auto).
  destruct t as [|a [|b [|c [|e t]]]]; simpl in L; try lia; cbn [term_basis].
  - apply G. simpl; auto.
  - unfold basis2. rewrite length_map2, !G by (simpl; auto). lia.
  - unfold basis3. rewrite !length_map2, !G by (simpl; auto). lia.
Qed.

Section Emulator.
Variable regress : list (list R) -> R -> result (option (list (list R))).
Variable crit : R -> nat -> Z -> option R.
Variable quantile : R -> fval.
Variable argsorts : nat -> list nat.
Variable junk : nat -> nat -> list (list R).

Lemma run_emulator : forall names X y maxorder maxiter m Ro alpha lambdax h, wf_mat X ->
  hdmr_analyze regress crit quantile argsorts junk names X (Vector y) maxorder maxiter m 1 Ro alpha lambdax = Ok h ->
  exists f, h_Em h = [f] /\ length (fit_Y_e f) = length y /\ fit_f0 f = mean y /\
    emulate h X (Some y) = map Some (fit_Y_e f) /\
    emulate h X None = map (fun e => Some (e - mean y)%R) (fit_Y_e f).
Proof.
  intros names X y mo mi m Ro al la h WF E. apply run_inv in E. destruct E as (H & y' & fits & EY & M & F). injection EY as <-.
  set (st := settings_of (length (rows X)) mo mi m 1 Ro al la) in *. cbv zeta in M, F. fold st in M, F.
  assert (HK : st_K st = 1) by reflexivity. assert (HR : st_R st = length (rows X)) by reflexivity.
  assert (HY : length y = length (rows X)) by (destruct H as (_ & _ & H & _); exact H).
  set (N := length (rows X)) in *.
  assert (MO : 1 <= Z.to_nat mo <= 3) by (destruct H as (_ & _ & _ & _ & H & _); lia).
  unfold bootstrap_rows in M, F. rewrite HK in M, F. cbn [Nat.eqb seq combine mapM] in M. cbn [fst snd] in M.
  destruct (compute_one _ _ _ _ _ _ _) as [f|] eqn:C in M; [|discriminate]. cbn [bind] in M. injection M as <-.
  apply finalize_inv in F. destruct F as (_ & _ & _ & F4 & _ & F5 & F6 & _).
  apply compute_one_inv in C. destruct C as (Bs & Y1 & Y2 & Y3 & A & C). cbv zeta in C.
  destruct C as (L1 & L2 & L3 & E1 & E2 & E3 & EE & LE & CE & F0 & _ & YE & _ & _).
  assert (LB : length (bases (st_m st) X) = cols X) by (unfold bases; rewrite map_length, seq_length; auto).
  rewrite LB in *. rewrite seq_length in CE.
  assert (LBs : length Bs = cols X) by (apply all_some_inv in A; rewrite A, map_length in LB; auto).
  assert (HB : forall b, In b Bs -> length b = N).
  { intros b Hb. destruct (all_some_In_map _ _ _ _ b A Hb) as (j & Hj & Ej).
    destruct (normalise (column (rows X) j)) as [v|] eqn:Nv; [|discriminate]. cbn in Ej. injection Ej as <-.
    unfold basis1. rewrite map_length. apply normalise_unit in Nv. destruct Nv as (Lv & _). rewrite Lv.
    unfold column. apply in_seq in Hj. unfold N. unfold wf_mat in WF. clear - WF Hj.
    induction (rows X) as [|r l IH]; [reflexivity|].
    assert (Lr : length r = cols X) by (inversion WF; auto). cbn. destruct (nth_error_lt_Some r (i := j)) as (x & Ex); [lia|].
    rewrite Ex. simpl. f_equal. apply IH. inversion WF; auto. }
  assert (HT : forall t, In t (hdmr_c2 (cols X) (Z.to_nat mo)) \/ In t (hdmr_c3 (cols X) (Z.to_nat mo)) -> length (term_basis Bs t) = N).
  { intros t Ht. assert (Q : 1 <= length t <= 3 /\ forall x, In x t -> x < cols X).
    { destruct Ht as [Ht|Ht]; [apply in_c2 in Ht|apply in_c3 in Ht]; destruct Ht as (_ & T1 & T2 & _); split; auto; lia. }
    apply term_basis_length; auto; [apply Q|]. rewrite LBs. apply Q. }
  exists f. split; [auto|].
  destruct (row_sums_spec N (fit_Y_em f) CE) as (RL & _).
  assert (LYe : length (fit_Y_e f) = length y) by (rewrite YE, map_length, HR, RL; auto).
  split; auto.
  assert (EF0 : fit_f0 f = mean y).
  { rewrite F0, HR. fold N. rewrite take_rows_all by auto. unfold mean. rewrite HY. reflexivity. }
  split; auto.
  (* the emulated columns are the fitted ones *)
  assert (EM : forall Yo, emulate h X Yo = map (fun v => Some (v + match Yo with Some y => mean y | None => 0%R end)%R) (row_sums N (fit_Y_em f))).
  { intros Yo. unfold emulate. rewrite F4, F5, F6. fold (bases (st_m st) X). rewrite A. fold N. f_equal. f_equal. rewrite EE, E1, E2, E3.
    change (st_maxorder st) with (Z.to_nat mo) in *.
    assert (TB1 : map (fun B => take_rows [] (seq 0 N) B) Bs = map (term_basis Bs) (map (fun j => [j]) (seq 0 (cols X)))).
    { rewrite <- LBs, <- map_terms_one. rewrite (map_ext_in _ (fun b => b)); [apply map_id|]. intros b Hb. apply take_rows_all. auto. }
    assert (TB2 : forall ts, (forall t, In t ts -> length (term_basis Bs t) = N) ->
      map (fun c => take_rows [] (seq 0 N) (term_basis Bs c)) ts = map (term_basis Bs) ts).
    { intros ts Ht. apply map_ext_in. intros t Hti. apply take_rows_all. auto. }
    rewrite TB1, (TB2 (hdmr_c2 _ _)), (TB2 (hdmr_c3 _ _)) by auto.
    rewrite !map2_nth_matvec by (rewrite ?map_length, ?seq_length; auto).
    f_equal; [|f_equal]; apply map_ext; intros it; rewrite mean_coefficients_one; reflexivity. }
  split.
  - rewrite EM, YE, map_map, HR, EF0. fold N. apply map_ext. intros v. f_equal. ring.
  - rewrite EM, YE, map_map, HR, EF0. fold N. apply map_ext. intros v. f_equal. ring.
Qed.
End Emulator.

(** ** The emulator rescales each matrix to its own range *)
Lemma maxl_minl_affine : forall a b l, (0 < a)%R -> l <> [] ->
  maxl (map (fun x => a * x + b)%R l) = (a * maxl l + b)%R /\ minl (map (fun x => a * x + b)%R l) = (a * minl l + b)%R.
Proof.
  intros a b l Ha NE. assert (NE' : map (fun x => a * x + b)%R l <> []) by (destruct l; [congruence|discriminate]).
  destruct (maxl_spec _ NE) as (M1 & M2), (maxl_spec _ NE') as (M3 & M4), (minl_spec _ NE) as (M5 & M6), (minl_spec _ NE') as (M7 & M8). split.
  - apply Rle_antisym.
    + apply in_map_iff in M3. destruct M3 as (x & <- & Hx). specialize (M2 x Hx). nra.
    + apply M4. apply in_map_iff. eauto.
  - apply Rle_antisym.
    + apply M8. apply in_map_iff. eauto.
    + apply in_map_iff in M7. destruct M7 as (x & <- & Hx). specialize (M6 x Hx). nra.
Qed.

Lemma normalise_affine : forall a b col, (0 < a)%R -> normalise (map (fun x => a * x + b)%R col) = normalise col.
Proof.
  intros a b col Ha. destruct col as [|x0 col0] eqn:EC; [reflexivity|]. rewrite <- EC. assert (NE : col <> []) by (rewrite EC; discriminate).
  destruct (maxl_minl_affine a b col Ha NE) as (M1 & M2). unfold normalise, ptp. rewrite M1, M2.
  replace (a * maxl col + b - (a * minl col + b))%R with (a * (maxl col - minl col))%R by ring.
  set (p := (maxl col - minl col)%R). destruct (Reqb p 0) eqn:P.
  - apply Reqb_true in P. rewrite P, Rmult_0_r, (proj2 (Reqb_true 0 0) eq_refl). auto.
  - assert (Pn : p <> 0%R) by (intros Z; apply Reqb_true in Z; congruence).
    destruct (Reqb (a * p) 0) eqn:Q.
    + apply Reqb_true in Q. exfalso. apply Pn. apply Rmult_integral in Q. destruct Q; [lra|auto].
    + rewrite map_map. f_equal. apply map_ext. intros x. field. split; auto. lra.
Qed.

Lemma emulate_rescaled : forall h X X' Y (a b : nat -> R), wf_mat X -> wf_mat X' -> cols X' = cols X -> length (rows X') = length (rows X) ->
  (forall j, 0 < a j)%R -> (forall j, j < cols X -> column (rows X') j = map (fun x => a j * x + b j)%R (column (rows X) j)) ->
  emulate h X' Y = emulate h X Y.
Proof.
  intros h X X' Y a b W W' C L Ha H. unfold emulate. rewrite C, L.
  rewrite (map_ext_in (fun j => option_map (basis1 (h_m h)) (normalise (column (rows X') j))) (fun j => option_map (basis1 (h_m h)) (normalise (column (rows X) j)))); auto.
  intros j Hj. apply in_seq in Hj. rewrite H by lia. rewrite normalise_affine by auto. auto.
Qed.
