(** * HDMR: settings, shape of a run, totals. *)
From Coq Require Import Reals String List Arith ZArith Bool Lia Lra Sorted Permutation.
From Verif Require Import Base Arrays ListFacts ModelGroups ModelScale ProofsScale Stats Sums SpecMorris ModelFast ModelMorris ModelMorrisAnalyze ModelDgsm ModelPawn
  ProofsMorris3 ProofsMorris7 ProofsDgsm2 ProofsDelta5 ModelHdmr SpecHdmr ProofsHdmr.
Import ListNotations.
Local Open Scope nat_scope.

Lemma Rltb_true : forall x y, Rltb x y = true <-> (x < y)%R.
Proof. intros. unfold Rltb. destruct (Rlt_dec x y); split; intros; auto; discriminate || contradiction. Qed.
Lemma Rltb_false : forall x y, Rltb x y = false <-> (y <= x)%R.
Proof. intros. unfold Rltb. destruct (Rlt_dec x y); split; intros; auto; try discriminate; lra. Qed.
Lemma Reqb_true : forall x y, Reqb x y = true <-> x = y.
Proof. intros. unfold Reqb. destruct (Req_EM_T x y); split; intros; auto; discriminate || contradiction. Qed.
Lemma in_range_true : forall a b v, in_range a b v = true <-> (a <= v <= b)%Z.
Proof. intros. unfold in_range. rewrite andb_true_iff, !Z.leb_le. tauto. Qed.

(** ** Settings *)
Definition settings_of (N : nat) (maxorder maxiter m K : Z) (Ro : option Z) (alpha lambdax : R) : settings :=
  mkSettings (Z.to_nat maxorder) (Z.to_nat maxiter) (Z.to_nat m) (Z.to_nat K)
    (if (K =? 1)%Z then N else match Ro with None => N / 2 | Some r => Z.to_nat r end) alpha lambdax.

Lemma check_settings_ok : forall N d Y maxorder maxiter m K Ro alpha lambdax,
  settings_ok N d Y maxorder maxiter m K Ro alpha lambdax ->
  check_settings N d Y maxorder maxiter m K Ro alpha lambdax = Ok (settings_of N maxorder maxiter m K Ro alpha lambdax).
Proof.
  intros N d Y mo mi m K Ro al la (H1 & H2 & H3 & H4 & H5 & H6 & H7 & H8 & H9 & H10 & H11 & H12). unfold check_settings.
  destruct (Nat.eqb_spec d 1); [contradiction|]. destruct (Nat.ltb_spec N 300); [lia|].
  rewrite H3, H4, Nat.eqb_refl. cbn [negb].
  rewrite (proj2 (in_range_true 1 3 mo) H5). cbn [negb].
  replace ((d =? 2) && (2 <? mo)%Z) with false.
  2:{ symmetry. destruct (Nat.eqb_spec d 2) as [E|E]; [|reflexivity]. specialize (H6 E). cbn [andb]. apply Z.ltb_ge. lia. }
  rewrite (proj2 (in_range_true 1 1000 mi) H7), (proj2 (in_range_true 1 10 m) H8), (proj2 (in_range_true 1 100 K) H9). cbn [negb].
  assert (Ha : Rltb al (1 / 2) || Rltb 1 al = false) by (apply orb_false_iff; rewrite !Rltb_false; lra).
  assert (Hl1 : Rltb 10 la = false) by (apply Rltb_false; lra).
  assert (Hl2 : Rltb la 0 = false) by (apply Rltb_false; lra).
  unfold settings_of. destruct Ro as [r|].
  - rewrite (proj2 (in_range_true 300 (Z.of_nat N) r) (H10 r eq_refl)). cbn [bind]. rewrite Ha, Hl1, Hl2. f_equal. f_equal.
    destruct (Z.eqb_spec K 1); [|reflexivity]. cbn [andb]. destruct (Nat.eqb_spec (Z.to_nat r) N); cbn [negb]; auto.
  - cbn [bind]. rewrite Ha, Hl1, Hl2. f_equal. f_equal.
    destruct (Z.eqb_spec K 1); [|reflexivity]. cbn [andb]. destruct (Nat.eqb_spec (N / 2) N); cbn [negb]; auto.
Qed.

Lemma check_settings_inv : forall N d Y maxorder maxiter m K Ro alpha lambdax x,
  check_settings N d Y maxorder maxiter m K Ro alpha lambdax = x ->
  (settings_ok N d Y maxorder maxiter m K Ro alpha lambdax /\ x = Ok (settings_of N maxorder maxiter m K Ro alpha lambdax)) \/
  (~ settings_ok N d Y maxorder maxiter m K Ro alpha lambdax /\ x = Err RuntimeError).
Proof.
  intros N d Y mo mi m K Ro al la x E.
  assert (D : settings_ok N d Y mo mi m K Ro al la \/ check_settings N d Y mo mi m K Ro al la = Err RuntimeError).
  { unfold check_settings.
    destruct (Nat.eqb_spec d 1) as [|A1]; [right; reflexivity|]. destruct (Nat.ltb_spec N 300) as [|A2]; [right; reflexivity|].
    destruct (Nat.eqb_spec N (y_rows Y)) as [A3|]; [|right; reflexivity]. cbn [negb].
    destruct (Nat.eqb_spec (y_size Y) N) as [A4|]; [|right; reflexivity]. cbn [negb].
    destruct (in_range 1 3 mo) eqn:A5; [|right; reflexivity]. cbn [negb]. apply in_range_true in A5.
    destruct ((d =? 2) && (2 <? mo)%Z) eqn:A6; [right; reflexivity|].
    assert (A6' : (d = 2%nat -> mo <= 2)%Z).
    { intros ->. cbn in A6. apply Z.ltb_ge in A6. lia. }
    destruct (in_range 1 1000 mi) eqn:A7; [|right; reflexivity]. cbn [negb]. apply in_range_true in A7.
    destruct (in_range 1 10 m) eqn:A8; [|right; reflexivity]. cbn [negb]. apply in_range_true in A8.
    destruct (in_range 1 100 K) eqn:A9; [|right; reflexivity]. cbn [negb]. apply in_range_true in A9.
    assert (T : forall r, (forall r, Ro = Some r -> 300 <= r <= Z.of_nat N)%Z ->
      settings_ok N d Y mo mi m K Ro al la \/ (if Rltb al (1 / 2) || Rltb 1 al then Err RuntimeError
      else if Rltb 10 la then Err RuntimeError else if Rltb la 0 then Err RuntimeError else Ok (r : settings)) = Err RuntimeError).
    { intros r Hr. destruct (Rltb al (1 / 2)) eqn:B1; [right; reflexivity|]. destruct (Rltb 1 al) eqn:B2; [right; reflexivity|].
      destruct (Rltb 10 la) eqn:B3; [right; reflexivity|]. destruct (Rltb la 0) eqn:B4; [right; reflexivity|].
      apply Rltb_false in B1, B2, B3, B4. left. unfold settings_ok.
      repeat (split; auto). }
    destruct Ro as [r|].
    - destruct (in_range 300 (Z.of_nat N) r) eqn:A10; [|right; reflexivity]. cbn [bind]. apply in_range_true in A10.
      apply T. intros r' E'. injection E' as <-. auto.
    - cbn [bind]. apply T. intros; discriminate. }
  destruct D as [D|D].
  - left. split; auto. rewrite <- E. apply check_settings_ok; auto.
  - right. split; [|congruence]. intros H. apply check_settings_ok in H. congruence.
Qed.

(** ** nan arithmetic *)
Lemma all_some_nth : forall (l : list fval) xs i, all_some l = Some xs -> nth i l None = if i <? length xs then Some (nth i xs 0%R) else None.
Proof.
  intros l xs i E. apply all_some_inv in E. subst l. destruct (Nat.ltb_spec i (length xs)).
  - rewrite (nth_indep _ None (Some 0%R)) by (rewrite map_length; auto). rewrite map_nth. reflexivity.
  - rewrite nth_overflow; [reflexivity|rewrite map_length; auto].
Qed.

Lemma all_some_dec : forall A (f : A -> fval) l, {all_some (map f l) = Some (map (fun x => match f x with Some v => v | None => 0%R end) l) /\
  forall x, In x l -> f x = Some (match f x with Some v => v | None => 0%R end)} + {all_some (map f l) = None /\ exists x, In x l /\ f x = None}.
Proof.
  induction l as [|a l IH].
  - left. split; [reflexivity|intros ? []].
  - cbn [map all_some]. destruct (f a) as [v|] eqn:Ea.
    + destruct IH as [(E & H)|(E & H)].
      * left. rewrite E. split; [reflexivity|]. intros x [<-|Hx]; [rewrite Ea; reflexivity|auto].
      * right. rewrite E. split; [reflexivity|]. destruct H as (x & Hx & Hn). exists x. split; [right|]; auto.
    + right. split; [reflexivity|]. exists a. split; [left|]; auto.
Qed.

Lemma fall_some : forall A (l : list A) (f : A -> fval) (g : A -> R), (forall x, In x l -> f x = Some (g x)) ->
  all_some (map f l) = Some (map g l).
Proof. intros. apply all_some_of. auto. Qed.
Lemma fall_none : forall A (l : list A) (f : A -> fval) x, In x l -> f x = None -> all_some (map f l) = None.
Proof. intros. eapply all_some_none; eauto. Qed.

Definition val (v : fval) : R := match v with Some x => x | None => 0%R end.

Lemma fsum_some_in : forall A (f : A -> fval) l v, fsum (map f l) = Some v -> forall x, In x l -> f x = Some (val (f x)).
Proof. intros A f l v E. unfold fsum in E. destruct (all_some_dec A f l) as [(E' & H')|(E' & _)]; [exact H'|]. rewrite E' in E. discriminate. Qed.
Lemma fsum_none_in : forall A (f : A -> fval) l, fsum (map f l) = None -> exists x, In x l /\ f x = None.
Proof. intros A f l E. unfold fsum in E. destruct (all_some_dec A f l) as [(E' & H')|(E' & H')]; [|exact H']. rewrite E' in E. discriminate. Qed.

Lemma mean_Rsum_swap : forall A B (f : A -> B -> R) (l : list A) (js : list B),
  mean (map (fun s => Rsum (map (f s) js)) l) = Rsum (map (fun j => mean (map (fun s => f s j) l)) js).
Proof.
  intros. induction js as [|j js IH]; cbn [map].
  - unfold mean. rewrite map_length. cbn [Rsum fold_right]. rewrite Rsum_const. unfold Rdiv. rewrite Rmult_0_r, Rmult_0_l. reflexivity.
  - change (Rsum (mean (map (fun s => f s j) l) :: map (fun j0 => mean (map (fun s => f s j0) l)) js))
      with (mean (map (fun s => f s j) l) + Rsum (map (fun j0 => mean (map (fun s => f s j0) l)) js))%R.
    rewrite <- IH. unfold mean. rewrite !map_length.
    transitivity (Rsum (map (fun s => f s j + Rsum (map (f s) js))%R l) / INR (length l))%R; [reflexivity|].
    rewrite Rsum_map_plus. unfold Rdiv. ring.
Qed.

Lemma fmean_fsum : forall (tbl : list (list fval)) (js : list nat),
  tbl <> [] ->
  fmean (map (fun s => fsum (map (fun i => nth i s None) js)) tbl) = fsum (map (fun j => fmean (across tbl j)) js).
Proof.
  intros tbl js NE. unfold fmean at 1, fsum at 2.
  destruct (all_some_dec _ (fun s => fsum (map (fun i => nth i s None) js)) tbl) as [(E & H)|(E & s & Hs & Hn)]; rewrite E.
  - assert (F : forall s j, In s tbl -> In j js -> nth j s None = Some (val (nth j s None))).
    { intros s j Hs Hj. specialize (H s Hs). cbv beta in H. exact (fsum_some_in _ _ _ _ H j Hj). }
    assert (G : forall j, In j js -> fmean (across tbl j) = Some (mean (map (fun s => val (nth j s None)) tbl))).
    { intros j Hj. unfold fmean, across. rewrite (fall_some _ tbl (fun s => nth j s None) (fun s => val (nth j s None))); auto. }
    rewrite (fall_some _ js (fun j => fmean (across tbl j)) (fun j => mean (map (fun s => val (nth j s None)) tbl))) by auto.
    f_equal. rewrite <- (mean_Rsum_swap _ _ (fun s j => val (nth j s None)) tbl js). f_equal. apply map_ext_in. intros s Hs.
    unfold fsum. rewrite (fall_some _ js (fun i => nth i s None) (fun j => val (nth j s None))); auto.
  - apply fsum_none_in in Hn. destruct Hn as (j & Hj & Hjn).
    rewrite (fall_none _ js _ j); auto. unfold fmean, across. rewrite (fall_none _ tbl _ s); auto.
Qed.

Lemma fsum_Some : forall (vals : list fval) js v,
  fsum (map (fun j => nth j vals None) js) = Some v <->
  exists xs, Forall2 (fun j x => nth_error vals j = Some (Some x)) js xs /\ v = Rsum xs.
Proof.
  intros vals js v. unfold fsum. split.
  - destruct (all_some (map (fun j => nth j vals None) js)) as [xs|] eqn:E; [|discriminate]. intros H. injection H as <-.
    exists xs. split; auto. apply all_some_inv in E. revert xs E. induction js as [|j js IH]; intros [|x xs] E; try discriminate; [constructor|].
    cbn [map] in E. injection E as E1 E2. constructor; auto.
    destruct (nth_error vals j) as [w|] eqn:Ej.
    + rewrite (nth_error_nth _ _ _ Ej) in E1. congruence.
    + apply nth_error_None in Ej. rewrite nth_overflow in E1 by auto. discriminate.
  - intros (xs & F & ->). assert (E : map (fun j => nth j vals None) js = map Some xs).
    { induction F; [reflexivity|]. cbn [map]. rewrite IHF. f_equal. exact (nth_error_nth _ _ _ H). }
    rewrite E. clear. assert (A : all_some (map Some xs) = Some xs) by (induction xs; cbn; [|rewrite IHxs]; auto). rewrite A. reflexivity.
Qed.

(** ** A run *)
Section Run.
Variable regress : list (list R) -> R -> result (option (list (list R))).
Variable crit : R -> nat -> Z -> option R.
Variable quantile : R -> fval.
Variable argsorts : nat -> list nat.
Variable junk : nat -> nat -> list (list R).

Definition bases (m : nat) (X : mat R) : list (option (list (list R))) :=
  map (fun j => option_map (basis1 m) (normalise (column (rows X) j))) (seq 0 (cols X)).

Lemma run_inv : forall names X Y maxorder maxiter m K Ro alpha lambdax h,
  hdmr_analyze regress crit quantile argsorts junk names X Y maxorder maxiter m K Ro alpha lambdax = Ok h ->
  settings_ok (length (rows X)) (cols X) Y maxorder maxiter m K Ro alpha lambdax /\
  exists y fits, Y = Vector y /\
    let st := settings_of (length (rows X)) maxorder maxiter m K Ro alpha lambdax in
    mapM (fun ki => compute_one regress (crit alpha) st (bases (st_m st) X) y (snd ki) (junk (fst ki)))
         (combine (seq 0 (st_K st)) (bootstrap_rows (length (rows X)) st argsorts)) = Ok fits /\
    finalize names (cols X) st (quantile ((1 + alpha) / 2)%R) (bootstrap_rows (length (rows X)) st argsorts) fits = Ok h.
Proof.
  intros names X Y mo mi m K Ro al la h E. unfold hdmr_analyze in E.
  destruct (check_settings_inv (length (rows X)) (cols X) Y mo mi m K Ro al la _ eq_refl) as [(H & C)|(_ & C)]; rewrite C in E; [|discriminate].
  cbn [bind] in E. split; auto. destruct Y as [y|]; [|discriminate]. exists y.
  destruct (mapM _ _) as [fits|] eqn:M in E; [|discriminate]. cbn [bind] in E. exists fits. split; auto.
Qed.

Lemma bootstrap_rows_length : forall N st, length (combine (seq 0 (st_K st)) (bootstrap_rows N st argsorts)) = st_K st.
Proof.
  intros. rewrite combine_length, seq_length. unfold bootstrap_rows. destruct (Nat.eqb_spec (st_K st) 1) as [->|]; [reflexivity|].
  rewrite map_length, seq_length. lia.
Qed.

Lemma finalize_inv : forall names d st mult idx fits h, finalize names d st mult idx fits = Ok h ->
  let n := hdmr_n d (st_maxorder st) in
  hdmr_terms names d (st_maxorder st) = Ok (h_Term h) /\
  h_S h = map (fun i => fmean (across (map fit_S fits) i)) (seq 0 n) /\
  h_ST h = map (fun r => fmean (total_of (map fit_S fits) d (st_maxorder st) r)) (seq 0 d) ++ repeat (None : fval) (n - d) /\
  h_Em h = fits /\ h_idx h = idx /\ h_m h = st_m st /\ h_maxorder h = st_maxorder st /\
  h_select h = concat (map (fun i => map (fun f => nth i (fit_select f) false) fits) (seq 0 n)) /\
  h_Sa h = map (fun i => fmean (across (map fit_Sa fits) i)) (seq 0 n) /\
  h_Sb h = map (fun i => fmean (across (map fit_Sb fits) i)) (seq 0 n) /\
  (h_Sa_sum h, h_Sb_sum h, h_S_sum h) = (fmean (map fsum (map fit_Sa fits)), fmean (map fsum (map fit_Sb fits)), fmean (map fsum (map fit_S fits))) /\
  (h_Sa_sum_conf h, h_Sb_sum_conf h, h_S_sum_conf h) =
    (fmul mult (fsd [fsum (concat (map fit_Sa fits))]), fmul mult (fsd [fsum (concat (map fit_Sb fits))]),
     fmul mult (fsd [fsum (concat (map fit_S fits))])) /\
  length (h_Sa_conf h) = n /\ length (h_Sb_conf h) = n /\ length (h_S_conf h) = n /\ length (h_ST_conf h) = d + (n - d).
Proof.
  intros names d st mult idx fits h E. unfold finalize in E. destruct (hdmr_terms names d (st_maxorder st)) as [ls|]; [|discriminate].
  cbn [bind] in E. injection E as <-. cbn. repeat (split; auto); rewrite ?app_length, ?map_length, ?seq_length, ?repeat_length; auto.
Qed.

Lemma run_totals : forall names X Y maxorder maxiter m K Ro alpha lambdax h,
  hdmr_analyze regress crit quantile argsorts junk names X Y maxorder maxiter m K Ro alpha lambdax = Ok h ->
  exists ts, term_list (cols X) (Z.to_nat maxorder) ts /\ term_count (cols X) (Z.to_nat maxorder) (length ts) /\
    Forall2 (label_of names) ts (h_Term h) /\ length (h_S h) = length ts /\ length (h_ST h) = length ts /\
    (forall r, r < cols X -> exists js, NoDup js /\ (forall j, In j js <-> exists t, nth_error ts j = Some t /\ In r t) /\
      nth_error (h_ST h) r = Some (fsum (map (fun j => nth j (h_S h) None) js))) /\
    forall r, cols X <= r < length ts -> nth_error (h_ST h) r = Some None.
Proof.
  intros names X Y mo mi m K Ro al la h E. apply run_inv in E. destruct E as (H & y & fits & -> & M & F).
  set (st := settings_of (length (rows X)) mo mi m K Ro al la) in *. cbv zeta in M, F. fold st in M, F.
  assert (MO : 1 <= Z.to_nat mo <= 3) by (destruct H as (_ & _ & _ & _ & H & _); lia).
  assert (NE : map fit_S fits <> []).
  { apply mapM_Ok_length in M. rewrite bootstrap_rows_length in M.
    assert (Hk : st_K st = Z.to_nat K) by reflexivity.
    destruct H as (_ & _ & _ & _ & _ & _ & _ & _ & H & _). destruct fits; [simpl in M; lia|discriminate]. }
  apply finalize_inv in F. cbv zeta in F. change (st_maxorder st) with (Z.to_nat mo) in F. destruct F as (F1 & F2 & F3 & F4 & _).
  set (k := Z.to_nat mo) in *. set (d := cols X) in *.
  exists (hdmr_term_list d k). split; [apply hdmr_term_list_spec; auto|]. split; [rewrite hdmr_n_length; apply hdmr_count; auto|].
  split; [apply hdmr_terms_spec; auto|].
  assert (LS : length (h_S h) = hdmr_n d k) by (rewrite F2, map_length, seq_length; auto).
  assert (Hn : d <= hdmr_n d k) by (unfold hdmr_n; lia).
  split; [rewrite hdmr_n_length; auto|]. split.
  { rewrite F3, app_length, map_length, seq_length, repeat_length, hdmr_n_length. lia. }
  split.
  - intros r Hr. exists (total_rows d k r). destruct (total_rows_spec d k r MO Hr) as (N1 & N2).
    split; auto. split; auto. rewrite F3, nth_error_app1 by (rewrite map_length, seq_length; auto).
    rewrite nth_error_map', nth_error_seq. destruct (Nat.ltb_spec r d); [|lia]. cbn [option_map Nat.add]. f_equal.
    unfold total_of. rewrite fmean_fsum by auto. f_equal. apply map_ext_in. intros j Hj. rewrite F2.
    apply N2 in Hj. destruct Hj as (t & Hj & _). apply nth_error_Some_lt in Hj. rewrite hdmr_n_length in Hj.
    symmetry. apply nth_error_nth. rewrite nth_error_map', nth_error_seq. destruct (Nat.ltb_spec j (hdmr_n d k)); [reflexivity|lia].
  - intros r Hr. rewrite hdmr_n_length in Hr. rewrite F3, nth_error_app2 by (rewrite map_length, seq_length; lia).
    rewrite map_length, seq_length. rewrite nth_error_repeat. destruct (Nat.ltb_spec (r - d) (hdmr_n d k - d)); [reflexivity|lia].
Qed.
End Run.
