(** * HDMR: averages over the bootstraps. *)
From Coq Require Import Reals String List Arith ZArith Bool Lia Lra Psatz Sorted Permutation.
From Verif Require Import Base Arrays ListFacts ModelGroups ModelScale ProofsScale Stats Sums SpecMorris ModelFast ModelMorris ModelMorrisAnalyze ModelDgsm ModelPawn
  ProofsMorris3 ProofsMorris7 ProofsDgsm2 ProofsDelta5 ModelHdmr SpecHdmr ProofsHdmr ProofsHdmr2 ProofsHdmr3 ProofsHdmr4 ProofsHdmr5.
Import ListNotations.
Local Open Scope nat_scope.

Lemma mean_minus3 : forall A (f g h : A -> R) l,
  (mean (map f l) - (mean (map g l) + mean (map h l)) = mean (map (fun x => f x - (g x + h x)) l))%R.
Proof.
  intros. unfold mean. rewrite !map_length. rewrite (Rsum_map_minus _ f (fun x => g x + h x)%R), Rsum_map_plus. unfold Rdiv. ring.
Qed.

Lemma fsum_all : forall (s : list fval) n, length s = n -> fsum (map (fun i => nth i s None) (seq 0 n)) = fsum s.
Proof.
  intros s n <-. f_equal. apply nth_error_ext'. intros i. rewrite nth_error_map', nth_error_seq. destruct (Nat.ltb_spec i (length s)); cbn.
  - symmetry. apply nth_error_nth'. auto.
  - symmetry. apply nth_error_None. auto.
Qed.

Lemma fsd_one : forall mult v, fmul (Some mult) (fsd [v]) = match v with Some _ => Some 0%R | None => None end.
Proof.
  intros mult [x|]; [|reflexivity]. cbn. f_equal. unfold sd.
  assert (V : var [x] = 0%R) by (unfold var; cbn [map]; rewrite !mean_one; ring). rewrite V, sqrt_0. ring.
Qed.

Section Runs.
Variable regress : list (list R) -> R -> result (option (list (list R))).
Variable crit : R -> nat -> Z -> option R.
Variable quantile : R -> fval.
Variable argsorts : nat -> list nat.
Variable junk : nat -> nat -> list (list R).

(** The rows of each bootstrap are rows of the sample, each at most once. *)
Lemma run_rows : forall names X y maxorder maxiter m K Ro alpha lambdax h,
  hdmr_analyze regress crit quantile argsorts junk names X (Vector y) maxorder maxiter m K Ro alpha lambdax = Ok h ->
  (forall k, Permutation (argsorts k) (seq 0 (length (rows X)))) ->
  forall idx, In idx (h_idx h) -> 
    length idx = st_R (settings_of (length (rows X)) maxorder maxiter m K Ro alpha lambdax) /\ 2 <= length idx /\ NoDup idx /\
    forall i, In i idx -> i < length (rows X).
Proof.
  intros names X y mo mi m K Ro al la h E P idx Hi. apply run_inv in E. destruct E as (H & y' & fits & EY & M & F).
  set (st := settings_of (length (rows X)) mo mi m K Ro al la) in *. cbv zeta in F. fold st in F.
  apply finalize_inv in F. destruct F as (_ & _ & _ & _ & F5 & _). rewrite F5 in Hi. unfold bootstrap_rows in Hi.
  change (st_K st) with (Z.to_nat K) in Hi. set (N := length (rows X)) in *.
  destruct H as (_ & HN & _ & _ & _ & _ & _ & _ & HK & HR & _).
  assert (HRR : st_R st = if (K =? 1)%Z then N else match Ro with None => N / 2 | Some r => Z.to_nat r end) by reflexivity.
  destruct (Nat.eqb_spec (Z.to_nat K) 1) as [E1|E1].
  - destruct Hi as [<-|[]]. rewrite seq_length, HRR. assert (K = 1)%Z by lia. destruct (Z.eqb_spec K 1); [|lia].
    split; auto. split; [lia|]. split; [apply seq_NoDup|]. intros i Hi. apply in_seq in Hi. lia.
  - apply in_map_iff in Hi. destruct Hi as (k & <- & _). destruct (Z.eqb_spec K 1); [lia|].
    assert (RB : 2 <= st_R st <= N).
    { rewrite HRR. destruct Ro as [r|]; [specialize (HR r eq_refl); lia|].
      pose proof (Nat.div_le_mono 300 N 2 ltac:(lia) HN). change (300 / 2) with 150 in H. pose proof (Nat.div_le_upper_bound N 2 N). lia. }
    assert (LA : length (argsorts k) = N) by (rewrite (Permutation_length (P k)); apply seq_length).
    rewrite firstn_length, LA. split; [lia|]. split; [lia|]. split.
    + assert (ND : NoDup (argsorts k)) by (eapply Permutation_NoDup; [apply Permutation_sym, P|apply seq_NoDup]).
      rewrite <- (firstn_skipn (st_R st) (argsorts k)) in ND. clear - ND. revert ND. generalize (skipn (st_R st) (argsorts k)) as t.
      induction (firstn (st_R st) (argsorts k)) as [|x l IH]; intros t ND; [constructor|]. inversion ND; subst. constructor; [|eapply IH; eauto].
      intros Q. apply H1. apply in_app_iff; auto.
    + intros i Hi. assert (Hin : In i (argsorts k)) by (rewrite <- (firstn_skipn (st_R st) (argsorts k)); apply in_app_iff; auto).
      apply (Permutation_in _ (P k)) in Hin. apply in_seq in Hin. lia.
Qed.

Definition gap_of (y : list R) (j : nat) (fi : fit * list nat) : R :=
  let Y := map (fun i => nth i y 0%R) (snd fi) in
  let col := nth j (fit_Y_em (fst fi)) [] in
  ((cov1 col (vsub Y (fit_Y_e (fst fi))) + var col / (INR (length (snd fi)) - 1)) / var Y)%R.

Lemma across_fits : forall (g : fit -> list fval) (fits : list fit) (idxs : list (list nat)) j, length idxs = length fits ->
  across (map g fits) j = map (fun fi => nth j (g (fst fi)) None) (combine fits idxs).
Proof.
  intros g fits. unfold across. induction fits as [|f fits IH]; intros [|i idxs] j L; try discriminate; [reflexivity|].
  cbn [map combine fst]. f_equal. apply IH. simpl in L. lia.
Qed.

Lemma combine_nth_error : forall A B (l : list A) (l' : list B) p, length l' = length l -> In p (combine l l') -> exists k, nth_error l k = Some (fst p) /\ nth_error l' k = Some (snd p).
Proof.
  intros A B. induction l as [|a l IH]; intros [|b l'] p L H; try (destruct H; fail); try discriminate.
  destruct H as [<-|H]; [exists 0; auto|]. destruct (IH l' p) as (k & H1 & H2); [simpl in L; lia|auto|]. exists (S k). auto.
Qed.

Lemma run_gap : forall names X y maxorder maxiter m K Ro alpha lambdax h,
  hdmr_analyze regress crit quantile argsorts junk names X (Vector y) maxorder maxiter m K Ro alpha lambdax = Ok h ->
  (forall k, Permutation (argsorts k) (seq 0 (length (rows X)))) ->
  (forall idx, In idx (h_idx h) -> var (map (fun i => nth i y 0%R) idx) <> 0%R) ->
  forall j, j < length (h_Term h) ->
    exists s sa sb, nth_error (h_S h) j = Some (Some s) /\ nth_error (h_Sa h) j = Some (Some sa) /\ nth_error (h_Sb h) j = Some (Some sb) /\
      (s - (sa + sb) = mean (map (gap_of y j) (combine (h_Em h) (h_idx h))))%R.
Proof.
  intros names X y mo mi m K Ro al la h E P V j Hj.
  pose proof (run_fits _ _ _ _ _ _ _ _ _ _ _ _ _ _ _ _ E) as (LE & LI & RF).
  pose proof (run_rows _ _ _ _ _ _ _ _ _ _ _ E P) as RR.
  pose proof (run_decomposition _ _ _ _ _ _ _ _ _ _ _ _ _ _ _ _ E) as RD.
  set (st := settings_of (length (rows X)) mo mi m K Ro al la) in *. cbv zeta in RF. fold st in RF.
  apply run_inv in E. destruct E as (H & y' & fits & EY & M & F). injection EY as <-. cbv zeta in F, M. fold st in F, M.
  apply finalize_inv in F. destruct F as (F1 & F2 & _ & F4 & F5 & _ & _ & _ & F9 & F10 & _). subst fits.
  change (st_maxorder st) with (Z.to_nat mo) in *. set (n := hdmr_n (cols X) (Z.to_nat mo)) in *.
  assert (LT : length (h_Term h) = n) by (apply hdmr_terms_spec, Forall2_length in F1; rewrite <- F1; apply hdmr_n_length).
  set (fi := combine (h_Em h) (h_idx h)) in *.
  assert (D : forall p, In p fi -> exists s sa sb, nth j (fit_S (fst p)) None = Some s /\ nth j (fit_Sa (fst p)) None = Some sa /\
     nth j (fit_Sb (fst p)) None = Some sb /\ (s - (sa + sb) = gap_of y j p)%R).
  { intros p Hp. apply combine_nth_error in Hp; [|congruence]. destruct Hp as (k & Hf & Hi).
    assert (Hin : In (snd p) (h_idx h)) by (eapply nth_error_In; eauto). destruct (RR _ Hin) as (R1 & R2 & _).
    specialize (RF k _ _ Hf Hi). apply compute_one_inv in RF. destruct RF as (Bs & Y1 & Y2 & Y3 & A & C). cbv zeta in C. rewrite bases_length in C.
    destruct C as (_ & _ & _ & _ & _ & _ & _ & LY & _). change (st_maxorder st) with (Z.to_nat mo) in LY. fold n in LY.
    destruct (nth_error_lt_Some (fit_Y_em (fst p)) (i := j)) as (col & Ec); [lia|].
    destruct (RD k j _ _ col Hf Hi Ec R2 (eq_sym R1) (V _ Hin)) as (s & sa & sb & D1 & D2 & D3 & D4 & D5 & D6 & D7).
    exists s, sa, sb. rewrite (nth_error_nth _ _ _ D1), (nth_error_nth _ _ _ D2), (nth_error_nth _ _ _ D3). split; auto. split; auto. split; auto.
    unfold gap_of. rewrite (nth_error_nth _ _ _ Ec). auto. }
  assert (G : forall g : fit -> list fval, (forall p, In p fi -> exists v, nth j (g (fst p)) None = Some v) ->
    nth_error (map (fun i => fmean (across (map g (h_Em h)) i)) (seq 0 n)) j = Some (Some (mean (map (fun p => val (nth j (g (fst p)) None)) fi)))).
  { intros g Hg. rewrite nth_error_map', nth_error_seq. destruct (Nat.ltb_spec j n); [|lia]. cbn [option_map Nat.add]. f_equal.
    rewrite (across_fits g (h_Em h) (h_idx h)) by congruence. fold fi. unfold fmean.
    rewrite (fall_some _ fi (fun p => nth j (g (fst p)) None) (fun p => val (nth j (g (fst p)) None))); auto.
    intros p Hp. destruct (Hg p Hp) as (v & Ev). rewrite Ev. reflexivity. }
  rewrite F2, F9, F10. eexists _, _, _. rewrite !G.
  - split; [reflexivity|]. split; [reflexivity|]. split; [reflexivity|]. rewrite mean_minus3. f_equal. apply map_ext_in.
    intros p Hp. destruct (D p Hp) as (s & sa & sb & D1 & D2 & D3 & D4). rewrite D1, D2, D3. exact D4.
  - intros p Hp. destruct (D p Hp) as (s & sa & sb & D1 & D2 & D3 & D4). eauto.
  - intros p Hp. destruct (D p Hp) as (s & sa & sb & D1 & D2 & D3 & D4). eauto.
  - intros p Hp. destruct (D p Hp) as (s & sa & sb & D1 & D2 & D3 & D4). eauto.
Qed.

(** The reported sums are the sums of the reported indices; their half-widths are 0. *)
Lemma run_sums : forall names X Y maxorder maxiter m K Ro alpha lambdax h,
  hdmr_analyze regress crit quantile argsorts junk names X Y maxorder maxiter m K Ro alpha lambdax = Ok h ->
  h_S_sum h = fsum (h_S h) /\ h_Sa_sum h = fsum (h_Sa h) /\ h_Sb_sum h = fsum (h_Sb h) /\
  (h_S_sum_conf h = None \/ h_S_sum_conf h = Some 0%R) /\ (h_Sa_sum_conf h = None \/ h_Sa_sum_conf h = Some 0%R) /\
  (h_Sb_sum_conf h = None \/ h_Sb_sum_conf h = Some 0%R) /\
  let n := length (h_Term h) in
  length (h_S h) = n /\ length (h_Sa h) = n /\ length (h_Sb h) = n /\ length (h_ST h) = n /\
  length (h_S_conf h) = n /\ length (h_Sa_conf h) = n /\ length (h_Sb_conf h) = n /\ length (h_ST_conf h) = n /\
  length (h_select h) = n * Z.to_nat K.
Proof.
  intros names X Y mo mi m K Ro al la h E. pose proof E as E'. apply run_inv in E'. destruct E' as (H & y & fits & -> & M & F).
  pose proof (run_fits _ _ _ _ _ _ _ _ _ _ _ _ _ _ _ _ E) as (LE & LI & RF). cbv zeta in RF.
  set (st := settings_of (length (rows X)) mo mi m K Ro al la) in *. cbv zeta in F, M. fold st in F, M.
  apply finalize_inv in F. destruct F as (F1 & F2 & F3 & F4 & F5 & _ & _ & F8 & F9 & F10 & F11 & F12 & F13 & F14 & F15 & F16).
  change (st_maxorder st) with (Z.to_nat mo) in *. set (n := hdmr_n (cols X) (Z.to_nat mo)) in *.
  assert (LT : length (h_Term h) = n) by (apply hdmr_terms_spec, Forall2_length in F1; rewrite <- F1; apply hdmr_n_length).
  assert (NE : fits <> []) by (intros Q; rewrite F4, Q in LE; destruct H as (_ & _ & _ & _ & _ & _ & _ & _ & H & _); simpl in LE; lia).
  assert (LF : forall f, In f fits -> length (fit_S f) = n /\ length (fit_Sa f) = n /\ length (fit_Sb f) = n).
  { intros f Hf. apply in_nth_error in Hf. destruct Hf as (k & Hk). rewrite <- F4 in Hk.
    destruct (nth_error_lt_Some (h_idx h) (i := k)) as (idx & Hi); [apply nth_error_Some_lt in Hk; lia|].
    specialize (RF k f idx Hk Hi). apply compute_one_inv in RF. destruct RF as (Bs & Y1 & Y2 & Y3 & A & C). cbv zeta in C. rewrite bases_length in C.
    destruct C as (_ & _ & _ & _ & _ & _ & _ & LY & _ & _ & _ & _ & AN & _). change (st_maxorder st) with (Z.to_nat mo) in LY. fold n in LY.
    unfold ancova in AN. injection AN as -> -> ->. rewrite !map_length. auto. }
  assert (G : forall g : fit -> list fval, (forall f, In f fits -> length (g f) = n) ->
    fmean (map fsum (map g fits)) = fsum (map (fun i => fmean (across (map g fits) i)) (seq 0 n))).
  { intros g Hg. rewrite <- fmean_fsum by (destruct fits; [congruence|discriminate]). f_equal. apply map_ext_in.
    intros s Hs. apply in_map_iff in Hs. destruct Hs as (f & <- & Hf). symmetry. apply fsum_all. auto. }
  injection F11 as F11a F11b F11c. injection F12 as F12a F12b F12c.
  split; [rewrite F11c, F2; apply G; intros; apply LF; auto|].
  split; [rewrite F11a, F9; apply G; intros; apply LF; auto|].
  split; [rewrite F11b, F10; apply G; intros; apply LF; auto|].
  assert (Z0 : forall mult v, fmul mult (fsd [v]) = None \/ fmul mult (fsd [v]) = Some 0%R).
  { intros [mult|] v; [rewrite fsd_one; destruct v; auto|left; reflexivity]. }
  split; [rewrite F12c; apply Z0|]. split; [rewrite F12a; apply Z0|]. split; [rewrite F12b; apply Z0|].
  cbv zeta. rewrite LT. rewrite F2, F3, F9, F10. rewrite !map_length, !seq_length.
  assert (Hn : cols X <= n) by (unfold n, hdmr_n; lia).
  split; auto. split; auto. split; auto. split; [rewrite app_length, map_length, seq_length, repeat_length; lia|].
  split; auto. split; auto. split; auto. split; [lia|].
  rewrite F8. rewrite (length_concat_uniform (k := Z.to_nat K)); [rewrite map_length, seq_length; auto|].
  apply Forall_forall. intros bs Hbs. apply in_map_iff in Hbs. destruct Hbs as (i & <- & _). rewrite map_length, <- F4. auto.
Qed.
End Runs.
