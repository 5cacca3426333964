(** * Enhanced HDMR: whole runs. *)
From Coq Require Import Reals String List Arith ZArith Bool Lia Lra Psatz Sorted Permutation.
From Verif Require Import Base Arrays ListFacts ModelGroups ModelScale ProofsScale Stats Sums Det ModelFast ModelMorris ModelMorrisAnalyze ModelDgsm ModelPawn
  SpecMorris ProofsMorris3 ProofsMorris7 ProofsDgsm2 ProofsDelta5 ModelHdmr SpecHdmr ProofsHdmr ProofsHdmr2 ProofsHdmr3 ProofsHdmr4 ProofsHdmr5 ProofsHdmr6
  ModelEhdmr SpecEhdmr ProofsEhdmr ProofsEhdmr2.
Import ListNotations.
Local Open Scope nat_scope.

(** ** Arguments *)

Definition e_problem_ok (pb : eproblem) (d : nat) : Prop :=
  match e_num pb with Some n => n = d | None => True end /\ opt_length (e_names pb) = d /\ opt_length (e_bounds pb) = d.

Lemma check_args_ok : forall pb N d ylen mo p K sub mi la al ext, e_problem_ok pb d -> e_settings_ok N d ylen mo p K sub mi la al ext ->
  check_args pb N d ylen mo p K sub mi la al ext = Ok (e_subset N K sub).
Proof.
  intros pb N d ylen mo p K sub mi la al ext (P1 & P2 & P3) (H1 & H2 & H3 & H4 & H5 & H6 & H7 & H8 & H9 & H10). unfold check_args.
  replace (match e_num pb with Some n => n | None => d end =? d) with true.
  2:{ symmetry. apply Nat.eqb_eq. destruct (e_num pb); auto. }
  rewrite P2, P3, Nat.eqb_refl. cbn [negb]. subst ylen.
  destruct (Nat.eqb_spec d 1); [contradiction|]. destruct (Nat.ltb_spec N 300); [lia|]. rewrite Nat.eqb_refl. cbn [negb].
  rewrite (proj2 (in_range_true 1 3 mo) H4), (proj2 (in_range_true 1 10 p) H5), (proj2 (in_range_true 1 100 K) H6). cbn [negb].
  assert (Ha : Rltb al (1 / 2) || Rltb 1 al = false) by (apply orb_false_iff; rewrite !Rltb_false; lra).
  assert (Hl : Rltb la 0 || Rltb 10 la = false) by (apply orb_false_iff; rewrite !Rltb_false; lra).
  assert (Hm : negb ext && negb (in_range 100 999 mi) = false).
  { destruct ext; cbn; auto. rewrite (proj2 (in_range_true 100 999 mi) (H9 eq_refl)). auto. }
  unfold e_subset. destruct (Z.eqb_spec K 1) as [->|NK].
  - rewrite (proj2 (in_range_true 300 (Z.of_nat N) (Z.of_nat N))) by lia. cbn [bind]. rewrite Ha, Hm, Hl, Nat2Z.id. auto.
  - destruct sub as [s|].
    + rewrite (proj2 (in_range_true 300 (Z.of_nat N) s)) by (apply H7; auto). cbn [bind]. rewrite Ha, Hm, Hl. auto.
    + cbn [bind]. rewrite Ha, Hm, Hl. auto.
Qed.

Lemma check_args_inv : forall pb N d ylen mo p K sub mi la al ext s, check_args pb N d ylen mo p K sub mi la al ext = Ok s ->
  e_problem_ok pb d /\ e_settings_ok N d ylen mo p K sub mi la al ext /\ s = e_subset N K sub.
Proof.
  intros pb N d ylen mo p K sub mi la al ext s E.
  assert (H : e_problem_ok pb d /\ e_settings_ok N d ylen mo p K sub mi la al ext).
  { unfold check_args in E.
    destruct (Nat.eqb_spec (match e_num pb with Some n => n | None => d end) d) as [A1|]; [|discriminate]. cbn [negb] in E.
    destruct (Nat.eqb_spec (opt_length (e_names pb)) d) as [A2|]; [|discriminate]. cbn [negb] in E.
    destruct (Nat.eqb_spec (opt_length (e_bounds pb)) d) as [A3|]; [|discriminate]. cbn [negb] in E.
    destruct (Nat.eqb_spec d 1) as [|A4]; [discriminate|]. destruct (Nat.ltb_spec N 300) as [|A5]; [discriminate|].
    destruct (Nat.eqb_spec N ylen) as [A6|]; [|discriminate]. cbn [negb] in E.
    destruct (in_range 1 3 mo) eqn:A7; [|discriminate]. destruct (in_range 1 10 p) eqn:A8; [|discriminate].
    destruct (in_range 1 100 K) eqn:A9; [|discriminate]. cbn [negb] in E. rewrite in_range_true in *.
    destruct (match (if (K =? 1)%Z then _ else _) with Some _ => _ | None => _ end) as [x|] eqn:A10 in E; [|discriminate]. cbn [bind] in E.
    destruct (Rltb al (1 / 2)) eqn:B1; [discriminate|]. destruct (Rltb 1 al) eqn:B2; [discriminate|]. cbn [orb] in E.
    destruct (negb ext && negb (in_range 100 999 mi)) eqn:B3; [discriminate|].
    destruct (Rltb la 0) eqn:B4; [discriminate|]. destruct (Rltb 10 la) eqn:B5; [discriminate|].
    apply Rltb_false in B1, B2, B4, B5. split.
    - split; auto. destruct (e_num pb); auto.
    - unfold e_settings_ok. repeat (split; auto).
      + destruct (Z.eqb_spec K 1); [contradiction|]. subst sub. destruct (in_range 300 (Z.of_nat N) s0) eqn:Q; [|discriminate].
        apply in_range_true in Q. lia.
      + destruct (Z.eqb_spec K 1); [contradiction|]. subst sub. destruct (in_range 300 (Z.of_nat N) s0) eqn:Q; [|discriminate].
        apply in_range_true in Q. lia.
      + subst ext. cbn in B3. apply negb_false_iff, in_range_true in B3. lia.
      + subst ext. cbn in B3. apply negb_false_iff, in_range_true in B3. lia. }
  destruct H as (H1 & H2). split; auto. split; auto. rewrite (check_args_ok _ _ _ _ _ _ _ _ _ _ _ _ H1 H2) in E. congruence.
Qed.

(** ** Labels *)

Lemma label_spec : forall names t, t <> [] -> (forall x, In x t -> x < length names) -> label_of names t (label names t).
Proof.
  intros names t NE H. unfold label. apply concat_label; auto. clear NE.
  induction t as [|x t IH]; auto. cbn [mapM map]. unfold get at 1. rewrite (nth_error_nth' names EmptyString) by (apply H; left; auto).
  cbn [bind]. rewrite IH by (intros; apply H; right; auto). reflexivity.
Qed.

Lemma map_nth_terms : forall B (f : list nat -> B) (l : list (list nat)) n, length l = n -> map (fun i => f (nth i l [])) (seq 0 n) = map f l.
Proof. intros B f l n <-. apply map_nth_seq. Qed.

Lemma extended_names_spec : forall c names, length names = c_d c -> 
  Forall2 (label_of names) (hdmr_term_list (c_d c) (c_order c)) (extended_names c names).
Proof.
  intros c names L. unfold hdmr_term_list, extended_names. apply Forall2_app; [|apply Forall2_app].
  - rewrite <- L. clear. assert (G : forall l pre, names = pre ++ l -> Forall2 (label_of names) (map (fun j => [j]) (seq (length pre) (length l))) l).
    { induction l as [|x l IH]; intros pre E; [constructor|]. cbn [length seq map]. constructor.
      - constructor. rewrite E, nth_error_app2, Nat.sub_diag by lia. reflexivity.
      - specialize (IH (pre ++ [x])). rewrite app_length, Nat.add_1_r in IH. apply IH. rewrite <- app_assoc. auto. }
    apply (G names []). auto.
  - unfold hdmr_c2, c_nc2. destruct (1 <? c_order c) eqn:O; [|constructor].
    rewrite (map_nth_terms _ (label names)) by (rewrite comb_length, seq_length; auto).
    assert (H : forall t, In t (combinations 2 (seq 0 (c_d c))) -> t <> [] /\ forall x, In x t -> x < length names).
    { intros t Ht. apply combinations_seq in Ht. destruct Ht as (L2 & B & _). split; [destruct t; discriminate|]. intros x Hx. apply B in Hx. lia. }
    induction (combinations 2 (seq 0 (c_d c))); constructor.
    + apply label_spec; apply H; left; auto.
    + apply IHl. intros; apply H; right; auto.
  - unfold hdmr_c3, c_nc3. destruct (c_order c =? 3) eqn:O; [|constructor].
    rewrite (map_nth_terms _ (label names)) by (rewrite comb_length, seq_length; auto).
    assert (H : forall t, In t (combinations 3 (seq 0 (c_d c))) -> t <> [] /\ forall x, In x t -> x < length names).
    { intros t Ht. apply combinations_seq in Ht. destruct Ht as (L2 & B & _). split; [destruct t; discriminate|]. intros x Hx. apply B in Hx. lia. }
    induction (combinations 3 (seq 0 (c_d c))); constructor.
    + apply label_spec; apply H; left; auto.
    + apply IHl. intros; apply H; right; auto.
Qed.

(** ** Runs *)

Section Run.
Variable solve : list (list R) -> list R -> result (list R).
Variable d_morph : list (list R) -> list (list (list R)) -> list R -> nat -> result (list R).
Variable crit : R -> nat -> Z -> option R.
Variable quantile : R -> fval.
Variable argsorts : nat -> list nat.

(** The problem once the missing entries have been added. *)
Definition filled (X : mat R) (pb : eproblem) : eproblem := snd (fill_problem X pb).

Definition e_accepted (pb : eproblem) (X : mat R) (Y : list R) mo p K sub mi la al ext : Prop :=
  e_problem_ok (filled X pb) (cols X) /\ e_settings_ok (length (rows X)) (cols X) (length Y) mo p K sub mi la al ext.
Definition core_of (X : mat R) (mo p K : Z) (sub : option Z) (ext : bool) : core :=
  mkCore (cols X) (Z.to_nat mo) ext (e_subset (length (rows X)) K sub) (Z.to_nat p).
Definition names_of (pb : eproblem) : list string := match e_names pb with Some l => l | None => [] end.

Lemma fill_ok : forall X pb, length (rows X) <> 0 \/ cols X = 0 -> fill_problem X pb = (Ok tt, filled X pb).
Proof.
  intros X pb H. unfold filled, fill_problem. destruct (e_bounds pb); auto.
  replace ((length (rows X) =? 0) && (0 <? cols X)) with false; auto.
  symmetry. apply andb_false_iff. destruct H as [H|H]; [left; apply Nat.eqb_neq; auto|right; rewrite H; auto].
Qed.
Lemma fill_fields : forall X pb, fst (fill_problem X pb) = Ok tt ->
  e_names (filled X pb) = Some (match e_names pb with Some l => l | None => map x_name (seq 0 (cols X)) end) /\
  e_num (filled X pb) = Some (match e_num pb with Some n => n | None => cols X end) /\
  opt_length (e_bounds (filled X pb)) = match e_bounds pb with Some b => length b | None => cols X end.
Proof.
  intros X pb H. unfold filled. unfold fill_problem in *. destruct (e_bounds pb); [auto|].
  destruct ((length (rows X) =? 0) && (0 <? cols X)); [discriminate|]. cbn. rewrite map_length, seq_length. auto.
Qed.

(** What an accepted call computes. *)
Definition e_result (pb : eproblem) (X : mat R) (Y : list R) mo p K sub (mi : Z) la al ext : result eout :=
  let c := core_of X mo p K sub ext in
  let idx := e_rows (length (rows X)) (Z.to_nat K) (c_subset c) argsorts in
  match basis_matrix c X with
  | None => Err (if ext then LinAlgError else ValueError)
  | Some b =>
    do fits <- mapM (fanova_one solve d_morph (crit al) c (Z.to_nat K) (Z.to_nat mi) la b Y) idx ;;
    e_finalize c (quantile (al + (1 - al) / 2)%R) (extended_names c (names_of (filled X pb))) idx fits
  end.

Lemma run_accepted : forall pb X Y mo p K sub mi la al ext, e_accepted pb X Y mo p K sub mi la al ext ->
  enhanced_analyze solve d_morph crit quantile argsorts pb X Y mo p K sub mi la al ext =
  (e_result pb X Y mo p K sub mi la al ext,
   mkEproblem (Some (extended_names (core_of X mo p K sub ext) (names_of (filled X pb)))) (e_bounds (filled X pb)) (e_num (filled X pb))).
Proof.
  intros pb X Y mo p K sub mi la al ext (H1 & H2). unfold enhanced_analyze.
  assert (F : length (rows X) <> 0) by (destruct H2 as (_ & H2 & _); lia).
  rewrite fill_ok by auto. rewrite (check_args_ok _ _ _ _ _ _ _ _ _ _ _ _ H1 H2). reflexivity.
Qed.

Lemma run_rejected : forall pb X Y mo p K sub mi la al ext, ~ e_accepted pb X Y mo p K sub mi la al ext ->
  exists e, enhanced_analyze solve d_morph crit quantile argsorts pb X Y mo p K sub mi la al ext = (Err e, filled X pb) /\
    (e = ValueError \/ e = RuntimeError).
Proof.
  intros pb X Y mo p K sub mi la al ext H. unfold enhanced_analyze, filled in *.
  destruct (fill_problem X pb) as (f & pb1) eqn:F. cbn [snd].
  destruct f as [u|e].
  - assert (CE : forall e, check_args pb1 (length (rows X)) (cols X) (length Y) mo p K sub mi la al ext = Err e -> e = ValueError \/ e = RuntimeError).
    { intros e. unfold check_args.
      repeat match goal with |- (if ?x then _ else _) = _ -> _ => destruct x; [intros Q; injection Q as <-; auto|] end.
      cbv zeta. destruct (match (if (K =? 1)%Z then _ else _) with Some _ => _ | None => _ end) as [x|x] eqn:B.
      - cbn [bind]. repeat match goal with |- (if ?x then _ else _) = _ -> _ => destruct x; [intros Q; injection Q as <-; auto|] end. discriminate.
      - cbn [bind]. intros Q; injection Q as <-. destruct (if (K =? 1)%Z then _ else _) in B; [|discriminate]. destruct (in_range _ _ _) in B; [discriminate|]. injection B as <-. auto. }
    destruct (check_args pb1 _ _ _ _ _ _ _ _ _ _ _) as [s|e] eqn:C.
    + exfalso. apply H. apply check_args_inv in C. unfold e_accepted, filled. rewrite F. cbn [snd]. tauto.
    + exists e. split; auto.
  - exists e. split; auto. unfold fill_problem in F. destruct (e_bounds pb); [discriminate|]. destruct (_ && _); [|discriminate]. injection F as <- _. auto.
Qed.

Lemma accepted_dec : forall pb X Y mo p K sub mi la al ext, e_accepted pb X Y mo p K sub mi la al ext \/ ~ e_accepted pb X Y mo p K sub mi la al ext.
Proof.
  intros. destruct (fill_problem X pb) as (f & pb1) eqn:F.
  destruct (check_args (filled X pb) (length (rows X)) (cols X) (length Y) mo p K sub mi la al ext) as [s|e] eqn:C.
  - left. apply check_args_inv in C. split; tauto.
  - right. intros (H1 & H2). rewrite (check_args_ok _ _ _ _ _ _ _ _ _ _ _ _ H1 H2) in C. discriminate.
Qed.

Lemma rows_not_nil : forall N K s, 1 <= K -> e_rows N K s argsorts <> [].
Proof. intros N K s H. unfold e_rows. destruct (K =? 1); [discriminate|]. destruct K; [lia|discriminate]. Qed.

(** Only runs of order 2 finish. *)
Lemma run_inv : forall pb X Y mo p K sub mi la al ext h, 0 < cols X ->
  fst (enhanced_analyze solve d_morph crit quantile argsorts pb X Y mo p K sub mi la al ext) = Ok h ->
  e_accepted pb X Y mo p K sub mi la al ext /\ mo = 2%Z /\
  let c := core_of X mo p K sub ext in let idx := e_rows (length (rows X)) (Z.to_nat K) (c_subset c) argsorts in
  exists first fits, first_columns (c_p c) X = Some first /\
    mapM (fanova_one solve d_morph (crit al) c (Z.to_nat K) (Z.to_nat mi) la (extend_basis c (concat first)) Y) idx = Ok fits /\
    e_finalize c (quantile (al + (1 - al) / 2)%R) (extended_names c (names_of (filled X pb))) idx fits = Ok h.
Proof.
  intros pb X Y mo p K sub mi la al ext h D E.
  destruct (accepted_dec pb X Y mo p K sub mi la al ext) as [A|A].
  2:{ apply run_rejected in A. destruct A as (e & Q & _). rewrite Q in E. discriminate. }
  rewrite run_accepted in E by auto. cbn [fst] in E. split; auto. unfold e_result in E. cbv zeta in *. set (c := core_of X mo p K sub ext) in *.
  unfold basis_matrix in E. destruct (first_columns (c_p c) X) as [first|]; [|discriminate].
  destruct (mapM _ _) as [fits|] eqn:M in E; [|discriminate]. cbn [bind] in E.
  split; [|exists first, fits; auto].
  unfold e_finalize in E. change (c_order c) with (Z.to_nat mo) in E. change (c_d c) with (cols X) in E.
  replace (0 <? cols X) with true in E by (symmetry; apply Nat.ltb_lt; auto). rewrite !andb_true_r in E.
  destruct (Nat.eqb_spec (Z.to_nat mo) 1); [discriminate|]. destruct (Nat.eqb_spec (Z.to_nat mo) 3); [discriminate|].
  destruct A as (_ & _ & _ & _ & A & _). lia.
Qed.

Lemma e_finalize_inv : forall c mult terms idx fits h, c_order c = 2 -> e_finalize c mult terms idx fits = Ok h ->
  let n := c_nc_t c in
  eo_Term h = terms /\ eo_core h = c /\ eo_fits h = fits /\ eo_idx h = idx /\
  eo_S h = map (fun i => fmean (across (map ef_S fits) i)) (seq 0 n) /\
  eo_Sa h = map (fun i => fmean (across (map ef_Sa fits) i)) (seq 0 n) /\
  eo_Sb h = map (fun i => fmean (across (map ef_Sb fits) i)) (seq 0 n) /\
  eo_ST h = map (fun r => fmean (total_of (map ef_S fits) (c_d c) 2 r)) (seq 0 (c_d c)) ++ repeat (None : fval) (n - c_d c) /\
  eo_Signf h = map (fun i => 100 * mean (map (fun f => if nth i (ef_signf f) false then 1 else 0) fits))%R (seq 0 n) /\
  (eo_Sa_sum h, eo_Sb_sum h, eo_S_sum h) = (fsum (eo_Sa h), fsum (eo_Sb h), fsum (eo_S h)) /\
  (eo_Sa_sum_conf h, eo_Sb_sum_conf h, eo_S_sum_conf h) =
    (fmul mult (fsd [fsum (concat (map ef_Sa fits))]), fmul mult (fsd [fsum (concat (map ef_Sb fits))]), fmul mult (fsd [fsum (concat (map ef_S fits))])) /\
  length (eo_Sa_conf h) = n /\ length (eo_Sb_conf h) = n /\ length (eo_S_conf h) = n /\ length (eo_ST_conf h) = c_d c + (n - c_d c) /\
  length (eo_Signf h) = n.
Proof.
  intros c mult terms idx fits h O E. unfold e_finalize in E. rewrite O in E. cbn [Nat.eqb andb] in E. injection E as <-. cbn.
  repeat (split; auto); rewrite ?app_length, ?map_length, ?seq_length, ?repeat_length; auto.
Qed.

Lemma c_nc_t_hdmr : forall c, c_nc_t c = hdmr_n (c_d c) (c_order c).
Proof.
  intros c. unfold c_nc_t, hdmr_n, hdmr_c2, hdmr_c3, c_nc1, c_nc2, c_nc3.
  destruct (1 <? c_order c), (c_order c =? 3); cbn [length]; rewrite ?comb_length, ?seq_length; lia.
Qed.

Lemma fits_not_nil : forall (f : list nat -> result efit) l fits, l <> [] -> mapM f l = Ok fits -> fits <> [].
Proof. intros f l fits H E. apply mapM_Ok_length in E. destruct l; [congruence|]. destruct fits; [simpl in E; lia|discriminate]. Qed.

Lemma e_run_totals : forall pb X Y mo p K sub mi la al ext h, 0 < cols X ->
  fst (enhanced_analyze solve d_morph crit quantile argsorts pb X Y mo p K sub mi la al ext) = Ok h ->
  exists ts, term_list (cols X) (Z.to_nat mo) ts /\ term_count (cols X) (Z.to_nat mo) (length ts) /\
    Forall2 (label_of (names_of (filled X pb))) ts (eo_Term h) /\ length (eo_S h) = length ts /\ length (eo_ST h) = length ts /\
    (forall r, r < cols X -> exists js, NoDup js /\ (forall j, In j js <-> exists t, nth_error ts j = Some t /\ In r t) /\
      nth_error (eo_ST h) r = Some (fsum (map (fun j => nth j (eo_S h) None) js))) /\
    forall r, cols X <= r < length ts -> nth_error (eo_ST h) r = Some None.
Proof.
  intros pb X Y mo p K sub mi la al ext h D E. apply run_inv in E; auto. destruct E as (A & -> & first & fits & F1 & M & F).
  apply e_finalize_inv in F; [|reflexivity]. cbv zeta in F. set (c := core_of X 2 p K sub ext) in *.
  destruct F as (T & _ & _ & _ & ES & _ & _ & EST & _). change (Z.to_nat 2) with 2.
  assert (NE : map ef_S fits <> []).
  { apply fits_not_nil in M; [destruct fits; [congruence|discriminate]|]. apply rows_not_nil. destruct A as (_ & _ & _ & _ & _ & _ & A & _). lia. }
  exists (hdmr_term_list (cols X) 2). split; [apply hdmr_term_list_spec; lia|]. split; [rewrite hdmr_n_length; apply hdmr_count; lia|].
  split. { rewrite T. apply (extended_names_spec c). destruct A as ((_ & A & _) & _). unfold names_of, opt_length in *. destruct (e_names _); auto. }
  rewrite c_nc_t_hdmr in *. change (c_d c) with (cols X) in *. change (c_order c) with 2 in *. set (d := cols X) in *.
  assert (LS : length (eo_S h) = hdmr_n d 2) by (rewrite ES, map_length, seq_length; auto).
  assert (Hn : d <= hdmr_n d 2) by (unfold hdmr_n; lia).
  split; [rewrite hdmr_n_length; auto|]. split.
  { rewrite EST, app_length, map_length, seq_length, repeat_length, hdmr_n_length. lia. }
  split.
  - intros r Hr. exists (total_rows d 2 r). destruct (total_rows_spec d 2 r ltac:(lia) Hr) as (N1 & N2).
    split; auto. split; auto. rewrite EST, nth_error_app1 by (rewrite map_length, seq_length; auto).
    rewrite nth_error_map', nth_error_seq. destruct (Nat.ltb_spec r d); [|lia]. cbn [option_map Nat.add]. f_equal.
    unfold total_of. rewrite fmean_fsum by auto. f_equal. apply map_ext_in. intros j Hj. rewrite ES.
    apply N2 in Hj. destruct Hj as (t & Hj & _). apply nth_error_Some_lt in Hj. rewrite hdmr_n_length in Hj.
    symmetry. apply nth_error_nth. rewrite nth_error_map', nth_error_seq. destruct (Nat.ltb_spec j (hdmr_n d 2)); [reflexivity|lia].
  - intros r Hr. rewrite hdmr_n_length in Hr. rewrite EST, nth_error_app2 by (rewrite map_length, seq_length; lia).
    rewrite map_length, seq_length. rewrite nth_error_repeat. destruct (Nat.ltb_spec (r - d) (hdmr_n d 2 - d)); [reflexivity|lia].
Qed.

(** A second call with the problem left by an accepted one of order above 1 is rejected. *)
Lemma second_call : forall pb X Y mo p K sub mi la al ext Y' mo' p' K' sub' mi' la' al' ext', 0 < cols X -> (1 < mo)%Z ->
  e_accepted pb X Y mo p K sub mi la al ext ->
  let pb' := snd (enhanced_analyze solve d_morph crit quantile argsorts pb X Y mo p K sub mi la al ext) in
  enhanced_analyze solve d_morph crit quantile argsorts pb' X Y' mo' p' K' sub' mi' la' al' ext' = (Err ValueError, pb') /\
  e_names pb' <> e_names (filled X pb).
Proof.
  intros pb X Y mo p K sub mi la al ext Y' mo' p' K' sub' mi' la' al' ext' D O A. cbv zeta. rewrite (run_accepted pb X Y mo p K sub mi la al ext A). cbn [snd].
  assert (NR : length (rows X) <> 0) by (destruct A as (_ & _ & A & _); lia).
  pose proof (fill_fields X pb ltac:(rewrite fill_ok by auto; reflexivity)) as (F1 & F2 & F3).
  destruct A as ((A1 & A2 & A3) & A4).
  set (c := core_of X mo p K sub ext). set (nm := names_of (filled X pb)).
  assert (LN : length nm = cols X) by (unfold nm, names_of; destruct (e_names (filled X pb)); auto).
  assert (LE : length (extended_names c nm) > cols X).
  { unfold extended_names. rewrite !app_length. replace (1 <? c_order c) with true by (symmetry; apply Nat.ltb_lt; unfold c, core_of; cbn; lia).
    rewrite map_length, seq_length. unfold c_nc2. replace (1 <? c_order c) with true by (symmetry; apply Nat.ltb_lt; unfold c, core_of; cbn; lia).
    change (c_d c) with (cols X). assert (2 <= cols X) by (destruct A4 as (A4 & _); lia).
    destruct (cols X) as [|[|q]]; try lia. cbn [comb]. destruct q; cbn; lia. }
  split.
  - unfold enhanced_analyze, fill_problem. cbn [e_names e_bounds e_num].
    rewrite F2. rewrite F2 in A1. rewrite A1. rewrite A1 in F2. 
    assert (B : exists b, e_bounds (filled X pb) = Some b /\ length b = cols X).
    { unfold opt_length in A3. destruct (e_bounds (filled X pb)) as [b|]; [eauto|lia]. }
    destruct B as (b & B & LB). rewrite B.
    unfold check_args. cbn [e_names e_bounds e_num opt_length]. rewrite Nat.eqb_refl. cbn [negb].
    destruct (Nat.eqb_spec (length (extended_names c nm)) (cols X)); [lia|]. reflexivity.
  - cbn [e_names]. intros Q. rewrite <- Q in A2. cbn [opt_length] in A2. lia.
Qed.
End Run.
