(** * ProblemSpec: analyses per output (C50), single parameters (C51), construction and names (C52). *)
From Coq Require Import Reals FinFun Decimal DecimalNat DecimalString String List Arith ZArith Bool Lia.
From Verif Require Import Base Arrays ListFacts ModelGroups ProofsGroups ModelProblemSpec SpecProblemSpec ProofsProblemSpec.
Import ListNotations.
Local Open Scope nat_scope.

Lemma dict_set_new : forall A (d : list (string * A)) k v, ~ In k (map fst d) -> dict_set d k v = d ++ [(k, v)].
Proof.
  intros A. induction d as [|[k' v'] d IH]; intros k v H; simpl in *; [reflexivity|].
  destruct (String.eqb_spec k k') as [->|N]; [tauto|]. rewrite IH by tauto. reflexivity.
Qed.
Lemma fold_dict : forall A (o : list string) (rs : list A) d, length o = length rs -> NoDup (map fst d ++ o) ->
  fold_left (fun d p => dict_set d (fst p) (snd p)) (combine o rs) d = d ++ combine o rs.
Proof.
  intros A. induction o as [|k o IH]; intros [|r rs] d L N; simpl in *; try discriminate; [rewrite app_nil_r; reflexivity|].
  assert (NK : ~ In k (map fst d)). { apply NoDup_remove_2 in N. rewrite in_app_iff in N. tauto. }
  rewrite dict_set_new by exact NK. rewrite IH by (auto; rewrite map_app, <- app_assoc; exact N). rewrite <- app_assoc. reflexivity.
Qed.

Section Columns.
Context {V : Type}.
Lemma column_ok : forall (m : mat V) i, well_shaped m -> i < cols m -> exists l, column_of (A2 m) i = Ok (A1 l) /\ is_column m i l.
Proof.
  intros m i W L. unfold column_of. destruct (Nat.leb_spec (cols m) i); [lia|].
  assert (M : exists l, mapM (fun r => get r i) (rows m) = Ok l /\ length l = length (rows m) /\
     forall k r, nth_error (rows m) k = Some r -> exists v, nth_error r i = Some v /\ nth_error l k = Some v).
  { unfold well_shaped in W. induction W as [|r rs Hr W IH].
    - exists []. repeat split; auto. intros [|k] r E; discriminate.
    - destruct IH as (l & E & EL & H1). destruct (nth_error r i) as [v|] eqn:EV.
      + exists (v :: l). cbn [mapM]. unfold get at 1. rewrite EV. cbn [bind]. rewrite E. cbn [bind]. split; [reflexivity|]. split; [simpl; auto|].
        intros [|k] r' ER; simpl in *; [injection ER as <-; eauto|eauto].
      + apply nth_error_None in EV. lia. }
  destruct M as (l & -> & H1 & H2). cbn [bind]. exists l. split; [reflexivity|]. split; auto.
Qed.
Lemma is_column_unique : forall (m : mat V) i l l', is_column m i l -> is_column m i l' -> l = l'.
Proof.
  intros m i l l' [L1 H1] [L2 H2]. apply nth_error_ext'. intros k.
  destruct (nth_error (rows m) k) as [r|] eqn:E.
  - destruct (H1 k r E) as (v & E1 & ->). destruct (H2 k r E) as (v' & E2 & ->). congruence.
  - apply nth_error_None in E. rewrite (proj2 (nth_error_None l k)) by lia. rewrite (proj2 (nth_error_None l' k)) by lia. reflexivity.
Qed.
End Columns.

Section Analyze.
Context {V Res Arg : Type}.
Variable cpu : nat.
Variable ptqdm : bool.

Lemma loop_ok : forall (f : arr V -> result Res) y outs i d rs, length outs = length rs ->
  mapM (fun j => do c <- column_of y j ;; f c) (seq i (length outs)) = Ok rs ->
  analyze_loop f y outs i d = (fold_left (fun d p => dict_set d (fst p) (snd p)) (combine outs rs) d, None).
Proof.
  intros f y. induction outs as [|o outs IH]; intros i d rs L M; destruct rs as [|r rs]; try discriminate; [reflexivity|].
  cbn [length seq mapM] in M. cbn [analyze_loop]. destruct (do c <- column_of y i ;; f c) as [v|e]; [|discriminate]. cbn [bind] in M.
  destruct (mapM _ (seq (S i) (length outs))) as [rs'|] eqn:E; [|discriminate]. cbn [bind] in M. injection M as -> ->.
  rewrite (IH (S i) (dict_set d o r) rs); auto.
Qed.
Lemma loop_err : forall (f : arr V -> result Res) y outs i d e,
  mapM (fun j => do c <- column_of y j ;; f c) (seq i (length outs)) = Err e -> snd (analyze_loop f y outs i d) = Some e.
Proof.
  intros f y. induction outs as [|o outs IH]; intros i d e M; [discriminate|].
  cbn [length seq mapM] in M. cbn [analyze_loop]. destruct (do c <- column_of y i ;; f c) as [v|e']; [|cbn [bind] in M; injection M as ->; reflexivity]. cbn [bind] in M.
  apply IH. destruct (mapM _ (seq (S i) (length outs))) as [rs'|] eqn:E; [discriminate|]. exact M.
Qed.

(** The columns of a well-shaped array. *)
Lemma columns_ok : forall (m : mat V) n i, well_shaped m -> i + n <= cols m ->
  exists cs, mapM (column_of (A2 m)) (seq i n) = Ok (map A1 cs) /\ length cs = n /\ forall j l, nth_error cs j = Some l -> is_column m (i + j) l.
Proof.
  intros m. induction n as [|n IH]; intros i W L.
  - exists []. split; [reflexivity|]. split; [reflexivity|]. intros [|j] l E; discriminate.
  - destruct (column_ok m i W) as (l & E & C); [lia|]. destruct (IH (S i) W) as (cs & EC & LC & HC); [lia|].
    exists (l :: cs). cbn [seq mapM]. rewrite E. cbn [bind]. rewrite EC. cbn [bind]. split; [reflexivity|]. split; [simpl; auto|].
    intros [|j] l' EJ; simpl in *; [injection EJ as <-; rewrite Nat.add_0_r; auto|]. replace (i + S j) with (S i + j) by lia. apply HC. exact EJ.
Qed.
Lemma mapM_columns : forall (f : arr V -> result Res) y js cs, mapM (column_of y) js = Ok cs ->
  mapM (fun j => do c <- column_of y j ;; f c) js = mapM f cs.
Proof.
  intros f y. induction js as [|j js IH]; intros cs H; cbn [mapM] in *; [injection H as <-; reflexivity|].
  destruct (column_of y j) as [c|]; [|discriminate]. cbn [bind] in *. destruct (mapM (column_of y) js) as [cs'|]; [|discriminate]. cbn [bind] in *.
  injection H as <-. cbn [mapM]. rewrite (IH cs' eq_refl). reflexivity.
Qed.

Definition usual (s : spec V Res) (np : option (option Z)) (a : analyzer V Res Arg) args : outcome V Res :=
  match np with None => analyze cpu ptqdm a args None s | Some n => analyze_parallel cpu ptqdm a args n s end.

(** C50: several outputs, serially and in parallel. *)
Lemma spec_multi : forall (a : analyzer V Res Arg) args (s : spec V Res) m o np, p_num_vars (s_prob s) <> 1 -> 1 <= cpu ->
  s_results s = Some (A2 m) -> well_shaped m -> s_outputs s = Some o -> length o = cols m -> 1 < length o -> NoDup o ->
  (forall n, np = Some (Some n) -> (1 <= n)%Z) ->
  exists ys, length ys = length o /\ (forall i y, nth_error ys i = Some y -> is_column m i y) /\
    (forall rs, mapM (fun y => call_analyzer a args s (A1 y)) ys = Ok rs ->
       usual s np a args = (mkSpec (s_prob s) (s_outputs s) (s_samples s) (s_results s) (Some (PerOutput (combine o rs))), None)) /\
    (forall e, mapM (fun y => call_analyzer a args s (A1 y)) ys = Err e -> snd (usual s np a args) = Some e).
Proof.
  intros a args s m o np NV C ER W EO LO L1 ND NP.
  destruct (columns_ok m (length o) 0 W) as (cs & EC & LC & HC); [lia|]. exists cs. split; [exact LC|]. split; [exact HC|].
  assert (MM : mapM (fun y => call_analyzer a args s (A1 y)) cs = mapM (call_analyzer a args s) (map A1 cs)).
  { clear. induction cs as [|c cs IH]; [reflexivity|]. cbn [mapM map]. destruct (call_analyzer a args s (A1 c)); [|reflexivity]. cbn [bind]. rewrite IH. reflexivity. }
  rewrite MM. pose proof (mapM_columns (call_analyzer a args s) _ _ _ EC) as MC.
  assert (OO : outputs_of s (A2 m) = o) by (unfold outputs_of; rewrite EO; reflexivity).
  assert (B : 1 <? length o = true) by (apply Nat.ltb_lt; exact L1).
  assert (G : (p_num_vars (s_prob s) =? 1) || (match truthy_groups (s_prob s) with Some _ => true | None => false end && (String.length "groups" =? 1)) = false).
  { rewrite (proj2 (Nat.eqb_neq _ _) NV). simpl. rewrite andb_false_r. reflexivity. }
  destruct np as [n|]; unfold usual.
  - unfold analyze_parallel. rewrite ER. cbv zeta. rewrite OO. rewrite (proj2 (Nat.eqb_neq (length o) 1)) by lia.
    assert (Q : negb ptqdm && (match n with None => Z.of_nat cpu | Some z => Z.min (Z.min (Z.of_nat (length o)) z) (Z.of_nat cpu) end <? 1)%Z = false).
    { apply andb_false_iff. right. apply Z.ltb_ge. destruct n as [z|]; [specialize (NP z eq_refl)|]; lia. }
    rewrite Q, EC. split.
    + intros rs H. assert (LR : length o = length rs) by (rewrite H in MC; apply mapM_Ok_length in MC; rewrite seq_length in MC; auto).
      rewrite H, B. rewrite fold_dict by (auto). unfold with_analysis, with_outputs. simpl. rewrite EO, ER. reflexivity.
    + intros e ->. reflexivity.
  - unfold analyze. rewrite G, ER. cbv zeta. rewrite OO, B. split.
    + intros rs H. rewrite H in MC. assert (LR : length o = length rs) by (apply mapM_Ok_length in MC; rewrite seq_length in MC; auto).
      rewrite (loop_ok _ _ _ 0 [] rs LR MC). cbn [fst snd]. rewrite fold_dict by (auto). unfold with_analysis, with_outputs. simpl. rewrite EO, ER. reflexivity.
    + intros e H. rewrite H in MC. cbn [snd]. apply loop_err. exact MC.
Qed.

(** C50: one output, serially and in parallel. *)
Lemma spec_single : forall (a : analyzer V Res Arg) args (s : spec V Res) y o np, p_num_vars (s_prob s) <> 1 ->
  s_results s = Some y -> s_outputs s = Some o -> length o = 1 ->
  usual s np a args = match call_analyzer a args s y with
                      | Ok r => (mkSpec (s_prob s) (s_outputs s) (s_samples s) (s_results s) (Some (Single r)), None)
                      | Err e => (s, Some e)
                      end.
Proof.
  intros a args s y o np NV ER EO L1.
  assert (OO : outputs_of s y = o) by (unfold outputs_of; rewrite EO; reflexivity).
  assert (G : (p_num_vars (s_prob s) =? 1) || (match truthy_groups (s_prob s) with Some _ => true | None => false end && (String.length "groups" =? 1)) = false).
  { rewrite (proj2 (Nat.eqb_neq _ _) NV). simpl. rewrite andb_false_r. reflexivity. }
  assert (W : with_outputs o s = s) by (unfold with_outputs; rewrite <- EO; destruct s; reflexivity).
  destruct np as [n|]; unfold usual.
  - unfold analyze_parallel. rewrite ER. cbv zeta. rewrite OO, L1, W. simpl Nat.eqb. cbv iota. destruct (call_analyzer a args s y); [|reflexivity]. unfold with_analysis. rewrite ER. reflexivity.
  - unfold analyze. rewrite G, ER. cbv zeta. rewrite OO, L1, W. simpl Nat.ltb. cbv iota. destruct (call_analyzer a args s y); [|reflexivity]. unfold with_analysis. rewrite ER. reflexivity.
Qed.
Lemma spec_no_results : forall (a : analyzer V Res Arg) args (s : spec V Res) np, p_num_vars (s_prob s) <> 1 -> s_results s = None ->
  analyze cpu ptqdm a args np s = (s, Some RuntimeError) /\ (forall n, analyze_parallel cpu ptqdm a args n s = (s, Some RuntimeError)).
Proof.
  intros a args s np NV ER.
  assert (P : forall n, analyze_parallel cpu ptqdm a args n s = (s, Some RuntimeError)) by (intros n; unfold analyze_parallel; rewrite ER; reflexivity).
  split; [|exact P]. unfold analyze. rewrite (proj2 (Nat.eqb_neq _ _) NV). simpl. rewrite andb_false_r. destruct np as [n|]; [apply P|]. rewrite ER. reflexivity.
Qed.
(** analyze with nprocs is analyze_parallel. *)
Lemma analyze_nprocs : forall (a : analyzer V Res Arg) args (s : spec V Res) n, p_num_vars (s_prob s) <> 1 ->
  analyze cpu ptqdm a args (Some n) s = analyze_parallel cpu ptqdm a args n s.
Proof. intros a args s n NV. unfold analyze. rewrite (proj2 (Nat.eqb_neq _ _) NV). simpl. rewrite andb_false_r. reflexivity. Qed.

(** C51 *)
Lemma spec_one_parameter : forall (a : analyzer V Res Arg) args np (s : spec V Res), p_num_vars (s_prob s) = 1 ->
  analyze cpu ptqdm a args np s = (s, Some ValueError).
Proof. intros a args np s E. unfold analyze. rewrite E. reflexivity. Qed.
End Analyze.

(** C52: the numbered names differ. *)
Lemma numbered_inj : forall i j, numbered i = numbered j -> i = j.
Proof.
  intros i j H. unfold numbered in H. injection H as H. apply (f_equal NilEmpty.uint_of_string) in H. rewrite !NilEmpty.usu in H. injection H as H.
  apply Unsigned.to_uint_inj. exact H.
Qed.
Lemma numbered_nodup : forall n k, NoDup (map numbered (seq k n)).
Proof.
  intros n k. apply Injective_map_NoDup; [intros i j; apply numbered_inj|apply seq_NoDup].
Qed.

Section Build.
Context {V Res : Type}.
(** C52: construction. *)
Lemma spec_construct : forall (a : spec_args) (s : spec V Res), construct a = Ok s ->
  exists names bounds, a_names a = Some names /\ a_bounds a = Some bounds /\ length bounds = length names /\
    p_num_vars (s_prob s) = length names /\ p_names (s_prob s) = names /\ p_bounds (s_prob s) = bounds /\ p_dists (s_prob s) = a_dists a /\
    (exists g, p_groups (s_prob s) = Some g /\ length g = length names /\ ((a_groups a = None \/ a_groups a = Some []) -> g = names) /\
       (forall g', a_groups a = Some g' -> g' <> [] -> g = g')) /\
    s_outputs s = a_outputs a /\ s_samples s = None /\ s_results s = None /\ s_analysis s = None.
Proof.
  intros a s H. unfold construct in H. destruct (a_names a) as [names|]; [|discriminate]. destruct (a_bounds a) as [bounds|]; [|discriminate].
  destruct (Nat.eqb_spec (length bounds) (length names)) as [L|L]; simpl negb in H; cbv iota in H; [|discriminate].
  destruct (define_problem_with_groups _) as [p|] eqn:E; [|discriminate]. cbn [bind] in H. injection H as <-. exists names, bounds.
  unfold define_problem_with_groups, truthy_groups in E. cbn [p_groups p_num_vars] in E. destruct (a_groups a) as [[|g gs]|] eqn:EG.
  - injection E as <-. simpl. repeat split; auto. exists names. split; [reflexivity|]. split; [reflexivity|]. split; [auto|]. intros g' E' N. congruence.
  - destruct (Nat.eqb_spec (length (g :: gs)) (length names)) as [LG|LG]; simpl negb in E; cbv iota in E; [|discriminate]. injection E as <-. simpl. repeat split; auto.
    exists (g :: gs). split; [reflexivity|]. split; [exact LG|]. split; [intros [K|K]; congruence|]. intros g' E' _. congruence.
  - injection E as <-. simpl. repeat split; auto. exists names. split; [reflexivity|]. split; [reflexivity|]. split; [auto|]. intros g' E'. congruence.
Qed.
Lemma spec_construct_err : forall (a : spec_args) e, @construct V Res a = Err e ->
  (e = AssertionError /\ (a_names a = None \/ a_bounds a = None \/ exists n b, a_names a = Some n /\ a_bounds a = Some b /\ length b <> length n)) \/
  (e = ValueError /\ exists n g, a_names a = Some n /\ a_groups a = Some g /\ g <> [] /\ length g <> length n).
Proof.
  intros a e H. unfold construct in H. destruct (a_names a) as [names|]; [|left; split; [congruence|auto]]. destruct (a_bounds a) as [bounds|]; [|left; split; [congruence|auto]].
  destruct (Nat.eqb_spec (length bounds) (length names)) as [L|L]; simpl negb in H; cbv iota in H; [|left; split; [congruence|right; right; eauto]].
  destruct (define_problem_with_groups _) as [p|] eqn:E; [discriminate|]. cbn [bind] in H. injection H as <-.
  unfold define_problem_with_groups, truthy_groups in E. cbn [p_groups p_num_vars] in E. destruct (a_groups a) as [[|g gs]|] eqn:EG; [discriminate| |discriminate].
  destruct (Nat.eqb_spec (length (g :: gs)) (length names)) as [LG|LG]; simpl negb in E; cbv iota in E; [discriminate|]. injection E as <-. right. split; [reflexivity|]. exists names, (g :: gs). repeat split; auto. discriminate.
Qed.
(** C52: storing results. *)
Lemma spec_store : forall (a : arr V) (s : spec V Res),
  (s_outputs s = None -> exists o, assign_results (Some a) s = (mkSpec (s_prob s) (Some o) (s_samples s) (Some a) (s_analysis s), None) /\
     length o = ncols a /\ NoDup o /\ (ncols a = 1 -> o = ["Y"%string])) /\
  (forall o, s_outputs s = Some o -> length o = ncols a ->
     assign_results (Some a) s = (mkSpec (s_prob s) (s_outputs s) (s_samples s) (Some a) (s_analysis s), None)) /\
  (forall o, s_outputs s = Some o -> length o <> ncols a -> assign_results (Some a) s = (s, Some ValueError)).
Proof.
  intros a s. unfold assign_results. split; [|split].
  - intros ->. eexists. split; [reflexivity|]. destruct (Nat.eqb_spec (ncols a) 1) as [L|L].
    + repeat split; auto. constructor; [intros []|constructor].
    + split; [rewrite map_length, seq_length; reflexivity|]. split; [apply numbered_nodup|]. tauto.
  - intros o E L. rewrite E, L, Nat.eqb_refl. reflexivity.
  - intros o E L. rewrite E. rewrite (proj2 (Nat.eqb_neq _ _)) by auto. reflexivity.
Qed.
Lemma store_numbered : forall (a : arr V) (s : spec V Res) s', s_outputs s = None -> ncols a <> 1 -> assign_results (Some a) s = (s', None) ->
  exists o, s_outputs s' = Some o /\ length o = ncols a /\
    forall i, i < ncols a -> exists digits u, nth_error o i = Some ("Y" ++ digits)%string /\ NilEmpty.uint_of_string digits = Some u /\ Nat.of_uint u = i + 1.
Proof.
  intros a s s' E N H. unfold assign_results in H. rewrite E in H. destruct (Nat.eqb_spec (ncols a) 1); [contradiction|]. injection H as <-.
  eexists. split; [reflexivity|]. split; [rewrite map_length, seq_length; reflexivity|]. intros i Hi.
  exists (NilEmpty.string_of_uint (Nat.to_uint (i + 1))), (Nat.to_uint (i + 1)). rewrite NilEmpty.usu, Unsigned.of_to. split; [|auto].
  rewrite nth_error_map', nth_error_seq. destruct (Nat.ltb_spec i (ncols a)); [|lia]. cbn [option_map]. rewrite Nat.add_comm. reflexivity.
Qed.
End Build.
