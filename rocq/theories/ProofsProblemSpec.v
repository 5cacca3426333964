(** * ProblemSpec: what each call changes; histories (C47, C48, C52). *)
From Coq Require Import Reals String List Arith ZArith Bool Lia.
From Verif Require Import Base Arrays ListFacts ModelGroups ModelProblemSpec SpecProblemSpec.
Import ListNotations.
Local Open Scope nat_scope.

Lemma list_eq_nil_snoc : forall A (l : list A), l = [] \/ exists l' x, l = l' ++ [x].
Proof. intros A l. destruct l as [|a l] using rev_ind; [left; auto|]. right. eauto. Qed.
Lemma put_length : forall A (buf new : list A) i n, length new = slice_len buf i n -> length (put buf i new) = length buf.
Proof.
  intros A buf new i n H. unfold put, slice_len in *. rewrite !app_length, firstn_length, skipn_length. lia.
Qed.

Section Rows.
Context {V : Type}.
Variable junk : nat -> nat -> V.

Lemma write1_length : forall (buf : list V) i r b, write1 buf i r = Ok b -> length b = length buf.
Proof.
  unfold write1. intros buf i r b H. destruct r as [l|m]; simpl nrows in H.
  - destruct (Nat.eqb_spec (length l) (slice_len buf i (length l))) as [E|_]; [injection H as <-; eapply put_length; exact E|].
    destruct l as [|x [|y l]]; try discriminate. injection H as <-. eapply put_length. apply repeat_length.
  - destruct (rows m) as [|row [|y l]]; try discriminate. simpl length in H.
    destruct (Nat.eqb_spec (length row) (slice_len buf i 1)) as [E|_]; [injection H as <-; eapply put_length; exact E|].
    destruct row as [|x [|z row]]; try discriminate. injection H as <-. eapply put_length. apply repeat_length.
Qed.

Lemma write2_length : forall k (buf : list (list V)) i r b, write2 k buf i r = Ok b -> length b = length buf.
Proof.
  unfold write2. intros k buf i r b H. destruct r as [l|m].
  - destruct (stretch k l); [|discriminate]. cbn [bind] in H. injection H as <-. eapply put_length. apply repeat_length.
  - destruct (_ || _); [|discriminate]. destruct (mapM (stretch k) (rows m)) as [rs|]; [|discriminate]. cbn [bind] in H.
    destruct (Nat.eqb_spec (length rs) (slice_len buf i (nrows (A2 m)))) as [E|_]; [injection H as <-; eapply put_length; exact E|].
    destruct rs as [|row [|y rs]]; try discriminate. injection H as <-. eapply put_length. apply repeat_length.
Qed.

Lemma fold_length : forall A (write : list A -> nat -> arr V -> result (list A)),
  (forall buf i r b, write buf i r = Ok b -> length b = length buf) ->
  forall res st st', foldM (write_chunk write) res st = Ok st' -> length (fst st') = length (fst st).
Proof.
  intros A write W. induction res as [|[r|] res IH]; intros st st' H; cbn [foldM] in H.
  - injection H as <-. reflexivity.
  - unfold write_chunk at 1 in H. destruct (write (fst st) (snd st) r) as [b|] eqn:E; [|discriminate]. cbn [bind] in H.
    apply IH in H. simpl in H. rewrite H. eapply W; eauto.
  - discriminate.
Qed.

(** Whatever the chunks return, what is collected has as many rows as the samples. *)
Lemma collect_rows : forall n res Y, collect junk n res = Ok Y -> exists a, Y = Some a /\ nrows a = n.
Proof.
  unfold collect. intros n [|[[l|m]|] res] Y H; try discriminate.
  - destruct (foldM _ _ _) as [st|] eqn:E; [|discriminate]. cbn [bind] in H. injection H as <-. eexists. split; [reflexivity|].
    apply (fold_length _ _ write1_length) in E. simpl in *. rewrite E, map_length, seq_length. reflexivity.
  - destruct (foldM _ _ _) as [st|] eqn:E; [|discriminate]. cbn [bind] in H. injection H as <-. eexists. split; [reflexivity|].
    apply (fold_length _ _ (write2_length _)) in E. simpl in *. rewrite E, map_length, seq_length. reflexivity.
Qed.
End Rows.

Section History.
Context {V Res Arg : Type}.
Variable junk : nat -> nat -> V.
Variable cpu : nat.
Variables ptqdm pathos : bool.
Notation step' := (@step V Res Arg junk cpu ptqdm pathos).
Notation run' := (@run V Res Arg junk cpu ptqdm pathos).
Notation along' := (@along V Res Arg junk cpu ptqdm pathos).

Lemma run_snoc : forall cs c s, run' (cs ++ [c]) s = fst (step' (run' cs s) c).
Proof. intros cs c s. unfold run. rewrite fold_left_app. reflexivity. Qed.
Lemma run_app : forall cs cs' s, run' (cs ++ cs') s = run' cs' (run' cs s).
Proof. intros cs cs' s. unfold run. apply fold_left_app. Qed.
Lemma along_snoc : forall P cs c s, along' P (cs ++ [c]) s <-> along' P cs s /\ P (run' cs s) c.
Proof.
  intros P. induction cs as [|d cs IH]; intros c s; simpl.
  - tauto.
  - rewrite IH. unfold run. simpl. tauto.
Qed.

(** The results setter: refused and unchanged, or stored. *)
Lemma assign_results_cases : forall v (s : spec V Res),
  (exists e, assign_results v s = (s, Some e)) \/
  (exists a o, v = Some a /\ assign_results v s = (mkSpec (s_prob s) (Some o) (s_samples s) (Some a) (s_analysis s), None) /\
     length o = ncols a /\ (forall o', s_outputs s = Some o' -> o = o')).
Proof.
  intros [a|] s; unfold assign_results; [|left; eauto].
  destruct (s_outputs s) as [o|] eqn:E.
  - destruct (Nat.eqb_spec (ncols a) (length o)) as [L|L]; simpl; [|left; eauto].
    right. exists a, o. repeat split; auto. congruence.
  - right. eexists a, _. split; [reflexivity|]. split; [reflexivity|]. split; [|discriminate].
    destruct (Nat.eqb_spec (ncols a) 1) as [L|L]; [simpl; auto|]. rewrite map_length, seq_length. reflexivity.
Qed.

Lemma store_cases : forall r (s : spec V Res),
  (exists e, store r s = (s, Some e)) \/
  (exists a o, r = Ok (Some a) /\ store r s = (mkSpec (s_prob s) (Some o) (s_samples s) (Some a) (s_analysis s), None) /\
     length o = ncols a /\ (forall o', s_outputs s = Some o' -> o = o')).
Proof.
  intros [v|e] s; simpl; [|left; eauto].
  destruct (assign_results_cases v s) as [H|(a & o & -> & H)]; [left; auto|]. right. exists a, o. auto.
Qed.

(** The calls that store results. *)
Lemma storing_cases : forall c (s : spec V Res), stores_results c ->
  (exists e, step' s c = (s, Some e)) \/
  (exists a o, step' s c = (mkSpec (s_prob s) (Some o) (s_samples s) (Some a) (s_analysis s), None) /\ length o = ncols a /\
     (forall o', s_outputs s = Some o' -> o = o') /\ (keeps_rows s c -> forall X, s_samples s = Some X -> nrows X = nrows a)).
Proof.
  intros c s C. destruct c as [f|v|v|v|f n|f n|f n k|a args n|a args n]; try contradiction; cbn [step].
  - unfold set_results. destruct (s_samples s) as [x|] eqn:EX.
    + destruct v as [b|]; [|left; eauto]. destruct (Nat.eqb_spec (nrows x) (nrows b)) as [L|L]; simpl negb; cbv iota; [|left; eauto].
      destruct (assign_results_cases (Some b) s) as [H|(a & o & E & H & H1 & H2)]; [left; auto|]. rewrite EX in H. injection E as <-. right. exists b, o. repeat split; auto. intros _ X E. injection E as <-. exact L.
    + destruct (assign_results_cases v s) as [H|(a & o & -> & H & H1 & H2)]; [left; auto|]. rewrite EX in H. right. exists a, o. repeat split; auto. discriminate.
  - destruct (assign_results_cases v s) as [H|(a & o & -> & H & H1 & H2)]; [left; auto|]. right. exists a, o. repeat split; auto.
    intros K X E. simpl in K. symmetry. apply K. exact E.
  - unfold evaluate. destruct n as [z|]; [|left; eauto]. destruct (1 <? z)%Z.
    + unfold evaluate_parallel. destruct (s_samples s) as [x|] eqn:EX; [|left; eauto].
      match goal with |- context[store ?r s] => destruct (store_cases r s) as [H|(a & o & E & H & H1 & H2)] end; [left; auto|].
      rewrite EX in H. right. exists a, o. repeat split; auto. intros _ X EQ. injection EQ as <-.
      destruct (chunks x _) as [cs|]; [|discriminate]. cbn [bind] in E. destruct ptqdm; [discriminate|].
      destruct (mapM _ cs) as [res|]; [|discriminate]. cbn [bind] in E. apply collect_rows in E. destruct E as (a' & E & L). congruence.
    + destruct (store_cases (f (s_samples s)) s) as [H|(a & o & E & H & H1 & H2)]; [left; auto|]. right. exists a, o. repeat split; auto.
      simpl. intros K X EX. rewrite EX in E. symmetry. apply K. exact E.
  - unfold evaluate_parallel. destruct (s_samples s) as [x|] eqn:EX; [|left; eauto].
    match goal with |- context[store ?r s] => destruct (store_cases r s) as [H|(a & o & E & H & H1 & H2)] end; [left; auto|].
    rewrite EX in H. right. exists a, o. repeat split; auto. intros _ X EQ. injection EQ as <-.
    destruct (chunks x _) as [cs|]; [|discriminate]. cbn [bind] in E. destruct ptqdm; [discriminate|].
    destruct (mapM _ cs) as [res|]; [|discriminate]. cbn [bind] in E. apply collect_rows in E. destruct E as (a' & E & L). congruence.
  - unfold evaluate_distributed. destruct pathos; simpl negb; cbv iota; [|left; eauto]. destruct k as [k|]; [|left; eauto].
    destruct (s_samples s) as [x|] eqn:EX; [|left; eauto].
    match goal with |- context[store ?r s] => destruct (store_cases r s) as [H|(a & o & E & H & H1 & H2)] end; [left; auto|].
    rewrite EX in H. right. exists a, o. repeat split; auto. intros _ X EQ. injection EQ as <-.
    destruct (chunks x _) as [cs|]; [|discriminate]. cbn [bind] in E.
    destruct (mapM _ cs) as [res|]; [|discriminate]. cbn [bind] in E. apply collect_rows in E. destruct E as (a' & E & L). congruence.
Qed.

(** The analysing calls keep problem, samples and results, and touch nothing without results. *)
Lemma analysing_cases : forall c (s : spec V Res), analyses c ->
  (exists e, step' s c = (s, Some e)) \/
  (exists y e an, s_results s = Some y /\
     step' s c = (mkSpec (s_prob s) (Some (outputs_of s y)) (s_samples s) (s_results s) an, e)).
Proof.
  assert (P : forall (a : analyzer V Res Arg) args n s, (exists e, analyze_parallel cpu ptqdm a args n s = (s, Some e)) \/
    (exists y e an, s_results s = Some y /\ analyze_parallel cpu ptqdm a args n s = (mkSpec (s_prob s) (Some (outputs_of s y)) (s_samples s) (s_results s) an, e))).
  { intros a args n s. unfold analyze_parallel. destruct (s_results s) as [y|] eqn:EY; [|left; eauto]. right. exists y.
    assert (W : forall x, with_analysis x (with_outputs (outputs_of s y) s) = mkSpec (s_prob s) (Some (outputs_of s y)) (s_samples s) (Some y) (Some x)).
    { intros x. unfold with_analysis, with_outputs. simpl. rewrite EY. reflexivity. }
    assert (W' : with_outputs (outputs_of s y) s = mkSpec (s_prob s) (Some (outputs_of s y)) (s_samples s) (Some y) (s_analysis s)).
    { unfold with_outputs. rewrite EY. reflexivity. }
    cbv zeta. destruct (_ =? 1).
    - destruct (call_analyzer a args s y) as [r|e]; [rewrite W|rewrite W']; eauto.
    - destruct (negb ptqdm && _); [rewrite W'; eauto|].
      destruct (mapM (column_of y) _) as [cs|]; [|rewrite W'; eauto].
      destruct (mapM _ cs); [rewrite W; eauto|]. destruct ptqdm; [rewrite W|rewrite W']; eauto. }
  intros c s C. destruct c as [f|v|v|v|f n|f n|f n k|a args n|a args n]; try contradiction; cbn [step]; [|apply P].
  unfold analyze. destruct (_ || _); [left; eauto|]. destruct n as [n|]; [apply P|].
  destruct (s_results s) as [y|] eqn:EY; [|left; eauto]. right. exists y. cbv zeta.
  destruct (1 <? _).
  - unfold with_analysis, with_outputs. simpl. rewrite EY. eauto.
  - destruct (call_analyzer a args s y) as [r|e]; unfold with_analysis, with_outputs; simpl; rewrite EY; eauto.
Qed.

(** The sampling calls. *)
Lemma sample_cases : forall f (s : spec V Res),
  s_results (fst (sample f s)) = None /\ s_analysis (fst (sample f s)) = None /\
  s_prob (fst (sample f s)) = s_prob s /\ s_outputs (fst (sample f s)) = s_outputs s /\
  ((exists v, f (s_prob s) = Ok v /\ snd (sample f s) = None /\ s_samples (fst (sample f s)) = v) \/
   (exists e, f (s_prob s) = Err e /\ snd (sample f s) = Some e /\ s_samples (fst (sample f s)) = s_samples s)).
Proof. intros f s. unfold sample. destruct (f (s_prob s)) as [v|e]; simpl; repeat split; eauto. Qed.
Lemma assign_samples_cases : forall v (s : spec V Res),
  (exists e, assign_samples v s = (s, Some e)) \/
  (exists m, v = Some (A2 m) /\ cols m = p_num_vars (s_prob s) /\
     assign_samples v s = (mkSpec (s_prob s) (s_outputs s) v None (s_analysis s), None)).
Proof.
  intros [[l|m]|] s; unfold assign_samples; try (left; eauto; fail).
  destruct (Nat.eqb_spec (cols m) (p_num_vars (s_prob s))); simpl; [|left; eauto]. right. eauto.
Qed.

Lemma class_of : forall c : call V Res Arg, (exists f, c = CSample f) \/ (exists v, c = CSetSamples v) \/ stores_results c \/ analyses c.
Proof. destruct c; simpl; eauto. Qed.

(** C47: the invariant. *)
Lemma step_same_rows : forall c (s : spec V Res), same_rows s -> keeps_rows s c -> same_rows (fst (step' s c)).
Proof.
  intros c s I K. destruct (class_of c) as [(f & ->)|[(v & ->)|[C|C]]].
  - cbn [step]. destruct (sample_cases f s) as (R & _). intros X Y _ E. congruence.
  - cbn [step]. destruct (assign_samples_cases v s) as [(e & ->)|(m & -> & L & ->)]; [exact I|]. intros X Y _ E. discriminate.
  - destruct (storing_cases c s C) as [(e & ->)|(a & o & -> & L & O & W)]; [exact I|]. intros X Y EX EY. simpl in *. injection EY as <-. apply W; auto.
  - destruct (analysing_cases c s C) as [(e & ->)|(y & e & an & EY & ->)]; [exact I|]. intros X Y. simpl. apply I.
Qed.
Lemma run_same_rows : forall cs (s : spec V Res), same_rows s -> along' keeps_rows cs s -> same_rows (run' cs s).
Proof.
  induction cs as [|c cs IH]; intros s I H; [exact I|]. destruct H as [K H]. unfold run. simpl. apply (IH (fst (step' s c))); auto.
  apply step_same_rows; auto.
Qed.

Lemma construct_fresh : forall a (s : spec V Res), construct a = Ok s -> s_samples s = None /\ s_results s = None /\ s_analysis s = None.
Proof.
  intros a s H. unfold construct in H. destruct (a_names a); [|discriminate]. destruct (a_bounds a); [|discriminate].
  destruct (negb _); [discriminate|]. destruct (define_problem_with_groups _); [|discriminate]. cbn [bind] in H. injection H as <-. auto.
Qed.

Lemma spec_rows : forall a (s0 : spec V Res) cs, construct a = Ok s0 -> along' keeps_rows cs s0 -> same_rows (run' cs s0).
Proof. intros a s0 cs C H. apply run_same_rows; auto. destruct (construct_fresh _ _ C) as (E & _). intros X Y E'. congruence. Qed.

(** C47: the results come from a successful call made after the current samples were stored. *)
Lemma spec_provenance : forall cs (s0 : spec V Res) Y, s_results s0 = None -> s_results (run' cs s0) = Some Y ->
  exists cs1 c cs2, cs = cs1 ++ c :: cs2 /\ stores_results c /\
    snd (step' (run' cs1 s0) c) = None /\
    forall pre post, cs2 = pre ++ post -> s_results (run' (cs1 ++ c :: pre) s0) = Some Y /\
      s_samples (run' (cs1 ++ c :: pre) s0) = s_samples (run' cs1 s0).
Proof.
  induction cs as [|c cs IH] using rev_ind; intros s0 Y N H; [unfold run in H; simpl in H; congruence|].
  rewrite run_snoc in H. set (s := run' cs s0) in *.
  assert (KEEP : s_results (fst (step' s c)) = s_results s -> s_samples (fst (step' s c)) = s_samples s ->
    exists cs1 c0 cs2, cs ++ [c] = cs1 ++ c0 :: cs2 /\ stores_results c0 /\ snd (step' (run' cs1 s0) c0) = None /\
    forall pre post, cs2 = pre ++ post -> s_results (run' (cs1 ++ c0 :: pre) s0) = Some Y /\ s_samples (run' (cs1 ++ c0 :: pre) s0) = s_samples (run' cs1 s0)).
  { intros ER ES. rewrite ER in H. destruct (IH s0 Y N H) as (cs1 & d & cs2 & -> & D & O & A). exists cs1, d, (cs2 ++ [c]).
    split; [rewrite <- app_assoc; reflexivity|]. split; [exact D|]. split; [exact O|]. intros pre post E.
    destruct (list_eq_nil_snoc _ post) as [->|(post' & z & ->)].
    - rewrite app_nil_r in E. subst pre. replace (cs1 ++ d :: cs2 ++ [c]) with ((cs1 ++ d :: cs2) ++ [c]) by (rewrite <- app_assoc; reflexivity).
      rewrite run_snoc. fold s. rewrite ER, ES. destruct (A cs2 [] ltac:(rewrite app_nil_r; reflexivity)) as [A1 A2]. auto.
    - rewrite app_assoc in E. apply app_inj_tail in E. destruct E as [E _]. exact (A pre post' E). }
  destruct (class_of c) as [(f & ->)|[(v & ->)|[C|C]]].
  - cbn [step] in H. destruct (sample_cases f s) as (R & _). congruence.
  - cbn [step] in H, KEEP. destruct (assign_samples_cases v s) as [(e & E)|(m & -> & L & E)]; rewrite E in H, KEEP; [|discriminate]. apply KEEP; reflexivity.
  - destruct (storing_cases c s C) as [(e & E)|(a & o & E & L & O & W)]; [rewrite E in KEEP; apply KEEP; reflexivity|].
    exists cs, c, []. split; [reflexivity|]. split; [exact C|]. fold s. rewrite E. split; [reflexivity|].
    intros pre post EP. symmetry in EP. apply app_eq_nil in EP. destruct EP as [-> _]. rewrite run_snoc. fold s.
    rewrite E in *. simpl in *. auto.
  - destruct (analysing_cases c s C) as [(e & E)|(y & e & an & EY & E)]; rewrite E in KEEP; apply KEEP; reflexivity.
Qed.

(** C48: an analysis comes from an analysing call made on the current samples and results, if data are only replaced while
    there is no analysis. *)
Lemma spec_analysis : forall cs (s0 : spec V Res) A, s_analysis s0 = None ->
  along' (fun s c => replaces_data c -> s_analysis s = None) cs s0 -> s_analysis (run' cs s0) = Some A ->
  exists cs1 c cs2, cs = cs1 ++ c :: cs2 /\ analyses c /\ s_analysis (fst (step' (run' cs1 s0) c)) = Some A /\
    s_samples (run' cs1 s0) = s_samples (run' cs s0) /\ s_results (run' cs1 s0) = s_results (run' cs s0) /\ s_results (run' cs s0) <> None.
Proof.
  induction cs as [|c cs IH] using rev_ind; intros s0 A N AL H; [unfold run in H; simpl in H; congruence|].
  apply along_snoc in AL. destruct AL as [AL CL]. rewrite run_snoc in *. set (s := run' cs s0) in *.
  assert (KEEP : s_analysis (fst (step' s c)) = s_analysis s -> s_samples (fst (step' s c)) = s_samples s -> s_results (fst (step' s c)) = s_results s ->
    exists cs1 c0 cs2, cs ++ [c] = cs1 ++ c0 :: cs2 /\ analyses c0 /\ s_analysis (fst (step' (run' cs1 s0) c0)) = Some A /\
    s_samples (run' cs1 s0) = s_samples (fst (step' s c)) /\ s_results (run' cs1 s0) = s_results (fst (step' s c)) /\ s_results (fst (step' s c)) <> None).
  { intros EA ES ER. rewrite EA in H. destruct (IH s0 A N AL H) as (cs1 & d & cs2 & E & D & O & S1 & R1 & R2). exists cs1, d, (cs2 ++ [c]).
    rewrite E, <- app_assoc. rewrite ES, ER. repeat split; auto. }
  destruct (class_of c) as [(f & ->)|[(v & ->)|[C|C]]].
  - cbn [step] in H. destruct (sample_cases f s) as (_ & R & _). congruence.
  - cbn [step] in H. specialize (CL I). destruct (assign_samples_cases v s) as [(e & E)|(m & -> & L & E)]; rewrite E in H; simpl in H; congruence.
  - assert (CL' : s_analysis s = None) by (apply CL; destruct c; simpl in *; auto).
    destruct (storing_cases c s C) as [(e & E)|(a & o & E & L & O & W)]; rewrite E in H; simpl in H; congruence.
  - destruct (analysing_cases c s C) as [(e & E)|(y & e & an & EY & E)]; [rewrite E in KEEP; rewrite E; apply KEEP; reflexivity|].
    exists cs, c, []. split; [reflexivity|]. split; [exact C|]. fold s. rewrite E in *. simpl in *. rewrite EY. repeat split; auto. discriminate.
Qed.

(** C48: replacing samples or results never touches the analysis. *)
Lemma spec_stale : forall c (s : spec V Res), replaces_data c -> s_analysis (fst (step' s c)) = s_analysis s.
Proof.
  intros c s C. destruct (class_of c) as [(f & ->)|[(v & ->)|[D|D]]]; [contradiction| | |destruct c; contradiction].
  - cbn [step]. destruct (assign_samples_cases v s) as [(e & ->)|(m & -> & L & ->)]; reflexivity.
  - destruct (storing_cases c s D) as [(e & ->)|(a & o & -> & _)]; reflexivity.
Qed.

(** C52: one name per column, always. *)
Lemma step_well_named : forall c (s : spec V Res), well_named s -> well_named (fst (step' s c)).
Proof.
  intros c s I. destruct (class_of c) as [(f & ->)|[(v & ->)|[C|C]]].
  - cbn [step]. destruct (sample_cases f s) as (R & _). intros Y E. congruence.
  - cbn [step]. destruct (assign_samples_cases v s) as [(e & ->)|(m & -> & L & ->)]; [exact I|]. intros Y E. discriminate.
  - destruct (storing_cases c s C) as [(e & ->)|(a & o & -> & L & O & W)]; [exact I|]. intros Y EY. simpl in *. injection EY as <-. eauto.
  - destruct (analysing_cases c s C) as [(e & ->)|(y & e & an & EY & ->)]; [exact I|]. intros Y E. simpl in *.
    destruct (I Y E) as (o & EO & L). assert (y = Y) by congruence. subst y. unfold outputs_of. rewrite EO. eauto.
Qed.
Lemma run_well_named : forall cs (s : spec V Res), well_named s -> well_named (run' cs s).
Proof. induction cs as [|c cs IH]; intros s I; [exact I|]. unfold run. simpl. apply (IH (fst (step' s c))). apply step_well_named; auto. Qed.
(** The problem itself is never changed, and names, once given, stay. *)
Lemma step_prob : forall c (s : spec V Res), s_prob (fst (step' s c)) = s_prob s.
Proof.
  intros c s. destruct (class_of c) as [(f & ->)|[(v & ->)|[C|C]]].
  - cbn [step]. apply sample_cases.
  - cbn [step]. destruct (assign_samples_cases v s) as [(e & ->)|(m & -> & L & ->)]; reflexivity.
  - destruct (storing_cases c s C) as [(e & ->)|(a & o & -> & _)]; reflexivity.
  - destruct (analysing_cases c s C) as [(e & ->)|(y & e & an & EY & ->)]; reflexivity.
Qed.
Lemma run_prob : forall cs (s : spec V Res), s_prob (run' cs s) = s_prob s.
Proof. induction cs as [|c cs IH]; intros s; [reflexivity|]. change (run' (c :: cs) s) with (run' cs (fst (step' s c))). rewrite IH. apply step_prob. Qed.
Lemma step_outputs : forall c (s : spec V Res) o, s_outputs s = Some o -> s_outputs (fst (step' s c)) = Some o.
Proof.
  intros c s o E. destruct (class_of c) as [(f & ->)|[(v & ->)|[C|C]]].
  - cbn [step]. destruct (sample_cases f s) as (_ & _ & _ & -> & _). exact E.
  - cbn [step]. destruct (assign_samples_cases v s) as [(e & ->)|(m & -> & L & ->)]; exact E.
  - destruct (storing_cases c s C) as [(e & ->)|(a & o' & -> & _ & O & _)]; [exact E|]. simpl. f_equal. apply O. exact E.
  - destruct (analysing_cases c s C) as [(e & ->)|(y & e & an & EY & ->)]; [exact E|]. simpl. unfold outputs_of. rewrite E. reflexivity.
Qed.
End History.
