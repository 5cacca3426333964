(** * Facts about the command line. *)
From Coq Require Import Reals String List Arith ZArith Lia Lra Bool Ascii.
From Verif Require Import Base ModelCli SpecCli.
Import ListNotations.
Local Open Scope string_scope.

Section Parse.
Variable int_of : string -> option Z.
Variable float_of : string -> option R.
Let parse_from := parse_from int_of float_of.
Let parse_args := parse_args int_of float_of.
Let convert := convert int_of float_of.

Lemma parse_from_snoc : forall os cl ns flag text,
  parse_from os ns (cl ++ [(flag, text)]) = do ns' <- parse_from os ns cl ;; parse_from os ns' [(flag, text)].
Proof.
  intros os. unfold parse_from. induction cl as [|[f t] cl IH]; intros ns flag text; [reflexivity|].
  cbn [app ModelCli.parse_from]. destruct (find _ os) as [o|]; [|reflexivity]. destruct (ModelCli.convert _ _ o t); [|reflexivity]. apply IH.
Qed.

(** The table lists every option once. *)
Definition flags_ok (os : list opt) : bool :=
  forallb (fun o => forallb (fun f => match find (fun o' => existsb (String.eqb f) (o_flags o')) os with
                                      | Some o' => o_dest o' =? o_dest o | None => false end) (o_flags o)) os.
Fixpoint distinct (l : list string) : bool := match l with [] => true | x :: l => negb (existsb (String.eqb x) l) && distinct l end.

Lemma distinct_dest : forall os o o', distinct (map o_dest os) = true -> In o os -> In o' os -> o_dest o = o_dest o' -> o = o'.
Proof.
  induction os as [|a os IH]; intros o o' D I I' E; [contradiction|]. cbn [map distinct] in D. apply andb_prop in D as (D1 & D2).
  apply negb_true_iff in D1.
  assert (K : forall p, In p os -> o_dest a <> o_dest p).
  { intros p P Q. assert (T : existsb (String.eqb (o_dest a)) (map o_dest os) = true).
    { apply existsb_exists. exists (o_dest p). split; [apply in_map; assumption|]. rewrite Q. apply String.eqb_refl. }
    congruence. }
  destruct I as [<-|I], I' as [<-|I']; [reflexivity| | |apply IH; assumption].
  - exfalso. exact (K _ I' E).
  - exfalso. apply (K _ I). symmetry. assumption.
Qed.

Lemma find_flag : forall os o flag, flags_ok os = true -> distinct (map o_dest os) = true -> In o os -> In flag (o_flags o) ->
  find (fun o => existsb (String.eqb flag) (o_flags o)) os = Some o.
Proof.
  intros os o flag F D I J. unfold flags_ok in F. rewrite forallb_forall in F. specialize (F o I). rewrite forallb_forall in F. specialize (F flag J).
  destruct (find _ os) as [o'|] eqn:E; [|discriminate]. apply String.eqb_eq in F. apply find_some in E as (E & _).
  f_equal. apply (distinct_dest os); assumption.
Qed.

Lemma parse_last : forall os o cl flag text ns, find (fun o => existsb (String.eqb flag) (o_flags o)) os = Some o ->
  parse_args os (cl ++ [(flag, text)]) = Ok ns ->
  exists base x, parse_from os (defaults os) cl = Ok base /\ convert o text = Some x /\ ns = assign base (o_dest o) x.
Proof.
  intros os o cl flag text ns F P. unfold parse_args, ModelCli.parse_args in P. fold parse_from in P. rewrite parse_from_snoc in P.
  destruct (parse_from os (defaults os) cl) as [base|] eqn:B; [|discriminate]. cbn [bind] in P. unfold parse_from in P. cbn [ModelCli.parse_from] in P.
  rewrite F in P. fold convert in P. destruct (convert o text) as [x|]; [|discriminate]. cbn [bind] in P.
  match type of P with (if ?c then _ else _) = _ => destruct c; [|discriminate] end. injection P as <-. exists base, x. repeat split.
Qed.

(** How an argument depends on an option. *)
Definition depends (o : opt) (e : expr) : bool :=
  match e with
  | EArg d => d =? o_dest o
  | EIs2 d => (d =? o_dest o) && match o_type o, o_choices o with
                                   | TInt, Some l => if list_eq_dec Z.eq_dec l [1; 2]%Z then true else false | _, _ => false end
  | EConst _ => false
  | EProblem d => d =? o_dest o
  | ETable f d c _ => (f =? o_dest o) || (d =? o_dest o) || match c with Some c => c =? o_dest o | None => false end
  | EBins d => (d =? o_dest o) && match o_type o with TStr => true | _ => false end
  end.

Lemma depends_differ : forall o e v1 v2 x1 x2 base, depends o e = true -> convert o v1 = Some x1 -> convert o v2 = Some x2 -> x1 <> x2 ->
  eval (assign base (o_dest o) x1) e <> eval (assign base (o_dest o) x2) e.
Proof.
  intros o e v1 v2 x1 x2 base D C1 C2 N. destruct e as [d|d|v|d|f d c n|d]; cbn [depends] in D; cbn [eval]; unfold assign.
  - rewrite D. exact N.
  - apply andb_prop in D as (D1 & D2). rewrite D1. unfold convert, ModelCli.convert in C1, C2. destruct (o_type o); try discriminate.
    destruct (o_choices o) as [l|]; [|discriminate]. destruct (list_eq_dec Z.eq_dec l [1; 2]%Z) as [->|]; [|discriminate].
    destruct (int_of v1) as [z1|]; [|discriminate]. destruct (int_of v2) as [z2|]; [|discriminate].
    cbn [existsb] in C1, C2.
    destruct (Z.eqb z1 1) eqn:A1, (Z.eqb z1 2) eqn:A2, (Z.eqb z2 1) eqn:B1, (Z.eqb z2 2) eqn:B2; cbn [orb] in C1, C2; try discriminate;
      injection C1 as <-; injection C2 as <-;
      repeat match goal with H : Z.eqb _ _ = true |- _ => apply Z.eqb_eq in H end; subst; try discriminate; try congruence.
  - discriminate.
  - rewrite D. intros H. injection H as H. exact (N H).
  - intros H. injection H as H1 H2 H3. destruct c as [c|]; cbn [option_map] in H3.
    + injection H3 as H3. destruct (f =? o_dest o); [exact (N H1)|]. destruct (d =? o_dest o); [exact (N H2)|]. cbn [orb] in D. rewrite D in H3. exact (N H3).
    + destruct (f =? o_dest o); [exact (N H1)|]. destruct (d =? o_dest o); [exact (N H2)|]. discriminate.
  - apply andb_prop in D as (D1 & D2). rewrite D1. unfold convert, ModelCli.convert in C1, C2. destruct (o_type o); try discriminate.
    injection C1 as <-. injection C2 as <-. destruct (opens_brace v1), (opens_brace v2); intros H; try discriminate; injection H as H; apply N; congruence.
Qed.

Definition ignoredb (m : method) (o : opt) : bool :=
  existsb (fun t => (fst (fst t) =? m_action m) && (snd (fst t) =? m_name m) && (snd t =? o_dest o)) ignored.
Lemma ignoredb_iff : forall m o, ignoredb m o = true <-> is_ignored m o.
Proof.
  intros m o. unfold is_ignored, ignoredb. rewrite existsb_exists. split.
  - intros ([[a n] d] & I & E). cbn [fst snd] in E.
    apply andb_prop in E as (E & E3). apply andb_prop in E as (E1 & E2). apply String.eqb_eq in E1, E2, E3. subst. assumption.
  - intros I. exists (m_action m, m_name m, o_dest o). split; [assumption|]. cbn [fst snd]. rewrite !String.eqb_refl. reflexivity.
Qed.

Definition table_ok (m : method) : bool :=
  flags_ok (m_options m) && distinct (map o_dest (m_options m))
  && forallb (fun o => ignoredb m o || existsb (fun pe => depends o (snd pe)) (m_call m)) (m_options m).
Lemma tables_ok : forallb table_ok methods = true.
Proof. vm_compute. reflexivity. Qed.
Lemma table_facts : forall m, In m methods -> flags_ok (m_options m) = true /\ distinct (map o_dest (m_options m)) = true
  /\ forall o, In o (m_options m) -> ignoredb m o = true \/ exists pe, In pe (m_call m) /\ depends o (snd pe) = true.
Proof.
  intros m I. assert (T := tables_ok). rewrite forallb_forall in T. specialize (T m I). unfold table_ok in T.
  apply andb_prop in T as (T & T3). apply andb_prop in T as (T1 & T2). split; [assumption|]. split; [assumption|].
  intros o O. rewrite forallb_forall in T3. specialize (T3 o O). apply orb_prop in T3 as [T3|T3]; [left; assumption|right].
  apply existsb_exists in T3. assumption.
Qed.

Lemma run_last : forall m o cl flag text c, In m methods -> In o (m_options m) -> In flag (o_flags o) ->
  run int_of float_of m (cl ++ [(flag, text)]) = Ok c ->
  exists base x, parse_from (m_options m) (defaults (m_options m)) cl = Ok base /\ convert o text = Some x
    /\ c = map (fun pe => (fst pe, eval (assign base (o_dest o) x) (snd pe))) (m_call m).
Proof.
  intros m o cl flag text c M I J E. destruct (table_facts m M) as (F & D & _).
  unfold run in E. fold parse_args in E. destruct (parse_args (m_options m) (cl ++ [(flag, text)])) as [ns|] eqn:P; [|discriminate].
  cbn [bind] in E. injection E as <-. destruct (parse_last _ o cl flag text ns (find_flag _ _ _ F D I J) P) as (base & x & B & C & ->).
  exists base, x. repeat split; assumption.
Qed.

Lemma map_In_differ : forall A B (f g : A -> B) l a, In a l -> f a <> g a -> map f l <> map g l.
Proof.
  intros A B f g. induction l as [|b l IH]; intros a I N H; [contradiction|]. cbn in H. injection H as H1 H2.
  destruct I as [->|I]; [exact (N H1)|]. exact (IH a I N H2).
Qed.

Lemma reaches : forall m o flag cl v1 v2 x1 x2 c1 c2, In m methods -> In o (m_options m) -> In flag (o_flags o) -> ignoredb m o = false ->
  convert o v1 = Some x1 -> convert o v2 = Some x2 -> x1 <> x2 ->
  run int_of float_of m (cl ++ [(flag, v1)]) = Ok c1 -> run int_of float_of m (cl ++ [(flag, v2)]) = Ok c2 -> c1 <> c2.
Proof.
  intros m o flag cl v1 v2 x1 x2 c1 c2 M I J G C1 C2 N R1 R2. destruct (table_facts m M) as (F & D & K).
  destruct (run_last m o cl flag v1 c1 M I J R1) as (base & y1 & B & E1 & ->). destruct (run_last m o cl flag v2 c2 M I J R2) as (base' & y2 & B' & E2 & ->).
  rewrite B in B'. injection B' as <-. rewrite C1 in E1. injection E1 as <-. rewrite C2 in E2. injection E2 as <-.
  destruct (K o I) as [K'|(pe & P & Q)]; [congruence|]. apply (map_In_differ _ _ _ _ _ pe P). cbn beta. intros H. injection H as H.
  exact (depends_differ o (snd pe) v1 v2 x1 x2 base Q C1 C2 N H).
Qed.

(** Ignored options. *)
Definition untouched (o : opt) (e : expr) : bool :=
  match e with
  | EArg d | EIs2 d | EProblem d | EBins d => negb (d =? o_dest o)
  | EConst _ => true
  | ETable f d c _ => negb (f =? o_dest o) && negb (d =? o_dest o) && match c with Some c => negb (c =? o_dest o) | None => true end
  end.
Lemma untouched_same : forall o e base x y, untouched o e = true -> eval (assign base (o_dest o) x) e = eval (assign base (o_dest o) y) e.
Proof.
  intros o e base x y U. destruct e as [d|d|v|d|f d c n|d]; cbn [untouched] in U; cbn [eval]; unfold assign;
    try (apply negb_true_iff in U; rewrite U); try reflexivity.
  apply andb_prop in U as (U & U3). apply andb_prop in U as (U1 & U2). apply negb_true_iff in U1, U2. rewrite U1, U2.
  destruct c as [c|]; [|reflexivity]. apply negb_true_iff in U3. cbn [option_map]. rewrite U3. reflexivity.
Qed.
Lemma ignored_ok : forallb (fun m => forallb (fun o => negb (ignoredb m o) || forallb (fun pe => untouched o (snd pe)) (m_call m)) (m_options m)) methods = true.
Proof. vm_compute. reflexivity. Qed.

Lemma ignored_same : forall m o flag cl v1 v2 c1 c2, In m methods -> In o (m_options m) -> In flag (o_flags o) -> ignoredb m o = true ->
  run int_of float_of m (cl ++ [(flag, v1)]) = Ok c1 -> run int_of float_of m (cl ++ [(flag, v2)]) = Ok c2 -> c1 = c2.
Proof.
  intros m o flag cl v1 v2 c1 c2 M I J G R1 R2.
  destruct (run_last m o cl flag v1 c1 M I J R1) as (base & y1 & B & E1 & ->). destruct (run_last m o cl flag v2 c2 M I J R2) as (base' & y2 & B' & E2 & ->).
  rewrite B in B'. injection B' as <-. assert (T := ignored_ok). rewrite forallb_forall in T. specialize (T m M). rewrite forallb_forall in T.
  specialize (T o I). rewrite G in T. cbn [negb orb] in T. rewrite forallb_forall in T. apply map_ext_in. intros pe P. f_equal.
  apply untouched_same. apply T. assumption.
Qed.

(** The value of an option on a command line. *)
Lemma given_iff : forall cl o, given cl o = true <-> occurs o cl.
Proof.
  intros cl o. unfold given, occurs. rewrite existsb_exists. split.
  - intros ([f t] & I & E). cbn [fst] in E. apply existsb_exists in E as (g & G & Q). apply String.eqb_eq in Q. subst g. exists f, t. split; assumption.
  - intros (f & t & I & J). exists (f, t). split; [assumption|]. cbn [fst]. apply existsb_exists. exists f. split; [assumption|apply String.eqb_refl].
Qed.
Lemma not_given : forall cl o, ~ occurs o cl -> given cl o = false.
Proof. intros cl o N. destruct (given cl o) eqn:E; [|reflexivity]. apply given_iff in E. contradiction. Qed.

Lemma parse_from_absent : forall os o cl ns ns', distinct (map o_dest os) = true -> In o os -> given cl o = false -> parse_from os ns cl = Ok ns' ->
  ns' (o_dest o) = ns (o_dest o).
Proof.
  intros os o cl ns ns' D I. revert ns. induction cl as [|[f t] cl IH]; intros ns G P.
  - injection P as <-. reflexivity.
  - cbn [given existsb fst] in G. apply orb_false_iff in G as (G1 & G2). unfold parse_from in P. cbn [ModelCli.parse_from] in P.
    destruct (find _ os) as [o'|] eqn:F; [|discriminate]. destruct (ModelCli.convert _ _ o' t) as [x|]; [|discriminate].
    fold parse_from in P. rewrite (IH _ G2 P). unfold assign. destruct (o_dest o =? o_dest o') eqn:E; [|reflexivity].
    apply String.eqb_eq in E. apply find_some in F as (F1 & F2). assert (o = o') by (apply (distinct_dest os); assumption). subst o'. congruence.
Qed.

Lemma parse_from_app : forall os cl ns cl', parse_from os ns (cl ++ cl') = do ns' <- parse_from os ns cl ;; parse_from os ns' cl'.
Proof.
  intros os. unfold parse_from. induction cl as [|[f t] cl IH]; intros ns cl'; [reflexivity|].
  cbn [app ModelCli.parse_from]. destruct (find _ os) as [o|]; [|reflexivity]. destruct (ModelCli.convert _ _ o t); [|reflexivity]. apply IH.
Qed.

Lemma assign_same : forall ns d x, assign ns d x d = x.
Proof. intros. unfold assign. rewrite String.eqb_refl. reflexivity. Qed.

Lemma default_of : forall os o, distinct (map o_dest os) = true -> In o os -> defaults os (o_dest o) = o_default o.
Proof.
  intros os o D I. unfold defaults. destruct (find _ os) as [o'|] eqn:F.
  - apply find_some in F as (F1 & F2). apply String.eqb_eq in F2. f_equal. apply (distinct_dest os); assumption.
  - exfalso. apply (find_none _ _ F) in I. rewrite String.eqb_refl in I. discriminate.
Qed.

Lemma run_value : forall m cl c, In m methods -> run int_of float_of m cl = Ok c -> exists ns,
  c = map (fun pe => (fst pe, eval ns (snd pe))) (m_call m) /\ forall o v, In o (m_options m) -> has_value convert cl o v -> ns (o_dest o) = v.
Proof.
  intros m cl c M R. destruct (table_facts m M) as (F & D & _). unfold run in R. fold parse_args in R.
  destruct (parse_args (m_options m) cl) as [ns|] eqn:E; [|discriminate]. cbn [bind] in R. injection R as <-.
  unfold parse_args, ModelCli.parse_args in E. fold parse_from in E. destruct (parse_from (m_options m) (defaults (m_options m)) cl) as [b|] eqn:B; [|discriminate].
  cbn [bind] in E. match type of E with (if ?c then _ else _) = _ => destruct c; [|discriminate] end. injection E as <-.
  exists b. split; [reflexivity|]. intros o v I [(N & ->)|(cl1 & flag & text & cl2 & -> & J & N & C)].
  - rewrite (parse_from_absent _ o cl _ _ D I (not_given _ _ N) B). apply default_of; assumption.
  - rewrite parse_from_app in B. destruct (parse_from (m_options m) (defaults (m_options m)) cl1) as [b1|]; [|discriminate].
    cbn [bind] in B. unfold parse_from in B. cbn [ModelCli.parse_from] in B. rewrite (find_flag _ _ _ F D I J) in B. fold convert in B. rewrite C in B.
    fold parse_from in B. rewrite (parse_from_absent _ o cl2 _ _ D I (not_given _ _ N) B). apply assign_same.
Qed.

(** The parameter an option is meant for. *)
Definition named_ok (m : method) (o : opt) : bool :=
  ignoredb m o || special (m_action m) (o_dest o)
  || match o_choices o with
     | Some _ => existsb (fun pe => (fst pe =? order_parameter (m_name m)) && match snd pe with EIs2 d => d =? o_dest o | _ => false end) (m_call m)
     | None => existsb (fun pe => (fst pe =? meant (long o)) && match snd pe with EArg d => d =? o_dest o | _ => false end) (m_call m)
     end.
Lemma names_ok : forallb (fun m => forallb (named_ok m) (m_options m)) methods = true.
Proof. vm_compute. reflexivity. Qed.

Lemma named : forall m o cl v c, In m methods -> In o (m_options m) -> ignoredb m o = false ->
  special (m_action m) (o_dest o) = false -> run int_of float_of m cl = Ok c -> has_value convert cl o v ->
  In (parameter m o, argument o v) c.
Proof.
  intros m o cl v c M I G S R H. unfold parameter, argument. destruct (run_value m cl c M R) as (ns & -> & V). specialize (V o v I H).
  assert (T := names_ok). rewrite forallb_forall in T. specialize (T m M). rewrite forallb_forall in T. specialize (T o I).
  unfold named_ok in T. rewrite G, S in T. cbn [orb] in T. destruct (o_choices o) as [cs|].
  - apply existsb_exists in T as ([p e] & P & Q). cbn [fst snd] in Q. apply andb_prop in Q as (Q1 & Q2). destruct e as [d|d|w|d|f d k n|d]; try discriminate.
    apply String.eqb_eq in Q1, Q2. subst. apply in_map_iff. exists (order_parameter (m_name m), EIs2 (o_dest o)). split; [|assumption]. reflexivity.
  - apply existsb_exists in T as ([p e] & P & Q). cbn [fst snd] in Q. apply andb_prop in Q as (Q1 & Q2). destruct e as [d|d|w|d|f d k n|d]; try discriminate.
    apply String.eqb_eq in Q1, Q2. subst. apply in_map_iff. exists (meant (long o), EArg (o_dest o)). split; [|assumption].
    reflexivity.
Qed.

(** Files. *)
Definition opt_named (m : method) (d : string) : option opt := find (fun o => o_dest o =? d) (m_options m).
Definition files_ok (m : method) : bool :=
  existsb (fun pe => (fst pe =? "problem") && match snd pe with EProblem d => d =? "paramfile" | _ => false end) (m_call m)
  && ((m_action m =? "sample")
      || existsb (fun pe => (fst pe =? "Y") && match snd pe with
            | ETable f d (Some c) _ => (f =? "model_output_file") && (d =? "delimiter") && (c =? "column") | _ => false end) (m_call m))
  && (match opt_named m "model_input_file" with None => true | Some _ => false end
      || existsb (fun pe => (fst pe =? "X") && match snd pe with
            | ETable f d None _ => (f =? "model_input_file") && (d =? "delimiter") | _ => false end) (m_call m)).
Lemma all_files_ok : forallb files_ok methods = true.
Proof. vm_compute. reflexivity. Qed.

Lemma files : forall m cl c, In m methods -> run int_of float_of m cl = Ok c ->
  (forall o v, In o (m_options m) -> o_dest o = "paramfile" -> has_value convert cl o v -> In ("problem", VProblem v) c)
  /\ (forall o1 o2 o3 f d k, In o1 (m_options m) -> In o2 (m_options m) -> In o3 (m_options m) -> o_dest o1 = "model_output_file" -> o_dest o2 = "delimiter" ->
        o_dest o3 = "column" -> has_value convert cl o1 f -> has_value convert cl o2 d -> has_value convert cl o3 k -> m_action m = "analyze" ->
        exists n, In ("Y", VTable f d (Some k) n) c)
  /\ (forall o1 o2 f d, In o1 (m_options m) -> In o2 (m_options m) -> o_dest o1 = "model_input_file" -> o_dest o2 = "delimiter" ->
        has_value convert cl o1 f -> has_value convert cl o2 d -> exists n, In ("X", VTable f d None n) c).
Proof.
  intros m cl c M R. destruct (run_value m cl c M R) as (ns & -> & V).
  assert (T := all_files_ok). rewrite forallb_forall in T. specialize (T m M). unfold files_ok in T. apply andb_prop in T as (T & T3).
  apply andb_prop in T as (T1 & T2). split; [|split].
  - intros o v I E H. apply existsb_exists in T1 as ([p e] & P & Q). cbn [fst snd] in Q. apply andb_prop in Q as (Q1 & Q2).
    destruct e; try discriminate. apply String.eqb_eq in Q1, Q2. subst. apply in_map_iff. eexists. split; [|exact P]. cbn [fst snd eval].
    rewrite <- E, (V o v I H). reflexivity.
  - intros o1 o2 o3 f d k I1 I2 I3 E1 E2 E3 H1 H2 H3 A. rewrite A in T2. cbn [String.eqb orb Ascii.eqb] in T2.
    apply existsb_exists in T2 as ([p e] & P & Q). cbn [fst snd] in Q. apply andb_prop in Q as (Q1 & Q2).
    destruct e as [| | | |f' d' [k'|] n|]; try discriminate. apply andb_prop in Q2 as (Q2 & Q4). apply andb_prop in Q2 as (Q2 & Q3).
    apply String.eqb_eq in Q1, Q2, Q3, Q4. subst. exists n. apply in_map_iff. eexists. split; [|exact P]. cbn [fst snd eval option_map].
    rewrite <- E1, <- E2, <- E3, (V _ _ I1 H1), (V _ _ I2 H2), (V _ _ I3 H3). reflexivity.
  - intros o1 o2 f d I1 I2 E1 E2 H1 H2. unfold opt_named in T3. destruct (find _ (m_options m)) as [o'|] eqn:F.
    + cbn [orb] in T3. apply existsb_exists in T3 as ([p e] & P & Q). cbn [fst snd] in Q. apply andb_prop in Q as (Q1 & Q2).
      destruct e as [| | | |f' d' [k'|] n|]; try discriminate. apply andb_prop in Q2 as (Q2 & Q3).
      apply String.eqb_eq in Q1, Q2, Q3. subst. exists n. apply in_map_iff. eexists. split; [|exact P]. cbn [fst snd eval option_map].
      rewrite <- E1, <- E2, (V _ _ I1 H1), (V _ _ I2 H2). reflexivity.
    + exfalso. apply (find_none _ _ F) in I1. rewrite E1, String.eqb_refl in I1. discriminate.
Qed.
End Parse.

(** Defaults. *)
Definition differsb (m : method) (o : opt) : bool :=
  existsb (fun x => (m_action (fst (fst (fst (fst x)))) =? m_action m) && (m_name (fst (fst (fst (fst x)))) =? m_name m) && (snd (fst (fst (fst x))) =? o_dest o)) differing.
Lemma differsb_differs : forall m o, differsb m o = true -> differs m o.
Proof.
  intros m o H. apply existsb_exists in H as (x & I & E). apply andb_prop in E as (E & E3). apply andb_prop in E as (E1 & E2).
  apply String.eqb_eq in E1, E2, E3. exists x. repeat split; assumption.
Qed.
Definition pairs : list (aval * aval) :=
  flat_map (fun m => flat_map (fun o =>
    if o_required o || special (m_action m) (o_dest o) || ignoredb m o || differsb m o then []
    else flat_map (fun pd => if fst pd =? parameter m o then [(snd pd, argument o (o_default o))] else []) (m_params m)) (m_options m)) methods.
Lemma pairs_equal : Forall (fun p => fst p = snd p) pairs.
Proof. vm_compute. repeat (constructor; [reflexivity|]). constructor. Qed.

Lemma default_agrees : forall m o p d, In m methods -> In o (m_options m) -> o_required o = false -> special (m_action m) (o_dest o) = false ->
  ignoredb m o = false -> differsb m o = false -> In (p, d) (m_params m) -> p = parameter m o -> d = argument o (o_default o).
Proof.
  intros m o p d M I R S G D J E. assert (T := pairs_equal). rewrite Forall_forall in T.
  specialize (T (d, argument o (o_default o))). apply T. unfold pairs. apply in_flat_map. exists m. split; [assumption|].
  apply in_flat_map. exists o. split; [assumption|]. rewrite R, S, G, D. cbn [orb]. apply in_flat_map. exists (p, d). split; [assumption|].
  cbn [fst snd]. subst p. rewrite String.eqb_refl. left. reflexivity.
Qed.

Lemma lower_letter : forall c d, In (lower_ascii c, d) [("t", "t"); ("r", "r"); ("u", "u"); ("e", "e")]%char -> c = d \/ c = ascii_of_nat (nat_of_ascii d - 32).
Proof.
  intros [[|] [|] [|] [|] [|] [|] [|] [|]] d H; cbn in H; repeat (destruct H as [H|H]; [first [discriminate H|injection H as <-; vm_compute; tauto]|]); contradiction.
Qed.

Lemma lower_true : forall text, lower text = "true" <-> spells_true text.
Proof.
  intros text. split.
  - intros H. destruct text as [|t [|r [|u [|e [|x text]]]]]; try discriminate H. cbn [lower] in H. injection H as H1 H2 H3 H4.
    exists t, r, u, e. split; [reflexivity|].
    assert (K : forall c d, lower_ascii c = d -> In (d, d) [("t", "t"); ("r", "r"); ("u", "u"); ("e", "e")]%char -> In c [d; ascii_of_nat (nat_of_ascii d - 32)]).
    { intros c d E I. rewrite <- E in I at 1. destruct (lower_letter c d I) as [->| ->]; cbn; tauto. }
    repeat split; [apply (K t "t"%char)|apply (K r "r"%char)|apply (K u "u"%char)|apply (K e "e"%char)]; try assumption; cbn; tauto.
  - intros (t & r & u & e & -> & H1 & H2 & H3 & H4). cbn [In] in *.
    repeat match goal with H : _ \/ _ |- _ => destruct H as [<-|H] | H : False |- _ => contradiction end; reflexivity.
Qed.
