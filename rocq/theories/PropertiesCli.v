(** * C61, C81 and C82: the command line. *)
From Coq Require Import Reals String List Arith ZArith Lia Lra Bool Ascii.
From Verif Require Import Base ModelCli SpecCli ProofsCli.
Import ListNotations.
Local Open Scope string_scope.

(** Two values of an option give two different calls. *)
Theorem C61_reaches : forall int_of float_of m o flag cl v1 v2 x1 x2 c1 c2, In m methods -> In o (m_options m) -> In flag (o_flags o) -> ~ is_ignored m o ->
  convert int_of float_of o v1 = Some x1 -> convert int_of float_of o v2 = Some x2 -> x1 <> x2 ->
  run int_of float_of m (cl ++ [(flag, v1)]) = Ok c1 -> run int_of float_of m (cl ++ [(flag, v2)]) = Ok c2 -> c1 <> c2.
Proof.
  intros int_of float_of m o flag cl v1 v2 x1 x2 c1 c2 M I J G. apply reaches; try assumption.
  destruct (ignoredb m o) eqn:E; [|reflexivity]. apply ignoredb_iff in E. contradiction.
Qed.

(** The value is passed as the parameter that the option is named after. *)
Theorem C61_parameter : forall int_of float_of m o cl v c, In m methods -> In o (m_options m) -> ~ is_ignored m o -> special (m_action m) (o_dest o) = false ->
  run int_of float_of m cl = Ok c -> has_value (convert int_of float_of) cl o v -> In (parameter m o, argument o v) c.
Proof.
  intros int_of float_of m o cl v c M I G S. apply named; try assumption.
  destruct (ignoredb m o) eqn:E; [|reflexivity]. apply ignoredb_iff in E. contradiction.
Qed.

(** The files that are named are the files that are read. *)
Theorem C61_files : forall int_of float_of m cl c, In m methods -> run int_of float_of m cl = Ok c ->
  let value := has_value (convert int_of float_of) cl in
  (forall o v, In o (m_options m) -> o_dest o = "paramfile" -> value o v -> In ("problem", VProblem v) c)
  /\ (forall o1 o2 o3 f d k, In o1 (m_options m) -> In o2 (m_options m) -> In o3 (m_options m) -> o_dest o1 = "model_output_file" -> o_dest o2 = "delimiter" ->
        o_dest o3 = "column" -> value o1 f -> value o2 d -> value o3 k -> m_action m = "analyze" -> exists n, In ("Y", VTable f d (Some k) n) c)
  /\ (forall o1 o2 f d, In o1 (m_options m) -> In o2 (m_options m) -> o_dest o1 = "model_input_file" -> o_dest o2 = "delimiter" ->
        value o1 f -> value o2 d -> exists n, In ("X", VTable f d None n) c).
Proof. intros int_of float_of m cl c M R value. exact (files int_of float_of m cl c M R). Qed.

(** Without a file to read or write nothing is called: the parameter file, the sample's and the outputs' files have to be named, and so does every
    option without a default. *)
Theorem C61_required : forall int_of float_of m o cl, In m methods -> In o (m_options m) -> ~ occurs o cl ->
  (o_required o = true -> run int_of float_of m cl = Err UserError)
  /\ (In (o_dest o) ["paramfile"; "samples"; "output"; "model_output_file"; "model_input_file"; "local"; "extended_base"; "poly_order"] ->
      run int_of float_of m cl = Err UserError).
Proof.
  intros int_of float_of m o cl M I N.
  assert (K : o_required o = true -> run int_of float_of m cl = Err UserError).
  { intros R. unfold run, parse_args. destruct (parse_from int_of float_of (m_options m) (defaults (m_options m)) cl) as [ns|e] eqn:E.
    - cbn [bind]. replace (forallb _ (m_options m)) with false; [reflexivity|]. symmetry.
      destruct (forallb _ (m_options m)) eqn:F; [|reflexivity]. rewrite forallb_forall in F. specialize (F o I). rewrite R in F. cbn in F.
      apply given_iff in F. contradiction.
    - cbn [bind]. f_equal. revert E. generalize (defaults (m_options m)). clear. induction cl as [|[f t] cl IH]; intros ns E; [discriminate|].
      cbn [parse_from] in E. destruct (find _ (m_options m)) as [o|]; [|injection E as <-; reflexivity].
      destruct (convert int_of float_of o t); [apply (IH _ E)|injection E as <-; reflexivity]. }
  split; [exact K|]. intros D. apply K.
  assert (A : forallb (fun m => forallb (fun o => negb (existsb (String.eqb (o_dest o)) ["paramfile"; "samples"; "output"; "model_output_file"; "model_input_file";
    "local"; "extended_base"; "poly_order"]) || o_required o) (m_options m)) methods = true) by (vm_compute; reflexivity).
  rewrite forallb_forall in A. specialize (A m M). rewrite forallb_forall in A. specialize (A o I).
  replace (existsb _ _) with true in A; [exact A|]. symmetry. apply existsb_exists. exists (o_dest o). split; [exact D|apply String.eqb_refl].
Qed.

(** Unless told otherwise an analysis reads the first column of the outputs, separated by blanks, and unseeded. *)
Theorem C61_column : forall int_of float_of m cl c, In m methods -> m_action m = "analyze" -> run int_of float_of m cl = Ok c ->
  (forall flag text, In (flag, text) cl -> ~ In flag ["-c"; "--column"; "--delimiter"]) ->
  exists f n, In ("Y", VTable f (VStr " ") (Some (VInt 0)) n) c.
Proof.
  intros int_of float_of m cl c M A E N.
  assert (O : forall o, In o analyze_options -> In o (m_options m)).
  { intros o I. unfold methods in M. cbn [In] in M. repeat (destruct M as [<-|M]; [first [discriminate A|cbn [m_options]; apply in_or_app; left; exact I|exact I]|]). contradiction. }
  set (oy := req ["-Y"; "--model-output-file"] "model_output_file" TStr).
  assert (V : exists f, has_value (convert int_of float_of) cl oy f).
  { assert (Hocc : occurs oy cl).
    { apply given_iff. destruct (given cl oy) eqn:G; [reflexivity|]. exfalso.
      destruct (C61_required int_of float_of m oy cl M) as [R _]; [apply O; cbn; tauto|intros H; apply given_iff in H; congruence|].
      rewrite R in E by reflexivity. discriminate. }
    assert (L : exists cl1 flag text cl2, cl = (cl1 ++ (flag, text) :: cl2)%list /\ In flag (o_flags oy) /\ ~ occurs oy cl2).
    { clear E N. induction cl as [|[f t] cl IH]; [destruct Hocc as (? & ? & H & _); contradiction|].
      destruct (given cl oy) eqn:G.
      - apply given_iff in G. destruct (IH G) as (cl1 & flag & text & cl2 & -> & P & Q). exists ((f, t) :: cl1), flag, text, cl2. repeat split; assumption.
      - exists [], f, t, cl. split; [reflexivity|]. assert (NO : ~ occurs oy cl) by (intros P; apply given_iff in P; congruence). split; [|assumption].
        destruct Hocc as (f' & t' & [H|H] & J); [injection H as -> ->; assumption|]. exfalso. apply NO. exists f', t'. split; assumption. }
    destruct L as (cl1 & flag & text & cl2 & -> & P & Q). exists (VStr text). right. exists cl1, flag, text, cl2. repeat split; assumption. }
  destruct V as [f V]. exists f.
  set (oc := nth 2 analyze_options order_option). set (od := nth 3 analyze_options order_option).
  assert (NC : ~ occurs oc cl /\ ~ occurs od cl).
  { split; intros (flag & text & I & J); apply (N flag text I); cbn in J |- *; tauto. }
  destruct (C61_files int_of float_of m cl c M E) as (_ & F & _).
  destruct (F oy od oc f (VStr " ") (VInt 0)) as [n Hn]; try assumption; try reflexivity; try (apply O; cbn; tauto).
  all: try (left; split; [tauto|reflexivity]).
  exists n. exact Hn.
Qed.

(** The two words of the command select the method, and a pair of words that names no method is refused. *)
Theorem C61_dispatch : forall int_of float_of action name cl,
  (forall m, In m methods -> m_action m = action -> m_name m = name -> salib int_of float_of action name cl = run int_of float_of m cl)
  /\ ((forall m, In m methods -> m_action m <> action \/ m_name m <> name) -> salib int_of float_of action name cl = Err UserError).
Proof.
  intros int_of float_of action name cl. split.
  - intros m I <- <-. unfold methods in I. cbn [In] in I. repeat (destruct I as [<-|I]; [reflexivity|]). contradiction.
  - intros H. unfold salib. destruct (find _ methods) as [m|] eqn:F; [|reflexivity].
    apply find_some in F. destruct F as [I F]. apply andb_prop in F. destruct F as [A B].
    apply String.eqb_eq in A. apply String.eqb_eq in B. destruct (H m I); contradiction.
Qed.

(** Five options have no effect. *)
Theorem C61_ignored_refuted : forall int_of float_of m o flag cl v1 v2 c1 c2, In m methods -> In o (m_options m) -> In flag (o_flags o) -> is_ignored m o ->
  run int_of float_of m (cl ++ [(flag, v1)]) = Ok c1 -> run int_of float_of m (cl ++ [(flag, v2)]) = Ok c2 -> c1 = c2.
Proof.
  intros int_of float_of m o flag cl v1 v2 c1 c2 M I J G. apply ignored_same with (o := o); try assumption. apply ignoredb_iff. assumption.
Qed.
(** They exist, and are accepted. *)
Theorem C61_ignored_exist_refuted : forall action name dest, In (action, name, dest) ignored ->
  exists m o, In m methods /\ m_action m = action /\ m_name m = name /\ In o (m_options m) /\ o_dest o = dest /\ o_type o = TInt /\
    forall int_of float_of, int_of "1" = Some 1%Z -> int_of "2" = Some 2%Z -> exists cl c, run int_of float_of m (cl ++ [(long o, "1")]) = Ok c
      /\ run int_of float_of m (cl ++ [(long o, "2")]) = Ok c.
Proof.
  intros action name dest H.
  set (cs := [("-n", "1"); ("-p", "p"); ("-o", "o")]). set (ca := [("-p", "p"); ("-Y", "y"); ("-X", "x")]).
  unfold ignored in H. cbn [In] in H. repeat (destruct H as [H|H]); try contradiction; injection H as <- <- <-.
  - exists s_ff, (nth 0 sample_options order_option). repeat split; try (vm_compute; tauto).
    intros int_of float_of A B. exists cs. eexists. unfold cs, run, parse_args. cbn. rewrite A, B. cbn. split; reflexivity.
  - exists s_sobol, (nth 3 sample_options order_option). repeat split; try (vm_compute; tauto).
    intros int_of float_of A B. exists cs. eexists. unfold cs, run, parse_args. cbn. rewrite A, B. cbn. split; reflexivity.
  - exists s_sobol, (may ["--skip-values"] "skip_values" TInt VNone). repeat split; try (vm_compute; tauto).
    intros int_of float_of A B. exists cs. eexists. unfold cs, run, parse_args. cbn. rewrite A, B. cbn. split; reflexivity.
  - exists a_hdmr, (nth 4 analyze_options order_option). repeat split; try (vm_compute; tauto).
    intros int_of float_of A B. exists ca. eexists. unfold ca, run, parse_args. cbn. rewrite A, B. cbn. split; reflexivity.
  - exists a_ehdmr, (nth 4 analyze_options order_option). repeat split; try (vm_compute; tauto).
    intros int_of float_of A B. exists (ca ++ [("-mor", "1"); ("-por", "1"); ("-ext", "true")])%list. eexists. unfold ca, run, parse_args. cbn. rewrite A, B. cbn.
    split; reflexivity.
Qed.

(** Leaving an option out means the library's default. *)
Theorem C81_default_partial : forall int_of float_of m o cl c d, In m methods -> In o (m_options m) -> o_required o = false ->
  special (m_action m) (o_dest o) = false -> ~ is_ignored m o -> ~ differs m o -> ~ occurs o cl ->
  run int_of float_of m cl = Ok c -> In (parameter m o, d) (m_params m) -> In (parameter m o, d) c.
Proof.
  intros int_of float_of m o cl c d M I R S G D N E P.
  assert (G' : ignoredb m o = false) by (destruct (ignoredb m o) eqn:Q; [apply ignoredb_iff in Q; contradiction|reflexivity]).
  assert (D' : differsb m o = false) by (destruct (differsb m o) eqn:Q; [apply differsb_differs in Q; contradiction|reflexivity]).
  rewrite (default_agrees m o _ d M I R S G' D' P eq_refl). apply (named int_of float_of m o cl); try assumption. left. split; [assumption|reflexivity].
Qed.

(** Seven options mean something else. *)
Theorem C81_default_refuted : forall m dest p cli lib, In (m, dest, p, cli, lib) differing ->
  In m methods /\ In (p, lib) (m_params m) /\ cli <> lib /\ exists o, In o (m_options m) /\ o_dest o = dest /\ parameter m o = p /\
  forall int_of float_of cl c, ~ occurs o cl -> run int_of float_of m cl = Ok c -> In (p, cli) c.
Proof.
  intros m dest p cli lib H.
  assert (K : forall o, In m methods -> In o (m_options m) -> ignoredb m o = false -> special (m_action m) (o_dest o) = false ->
    forall int_of float_of cl c, ~ occurs o cl -> run int_of float_of m cl = Ok c -> In (parameter m o, argument o (o_default o)) c).
  { intros o M I G S int_of float_of cl c N E. apply (named int_of float_of m o cl); try assumption. left. split; [assumption|reflexivity]. }
  unfold differing in H. cbn [In] in H. repeat (destruct H as [H|H]); try contradiction; injection H as <- <- <- <- <-.
  all: split; [unfold methods; cbn [In]; tauto|]; split; [cbn [m_params a_morris a_dgsm a_delta a_pawn a_rsa a_ff In]; tauto|]; split; [discriminate|].
  all: match goal with |- context [o_dest _ = ?d] => match goal with |- context [m_options ?mm] =>
    let o := eval cbn in (find (fun o => o_dest o =? d) (m_options mm)) in match o with Some ?x => exists x end end end.
  all: split; [cbn; tauto|]; split; [reflexivity|]; split; [reflexivity|].
  all: intros int_of float_of cl c N E; match type of N with ~ occurs ?o _ =>
    refine (K o _ _ _ _ int_of float_of cl c N E); [unfold methods; cbn [In]; tauto|cbn; tauto|reflexivity|reflexivity] end.
Qed.

(** enhanced_hdmr's boolean options read "true", in any capitalisation, as true and everything else, such as "false", as false. *)
Theorem C82_text_partial : forall int_of float_of o cl text c, In o (m_options a_ehdmr) ->
  In (o_dest o) ["extended_base"; "print_to_console"; "return_emulator"] -> run int_of float_of a_ehdmr (cl ++ [(long o, text)]) = Ok c ->
  (spells_true text -> In (o_dest o, VBool true) c) /\ (~ spells_true text -> In (o_dest o, VBool false) c).
Proof.
  intros int_of float_of o cl text c I J E. rewrite <- !lower_true.
  assert (K : In (long o) (o_flags o) /\ convert int_of float_of o text = Some (VBool (lower text =? "true")) /\ o_choices o = None /\ meant (long o) = o_dest o
    /\ ignoredb a_ehdmr o = false /\ special "analyze" (o_dest o) = false).
  { cbn [a_ehdmr m_options analyze_options app In] in I. repeat (destruct I as [<-|I]); try contradiction; cbn [o_dest may req input_file In] in J;
      repeat (destruct J as [J|J]; try discriminate); try contradiction; vm_compute; repeat split; tauto. }
  destruct K as (K1 & K2 & K3 & K4 & K5 & K6).
  assert (V : In (parameter a_ehdmr o, argument o (VBool (lower text =? "true"))) c).
  { apply (named int_of float_of a_ehdmr o (cl ++ [(long o, text)])%list); try assumption; [unfold methods; cbn [In]; tauto|].
    right. exists cl, (long o), text, []. split; [reflexivity|]. split; [assumption|]. split; [|assumption]. intros (? & ? & H & _). contradiction. }
  unfold parameter, argument in V. rewrite K3, K4 in V. split; intros H.
  - rewrite H in V. exact V.
  - apply String.eqb_neq in H. rewrite H in V. exact V.
Qed.

(** Morris reads every text but the empty one as true, "False" among them. *)
Theorem C82_morris_refuted : forall int_of float_of cl text c, text <> "" ->
  (run int_of float_of s_morris (cl ++ [("--local", text)]) = Ok c -> In ("local_optimization", VBool true) c)
  /\ (run int_of float_of a_morris (cl ++ [("--scaled", text)]) = Ok c -> In ("scaled", VBool true) c).
Proof.
  intros int_of float_of cl text c N. apply String.eqb_neq in N. split; intros E.
  - assert (C : convert int_of float_of (req ["-lo"; "--local"] "local" TBool) text = Some (VBool true)) by (unfold convert; cbn [o_type req]; rewrite N; reflexivity).
    refine (named int_of float_of s_morris (req ["-lo"; "--local"] "local" TBool) (cl ++ [("--local", text)])%list _ c _ _ _ _ E _);
      [unfold methods; cbn [In]; tauto|cbn; tauto|reflexivity|reflexivity|].
    right. exists cl, "--local", text, []. split; [reflexivity|]. split; [cbn; tauto|]. split; [|exact C]. intros (? & ? & H & _). contradiction.
  - assert (C : convert int_of float_of (may ["--scaled"] "scaled" TBool (VBool false)) text = Some (VBool true)) by (unfold convert; cbn [o_type may]; rewrite N; reflexivity).
    refine (named int_of float_of a_morris (may ["--scaled"] "scaled" TBool (VBool false)) (cl ++ [("--scaled", text)])%list _ c _ _ _ _ E _);
      [unfold methods; cbn [In]; tauto|cbn; tauto|reflexivity|reflexivity|].
    right. exists cl, "--scaled", text, []. split; [reflexivity|]. split; [cbn; tauto|]. split; [|exact C]. intros (? & ? & H & _). contradiction.
Qed.

(** Sobol's flag takes no text. *)
Theorem C82_parallel : forall int_of float_of cl c, run int_of float_of a_sobol cl = Ok c -> forall o, In o (m_options a_sobol) -> o_dest o = "parallel" ->
  (occurs o cl -> In ("parallel", VBool true) c) /\ (~ occurs o cl -> In ("parallel", VBool false) c).
Proof.
  intros int_of float_of cl c E o I D.
  assert (o = may ["--parallel"] "parallel" TFlag (VBool false)) as ->.
  { cbn [a_sobol m_options analyze_options app In] in I. repeat (destruct I as [<-|I]); try contradiction; try discriminate D. reflexivity. }
  clear I D. set (o := may ["--parallel"] "parallel" TFlag (VBool false)).
  assert (K : forall v, has_value (convert int_of float_of) cl o v -> In ("parallel", v) c).
  { intros v V. refine (named int_of float_of a_sobol o cl v c _ _ _ _ E V); [unfold methods; cbn [In]; tauto|cbn; tauto|reflexivity|reflexivity]. }
  split; intros H.
  - apply K. right.
    (* split the command line at the last occurrence *)
    assert (L : exists cl1 flag text cl2, cl = (cl1 ++ (flag, text) :: cl2)%list /\ In flag (o_flags o) /\ ~ occurs o cl2).
    { clear E K. induction cl as [|[f t] cl IH]; [destruct H as (? & ? & H & _); contradiction|].
      destruct (given cl o) eqn:G.
      - apply given_iff in G. destruct (IH G) as (cl1 & flag & text & cl2 & -> & A & B). exists ((f, t) :: cl1), flag, text, cl2. repeat split; assumption.
      - exists [], f, t, cl. split; [reflexivity|]. assert (NO : ~ occurs o cl) by (intros O; apply given_iff in O; congruence). split; [|assumption].
        destruct H as (f' & t' & [H|H] & J); [injection H as -> ->; assumption|]. exfalso. apply NO. exists f', t'. split; assumption. }
    destruct L as (cl1 & flag & text & cl2 & -> & A & B). exists cl1, flag, text, cl2. repeat split; try assumption.
    unfold run, parse_args in E. rewrite parse_from_app in E. destruct (parse_from int_of float_of (m_options a_sobol) (defaults (m_options a_sobol)) cl1) as [b|]; [|discriminate].
    destruct A as [<-|[]]. cbn [bind parse_from a_sobol m_options analyze_options app find existsb o_flags may req order_option String.eqb Ascii.eqb Bool.eqb orb] in E.
    unfold convert in E |- *. cbn [o_type o may] in E |- *. destruct (text =? ""); [reflexivity|discriminate].
  - apply K. left. split; [assumption|reflexivity].
Qed.

(** salib analyze rsa -p p.txt -X x.txt -Y y.txt -b 5: five bins, and no target at all. *)
Example ex_rsa : forall int_of float_of, int_of "5" = Some 5%Z ->
  salib int_of float_of "analyze" "rsa" [("-p", "p.txt"); ("-X", "x.txt"); ("-Y", "y.txt"); ("-b", "5")] =
  Ok [("problem", VProblem (VStr "p.txt")); ("X", VTable (VStr "x.txt") (VStr " ") None 0); ("Y", VTable (VStr "y.txt") (VStr " ") (Some (VInt 0)) 0);
      ("bins", VInt 5); ("target", VNone); ("print_to_console", VBool true); ("seed", VNone)].
Proof. intros int_of float_of H. unfold salib, run, parse_args. cbn. rewrite H. reflexivity. Qed.

(** salib analyze fast without -Y is refused. *)
Example ex_required : forall int_of float_of, salib int_of float_of "analyze" "fast" [("-p", "p.txt")] = Err UserError.
Proof. reflexivity. Qed.

(** salib sample morris … -lo False optimises locally; without -lo it is refused. *)
Example ex_morris : forall int_of float_of, int_of "7" = Some 7%Z ->
  (exists c, salib int_of float_of "sample" "morris" [("-n", "7"); ("-p", "p"); ("-o", "o"); ("-lo", "False")] = Ok c /\ In ("local_optimization", VBool true) c)
  /\ salib int_of float_of "sample" "morris" [("-n", "7"); ("-p", "p"); ("-o", "o")] = Err UserError.
Proof.
  intros int_of float_of H. split.
  - eexists. split; [unfold salib, run, parse_args; cbn; rewrite H; reflexivity|]. cbn. tauto.
  - unfold salib, run, parse_args. cbn. rewrite H. reflexivity.
Qed.

(** An enhanced_hdmr call with extended_base "False", and one of sobol with the flag. *)
Example ex_text : forall int_of float_of, int_of "1" = Some 1%Z ->
  (exists c, run int_of float_of a_ehdmr ([("-p", "p"); ("-Y", "y"); ("-X", "x"); ("-mor", "1"); ("-por", "1")] ++ [("--extended-base", "False")]) = Ok c
     /\ In ("extended_base", VBool false) c)
  /\ exists c, run int_of float_of a_sobol [("-p", "p"); ("-Y", "y"); ("--parallel", "")] = Ok c /\ In ("parallel", VBool true) c.
Proof.
  intros int_of float_of H. split; eexists; (split; [unfold run, parse_args; cbn; try rewrite H; reflexivity|]); cbn; tauto.
Qed.

Print Assumptions C61_reaches.
Print Assumptions C61_parameter.
Print Assumptions C61_files.
Print Assumptions C61_required.
Print Assumptions C61_column.
Print Assumptions C61_dispatch.
Print Assumptions C61_ignored_refuted.
Print Assumptions C61_ignored_exist_refuted.
Print Assumptions C81_default_partial.
Print Assumptions C81_default_refuted.
Print Assumptions C82_text_partial.
Print Assumptions C82_morris_refuted.
Print Assumptions C82_parallel.
