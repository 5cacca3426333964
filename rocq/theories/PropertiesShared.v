(** * C101-C103: what calls do to other results and problems through shared lists. *)
From Coq Require Import Reals String List Arith Bool Lia.
From Verif Require Import Base ModelGroups ModelScale ModelFF ModelShared SpecShared ProofsShared ProofsShared2 ProofsShared3.
Import ListNotations.
Local Open Scope nat_scope.
Local Open Scope string_scope.
Local Open Scope list_scope.

(** ** C101: results already obtained *)

(** Whatever sequence of samplings and analyses follows (failing or not), as long as no list of names is extended, a result's table stays as it was, and problems
    change only in the default for groups and the samplers' mark. *)
Theorem C101_kept : forall s cs, sound s -> Forall (harmless s) cs ->
  (forall r, In r (s_reports s) -> In r (s_reports (run cs s)) /\ table (run cs s) r = table s r) /\
  (forall k o, nth_error (s_dicts s) k = Some o -> exists o', nth_error (s_dicts (run cs s)) k = Some o' /\ same_problem (view s o) (view (run cs s) o')).
Proof.
  intros s cs S H. pose proof (run_keeps cs s S H) as K. split.
  - intros r I. split; [|apply keeps_table; auto]. destruct K as (_ & _ & _ & _ & rs & ->). apply in_or_app; auto.
  - intros k o N. destruct (proj1 S _ _ N) as (B & Bg). pose proof K as (_ & _ & _ & K4 & _). destruct (K4 _ _ N) as (o' & N' & R). exists o'. split; auto. apply regroup_view; auto.
Qed.
Print Assumptions C101_kept.

(** The result of an analysis of a well-formed problem without groups can be made into a table at once, and its first rows are the parameters. *)
Theorem C101_fresh : forall s c o s' r, sound s -> nth_error (s_dicts s) (target c) = Some o ->
  matched (view s o) -> NoDup (p_names (view s o)) -> no_groups (view s o) ->
  step s c = (s', None) -> s_reports s' = s_reports s ++ [r] -> exists tail, table s' r = Ok (p_names (view s o) ++ tail)%list.
Proof. exact fresh_table. Qed.
Print Assumptions C101_fresh.

(** Fractional factorial sampling of a problem whose size is not a power of two makes every earlier result that shares the list of names impossible to tabulate,
    whether or not the sampling succeeds; so do Sobol' results of the problem. *)
Theorem C101_padded_refuted : forall s k o rest r l, sound s -> nth_error (s_dicts s) k = Some o -> o_num o <= 512 -> ~ power_of_two (o_num o) ->
  In r (s_reports s) -> table s r = Ok l ->
  r_labels r = At (o_names o) \/ (r_labels r = OfProblem k /\ ungrouped o /\ forall j, ~ In (dummy_name j) (content s (o_names o))) ->
  table (fst (step s (FfSample k rest))) r = Err ValueError.
Proof. exact padded_tables. Qed.
Print Assumptions C101_padded_refuted.

(** So does an enhanced HDMR of second or third order, even one that fails. *)
Theorem C101_ehdmr_refuted : forall s k o order fit r l, sound s -> nth_error (s_dicts s) k = Some o ->
  length (content s (o_names o)) = o_num o -> length (o_bounds o) = o_num o -> 2 <= o_num o -> 2 <= order ->
  In r (s_reports s) -> r_labels r = At (o_names o) -> table s r = Ok l -> table (fst (step s (Ehdmr k order None fit))) r = Err ValueError.
Proof. exact ehdmr_tables. Qed.
Print Assumptions C101_ehdmr_refuted.

(** Two problems over lists of their own; the second has explicit groups. *)
Definition unit_bounds (n : nat) : list (list R) := repeat [0; 1]%R n.
Definition start : state := mkState [["x1"; "x2"; "x3"]; ["y1"; "y2"; "y3"]; ["A"; "A"; "B"]]
  [mkDict 3 0 (unit_bounds 3) None None false false; mkDict 3 1 (unit_bounds 3) (Some 2) None false true] [].

Example ex_sound : sound start.
Proof. split; [|intros r []]. intros [|[|k]] o H; cbn in H; try discriminate; [| |destruct k; discriminate]; injection H as <-; cbn; (split; [lia|intros a E; try discriminate; injection E as <-; lia]). Qed.

Example ex_not_power : ~ power_of_two 3.
Proof. intros (x & E). destruct x as [|[|x]]; cbn in E; try lia. Qed.

(** FAST and Sobol' results of the first problem, then Morris and delta on it: the tables stay; then fractional factorial sampling: no table. *)
Example ex_kept : let s := run [ByName 0 None; SobolAnalyze 0 None] start in
  s_reports s = [mkReport (At 0) 3; mkReport (OfProblem 0) 3] /\
  map (table s) (s_reports s) = [Ok ["x1"; "x2"; "x3"]; Ok ["x1"; "x2"; "x3"]] /\
  (let s' := run [MorrisSample 0 None; MorrisAnalyze 0 (Some ValueError); ByName 1 None; Hdmr 0 2 None] s in map (table s') (s_reports s) = map (table s) (s_reports s)) /\
  (let s' := run [FfSample 0 None] s in map (table s') (s_reports s) = [Err ValueError; Err ValueError]) /\
  (let s' := run [Ehdmr 0 2 None (Some ValueError)] s in table s' (mkReport (At 0) 3) = Err ValueError).
Proof. vm_compute. repeat split. Qed.
Example ex_harmless : Forall (harmless start) [MorrisSample 0 None; MorrisAnalyze 0 (Some ValueError); ByName 1 None; Hdmr 0 2 None].
Proof. repeat constructor; intros o H; cbn in *; auto. injection H as <-. reflexivity. Qed.
Example ex_fresh : map (fun c => match step start c with (s', None) => map (table s') (s_reports s') | _ => [] end)
   [ByName 0 None; Discrepancy 0 None; Pawn 0 None; MorrisAnalyze 0 None; SobolAnalyze 0 None; FfAnalyze 0 None; Hdmr 0 2 None; Ehdmr 0 2 None None] =
  map (fun l => [Ok l]) [["x1"; "x2"; "x3"]; ["x1"; "x2"; "x3"]; ["x1"; "x2"; "x3"]; ["x1"; "x2"; "x3"]; ["x1"; "x2"; "x3"]; ["x1"; "x2"; "x3"; "dummy_0"];
     ["x1"; "x2"; "x3"; "x1/x2"; "x1/x3"; "x2/x3"]; ["x1"; "x2"; "x3"; "x1/x2"; "x1/x3"; "x2/x3"]].
Proof. reflexivity. Qed.

(** ** C102: names, bounds and groups keep matching the number of parameters *)

(** Over any session without HDMR of a ProblemSpec and without enhanced HDMR of second order or more. *)
Theorem C102_matched : forall s cs, sound s -> separate s -> (forall k o, nth_error (s_dicts s) k = Some o -> matched (view s o) /\ padding_safe s o) ->
  Forall (fun c => ~ names_terms s c) cs -> forall k o, nth_error (s_dicts (run cs s)) k = Some o -> matched (view (run cs s) o).
Proof. intros s cs S Sep M F k o N. exact (proj1 (proj2 (proj2 (tidy_run cs s (conj S (conj Sep M)) F)) k o N)). Qed.
Print Assumptions C102_matched.

(** Padding is what the value-level model of the sampler says, except that groups which are the list of names are padded as well. *)
Theorem C102_padding : forall nq tq s k o rest o', sound s -> nth_error (s_dicts s) k = Some o -> let s' := fst (step s (FfSample k rest)) in nth_error (s_dicts s') k = Some o' ->
  (o_groups o <> Some (o_names o) -> unmarked (view s' o') = unmarked (fst (ff_sample nq tq (view s o)))) /\
  (o_groups o = Some (o_names o) -> unmarked (view s' o') = grouped_by_name (unmarked (fst (ff_sample nq tq (view s o))))).
Proof.
  intros nq tq s k o rest o' S N s' N'. pose proof (ff_view nq tq s k o rest s' o' S N eq_refl N') as V. split; intros G.
  - rewrite V. destruct (o_groups o) as [a|]; auto. destruct (Nat.eqb_spec a (o_names o)); auto. congruence.
  - rewrite V, G, Nat.eqb_refl. auto.
Qed.
Print Assumptions C102_padding.

(** Morris' default for groups is what the value-level model says. *)
Theorem C102_default : forall s k o rest, nth_error (s_dicts s) k = Some o ->
  match define_problem_with_groups (view s o) with
  | Err e => step s (MorrisSample k rest) = (s, Some e) /\ step s (MorrisAnalyze k rest) = (s, Some e)
  | Ok p => (exists o', nth_error (s_dicts (fst (step s (MorrisSample k rest)))) k = Some o' /\ unmarked (view (fst (step s (MorrisSample k rest))) o') = unmarked p) /\
            (sound s -> exists o', nth_error (s_dicts (fst (step s (MorrisAnalyze k rest)))) k = Some o' /\ view (fst (step s (MorrisAnalyze k rest))) o' = p)
  end.
Proof. exact morris_view. Qed.
Print Assumptions C102_default.

(** With explicit groups, fractional factorial sampling leaves the groups unpadded: Morris refuses the problem from then on. *)
Theorem C102_explicit_refuted : forall s k o a rest rest', sound s -> nth_error (s_dicts s) k = Some o -> o_num o <= 512 -> ~ power_of_two (o_num o) ->
  o_groups o = Some a -> a <> o_names o -> content s a <> [] -> length (content s a) = o_num o ->
  let s1 := fst (step s (FfSample k rest)) in
  step s1 (MorrisSample k rest') = (s1, Some ValueError) /\ step s1 (MorrisAnalyze k rest') = (s1, Some ValueError).
Proof. exact explicit_breaks. Qed.
Print Assumptions C102_explicit_refuted.

(** HDMR of a ProblemSpec with interactions leaves more names than parameters; later results by name cannot be tabulated. *)
Theorem C102_spec_hdmr_refuted : forall s k o order, sound s -> nth_error (s_dicts s) k = Some o -> o_spec o = true ->
  length (content s (o_names o)) = o_num o -> 2 <= o_num o -> 2 <= order ->
  let s1 := fst (step s (Hdmr k order None)) in
  exists o1, nth_error (s_dicts s1) k = Some o1 /\ p_num_vars (view s1 o1) = o_num o /\ o_num o < length (p_names (view s1 o1)) /\
  exists s2 r, step s1 (ByName k None) = (s2, None) /\ s_reports s2 = (s_reports s1 ++ [r])%list /\ table s2 r = Err ValueError.
Proof. exact spec_breaks. Qed.
Print Assumptions C102_spec_hdmr_refuted.

(** Enhanced HDMR with interactions, after Morris has made the names the groups: Morris refuses the problem from then on. *)
Theorem C102_ehdmr_refuted : forall s k o order fit rest, sound s -> nth_error (s_dicts s) k = Some o -> o_groups o = Some (o_names o) ->
  length (content s (o_names o)) = o_num o -> length (o_bounds o) = o_num o -> 2 <= o_num o -> 2 <= order ->
  let s1 := fst (step s (Ehdmr k order None fit)) in
  step s1 (MorrisSample k rest) = (s1, Some ValueError) /\ step s1 (MorrisAnalyze k rest) = (s1, Some ValueError).
Proof. exact alias_breaks. Qed.
Print Assumptions C102_ehdmr_refuted.

Example ex_separate : separate start.
Proof.
  intros [|[|j]] oj J [|[|k]] ok K D; cbn in J, K; try congruence; try (destruct j; discriminate); try (destruct k; discriminate); injection J as <-; injection K as <-; cbn; split; congruence.
Qed.
(** Morris, then padding by the sampler and no padding by the analyser, then Morris again: four names, bounds and groups. *)
Example ex_matched : let s := run [MorrisSample 0 None; FfSample 0 None; FfAnalyze 0 None; MorrisAnalyze 0 None] start in
  map (view s) (firstn 1 (s_dicts s)) =
    [mkProblem 4 ["x1"; "x2"; "x3"; "dummy_0"] (unit_bounds 4) (Some ["x1"; "x2"; "x3"; "dummy_0"]) None true] /\
  map (table s) (s_reports s) = [Ok ["x1"; "x2"; "x3"; "dummy_0"]; Ok ["x1"; "x2"; "x3"; "dummy_0"]].
Proof. split; reflexivity. Qed.
Example ex_unmatched :
  snd (step (run [FfSample 1 None] start) (MorrisSample 1 None)) = Some ValueError /\
  snd (step start (MorrisSample 1 None)) = None /\
  snd (step (run [MorrisSample 0 None; Ehdmr 0 2 None None] start) (MorrisAnalyze 0 None)) = Some ValueError /\
  (let s := run [Hdmr 1 2 None; ByName 1 None] start in
   map (fun o => (o_num o, p_names (view s o))) (s_dicts s) = [(3, ["x1"; "x2"; "x3"]); (3, ["y1"; "y2"; "y3"; "y1/y2"; "y1/y3"; "y2/y3"])] /\
   map (table s) (s_reports s) = [Ok ["y1"; "y2"; "y3"; "y1/y2"; "y1/y3"; "y2/y3"]; Err ValueError]).
Proof. vm_compute. repeat split. Qed.

(** ** C103: problems that share no list do not affect one another *)

(** Whatever is done with the other problems, HDMR and padding included, problem [j] and the tables of its results stay as they are. *)
Theorem C103_frame : forall s cs j oj, sound s -> nth_error (s_dicts s) j = Some oj -> apart s j oj -> Forall (fun c => target c <> j) cs ->
  nth_error (s_dicts (run cs s)) j = Some oj /\ view (run cs s) oj = view s oj /\
  forall r, In r (s_reports s) -> r_labels r = At (o_names oj) \/ r_labels r = OfProblem j -> In r (s_reports (run cs s)) /\ table (run cs s) r = table s r.
Proof.
  intros s cs j oj S J A F. destruct (apart_run cs s j oj S J A F) as (J' & V & C & I). split; auto. split; auto. intros r R H. split; [auto|]. eapply frame_table; eauto.
Qed.
Print Assumptions C103_frame.

(** If the two were made from one list of names, fractional factorial sampling of one leaves the other with more names than parameters. *)
Theorem C103_shared_refuted : forall s j k oj ok rest, sound s -> nth_error (s_dicts s) j = Some oj -> nth_error (s_dicts s) k = Some ok -> j <> k ->
  o_names oj = o_names ok -> length (content s (o_names oj)) = o_num oj -> o_num ok <= 512 -> ~ power_of_two (o_num ok) ->
  let s1 := fst (step s (FfSample k rest)) in
  nth_error (s_dicts s1) j = Some oj /\ o_num oj < length (p_names (view s1 oj)) /\
  exists s2 r, step s1 (ByName j None) = (s2, None) /\ s_reports s2 = (s_reports s1 ++ [r])%list /\ table s2 r = Err ValueError.
Proof. exact shared_breaks. Qed.
Print Assumptions C103_shared_refuted.

Example ex_frame : let s := run [ByName 0 None] start in let s' := run [FfSample 1 None; Ehdmr 1 2 None None; Hdmr 1 2 None; ByName 1 None] s in
  table s' (mkReport (At 0) 3) = Ok ["x1"; "x2"; "x3"] /\ map (view s') (firstn 1 (s_dicts s')) = map (view s) (firstn 1 (s_dicts s)).
Proof. vm_compute. split; reflexivity. Qed.
Example ex_shared : let s := run [FfSample 1 None; ByName 0 None] (mkState [["x1"; "x2"; "x3"]]
   [mkDict 3 0 (unit_bounds 3) None None false false; mkDict 3 0 (unit_bounds 3) None None false false] []) in
  map (fun o => (o_num o, p_names (view s o))) (s_dicts s) = [(3, ["x1"; "x2"; "x3"; "dummy_0"]); (4, ["x1"; "x2"; "x3"; "dummy_0"])] /\
  map (table s) (s_reports s) = [Err ValueError].
Proof. vm_compute. split; reflexivity. Qed.
