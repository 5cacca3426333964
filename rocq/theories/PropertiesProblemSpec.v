(** * ProblemSpec: C47 - C52. *)
From Coq Require Import Reals DecimalString String List Arith ZArith Bool Lia.
From Verif Require Import Base Arrays ListFacts ModelGroups ModelProblemSpec SpecProblemSpec ProofsProblemSpec ProofsProblemSpec2 ProofsProblemSpec3.
Import ListNotations.
Local Open Scope nat_scope.

(** C47: after any history, failing calls included, samples and results have equally many rows, if the models of serial
    evaluations and directly assigned results do; parallel and distributed evaluations need no such assumption. *)
Theorem C47_rows : forall V Res Arg junk cpu ptqdm pathos a (s0 : spec V Res) (cs : list (call V Res Arg)),
  construct a = Ok s0 -> along junk cpu ptqdm pathos keeps_rows cs s0 -> same_rows (run junk cpu ptqdm pathos cs s0).
Proof. intros. eapply spec_rows; eauto. Qed.
Print Assumptions C47_rows.

(** C47: the results present were stored by a successful call made when the current samples were already there, and no call since
    has changed either. *)
Theorem C47_produced_after : forall V Res Arg junk cpu ptqdm pathos a (s0 : spec V Res) (cs : list (call V Res Arg)) Y,
  construct a = Ok s0 -> s_results (run junk cpu ptqdm pathos cs s0) = Some Y ->
  exists cs1 c cs2, cs = cs1 ++ c :: cs2 /\ stores_results c /\
    snd (step junk cpu ptqdm pathos (run junk cpu ptqdm pathos cs1 s0) c) = None /\
    forall pre post, cs2 = pre ++ post -> s_results (run junk cpu ptqdm pathos (cs1 ++ c :: pre) s0) = Some Y /\
      s_samples (run junk cpu ptqdm pathos (cs1 ++ c :: pre) s0) = s_samples (run junk cpu ptqdm pathos cs1 s0).
Proof. intros V Res Arg junk cpu ptqdm pathos a s0 cs Y C. apply spec_provenance. eapply construct_fresh; eauto. Qed.
Print Assumptions C47_produced_after.

(** C47: new samples discard the results; so does a sampler that raises.  Refused samples change nothing. *)
Theorem C47_new_samples : forall V Res (s : spec V Res),
  (forall f, s_results (fst (sample f s)) = None /\ s_analysis (fst (sample f s)) = None) /\
  (forall v s', assign_samples v s = (s', None) -> s_samples s' = v /\ s_results s' = None) /\
  (forall v s' e, assign_samples v s = (s', Some e) -> s' = s).
Proof.
  intros V Res s. split; [|split].
  - intros f. destruct (sample_cases f s) as (H1 & H2 & _). auto.
  - intros v s' H. destruct (assign_samples_cases v s) as [(e & E)|(m & E1 & E2 & E)]; rewrite E in H; [discriminate|]. injection H as <-. auto.
  - intros v s' e H. destruct (assign_samples_cases v s) as [(e' & E)|(m & E1 & E2 & E)]; rewrite E in H; [|discriminate]. injection H as <- _. auto.
Qed.
Print Assumptions C47_new_samples.

(** Two parameters, numbers are naturals, an analysis returns the sum of the outputs and its number of positional arguments. *)
Definition spec_ex_args : spec_args := mkArgs (Some ["a"; "b"]%string) (Some [[0; 1]; [0; 1]]%R) None None None.
Definition spec_ex : spec nat (nat * nat) :=
  mkSpec (mkProblem 2 ["a"; "b"]%string [[0; 1]; [0; 1]]%R (Some ["a"; "b"]%string) None false) None None None None.
Example spec_ex_built : construct spec_ex_args = Ok spec_ex.
Proof. reflexivity. Qed.
Definition ex_samples (n : nat) : value nat := Some (A2 (mkMat 2 (repeat [1; 2] n))).
Definition ex_step := @step nat (nat * nat) nat (fun _ _ => 99) 4 false true.
Definition ex_run := @run nat (nat * nat) nat (fun _ _ => 99) 4 false true.
Definition ex_sum (x : value nat) : result (value nat) :=
  match x with Some (A2 m) => Ok (Some (A1 (map (fun r => list_sum r) (rows m)))) | _ => Err TypeError end.
Definition ex_pairs (x : value nat) : result (value nat) :=
  match x with Some (A2 m) => Ok (Some (A2 (mkMat 2 (map (fun r => [list_sum r; 7]) (rows m))))) | _ => Err TypeError end.
(** [np.array([f(row) for row in X])] of no rows has shape (0,). *)
Definition ex_list_comprehension (x : value nat) : result (value nat) :=
  match x with
  | Some (A2 m) => if (length (rows m) =? 0) then Ok (Some (A1 [])) else Ok (Some (A2 (mkMat 2 (map (fun r => [list_sum r; 7]) (rows m)))))
  | _ => Err TypeError
  end.
Definition ex_total (y : arr nat) : nat := match y with A1 l => list_sum l | A2 m => list_sum (concat (rows m)) end.
(** The problem must be the first positional argument. *)
Definition ex_analysis : analyzer nat (nat * nat) nat :=
  mkAnalyzer false (fun ps _ y => match ps with PSelf _ :: r => Ok (ex_total y, length r) | _ => Err TypeError end).

Example C47_history : let cs := [CSample (fun _ => Ok (ex_samples 3)); CEvaluate (fun _ => Err RuntimeError) (Some 1%Z); CEvaluate ex_sum (Some 1%Z);
    CSetResults (Some (A1 [1; 2])); CSetSamples (Some (A2 (mkMat 3 []))); CAnalyze ex_analysis [] None] in
  along (fun _ _ => 99) 4 false true keeps_rows cs spec_ex /\
  s_results (ex_run cs spec_ex) = Some (A1 [3; 3; 3]) /\ s_samples (ex_run cs spec_ex) = ex_samples 3.
Proof.
  cbv zeta. split; [|split; reflexivity]. simpl along. repeat split; try discriminate.
  intros X Y. destruct X as [l|m]; simpl; [discriminate|]. intros E. injection E as <-. simpl. rewrite map_length. reflexivity.
Qed.

(** C47 is false of serial evaluation and of direct assignment: the number of rows is not checked. *)
Theorem C47_evaluate_refuted :
  (exists X Y, let s := ex_run [CSample (fun _ => Ok (ex_samples 3)); CEvaluate (fun _ => Ok (Some (A1 [5; 6]))) (Some 1%Z)] spec_ex in
     s_samples s = Some X /\ s_results s = Some Y /\ nrows X = 3 /\ nrows Y = 2) /\
  (exists X Y, let s := ex_run [CSample (fun _ => Ok (ex_samples 3)); CAssignResults (Some (A1 [5; 6]))] spec_ex in
     s_samples s = Some X /\ s_results s = Some Y /\ nrows X = 3 /\ nrows Y = 2).
Proof. split; eexists _, _; repeat split. Qed.
Print Assumptions C47_evaluate_refuted.

(** C48: if samples and results are replaced only while there is no analysis (sample clears it), an analysis present was
    computed by an analysing call from the samples and results now present.  Missing: other histories, see below. *)
Theorem C48_current_partial : forall V Res Arg junk cpu ptqdm pathos a (s0 : spec V Res) (cs : list (call V Res Arg)) A,
  construct a = Ok s0 -> along junk cpu ptqdm pathos (fun s c => replaces_data c -> s_analysis s = None) cs s0 ->
  s_analysis (run junk cpu ptqdm pathos cs s0) = Some A ->
  exists cs1 c cs2, cs = cs1 ++ c :: cs2 /\ analyses c /\
    s_analysis (fst (step junk cpu ptqdm pathos (run junk cpu ptqdm pathos cs1 s0) c)) = Some A /\
    s_samples (run junk cpu ptqdm pathos cs1 s0) = s_samples (run junk cpu ptqdm pathos cs s0) /\
    s_results (run junk cpu ptqdm pathos cs1 s0) = s_results (run junk cpu ptqdm pathos cs s0) /\
    s_results (run junk cpu ptqdm pathos cs s0) <> None.
Proof. intros V Res Arg junk cpu ptqdm pathos a s0 cs A C. apply spec_analysis. eapply construct_fresh; eauto. Qed.
Print Assumptions C48_current_partial.

(** C48: two rounds of sampling, evaluating and analysing. *)
Example C48_rounds : let round n := [CSample (fun _ => Ok (ex_samples n)); CEvaluate ex_sum (Some 1%Z); CAnalyze ex_analysis [] None] in
  along (fun _ _ => 99) 4 false true (fun s c => replaces_data c -> s_analysis s = None) (round 2 ++ round 3) spec_ex /\
  s_analysis (ex_run (round 2 ++ round 3) spec_ex) = Some (Single (9, 0)).
Proof. cbv zeta. split; [|reflexivity]. simpl. repeat split; intros; try contradiction. Qed.

(** C48 is false in general: every way of replacing samples or results other than [sample] keeps an old analysis. *)
Theorem C48_stale_refuted :
  (forall V Res Arg junk cpu ptqdm pathos (s : spec V Res) (c : call V Res Arg), replaces_data c ->
     s_analysis (fst (step junk cpu ptqdm pathos s c)) = s_analysis s) /\
  (exists s, s = ex_run [CSample (fun _ => Ok (ex_samples 2)); CEvaluate ex_sum (Some 1%Z); CAnalyze ex_analysis [] None; CSetResults (Some (A1 [10; 20]))] spec_ex /\
     s_analysis s = Some (Single (6, 0)) /\ s_results s = Some (A1 [10; 20]) /\
     s_analysis (fst (ex_step s (CAnalyze ex_analysis [] None))) = Some (Single (30, 0))) /\
  (exists s, s = ex_run [CSample (fun _ => Ok (ex_samples 2)); CEvaluate ex_sum (Some 1%Z); CAnalyze ex_analysis [] None; CSetSamples (ex_samples 5)] spec_ex /\
     s_analysis s = Some (Single (6, 0)) /\ s_results s = None).
Proof.
  split; [intros; apply spec_stale; auto|]. split; eexists; split; try reflexivity; repeat split.
Qed.
Print Assumptions C48_stale_refuted.

(** C49: one number per row: any number of processors, also through evaluate's nprocs and on a cluster, gives what the serial
    evaluation gives: same results or same exception. *)
Theorem C49_one_output : forall V Res junk cpu f g (s : spec V Res) x, 1 <= cpu -> s_samples s = Some (A2 x) -> rowwise1 g f ->
  (forall np, (forall z, np = Some z -> (1 <= z)%Z) -> evaluate_parallel junk cpu false f np s = evaluate junk cpu false f (Some 1%Z) s) /\
  (forall z, evaluate junk cpu false f (Some z) s = evaluate junk cpu false f (Some 1%Z) s) /\
  (forall n k, (1 <= n)%Z -> 1 <= k -> evaluate_distributed junk true f n (Some k) s = evaluate junk cpu false f (Some 1%Z) s).
Proof. intros. eapply spec_parallel1; eauto. Qed.
Print Assumptions C49_one_output.

(** C49: [k] numbers per row, for a model that returns an array of [k] columns even for no rows. *)
Theorem C49_several_outputs : forall V Res junk cpu f k g (s : spec V Res) x, 1 <= cpu -> s_samples s = Some (A2 x) -> rowwise2 k g f ->
  (forall np, (forall z, np = Some z -> (1 <= z)%Z) -> evaluate_parallel junk cpu false f np s = evaluate junk cpu false f (Some 1%Z) s) /\
  (forall z, evaluate junk cpu false f (Some z) s = evaluate junk cpu false f (Some 1%Z) s) /\
  (forall n k, (1 <= n)%Z -> 1 <= k -> evaluate_distributed junk true f n (Some k) s = evaluate junk cpu false f (Some 1%Z) s).
Proof. intros. eapply spec_parallel2; eauto. Qed.
Print Assumptions C49_several_outputs.

(** C49: any row-by-row model, when there are no more processors than samples. *)
Theorem C49_few_processors : forall V Res junk cpu f k g (s : spec V Res) x np, 1 <= cpu -> s_samples s = Some (A2 x) -> rowwise2_nonempty k g f ->
  (forall z, np = Some z -> (1 <= z)%Z) -> (cpu <= length (rows x) \/ exists z, np = Some z /\ (z <= Z.of_nat (length (rows x)))%Z) ->
  evaluate_parallel junk cpu false f np s = evaluate junk cpu false f (Some 1%Z) s.
Proof. intros. eapply spec_parallel3; eauto. Qed.
Print Assumptions C49_few_processors.

Example C49_five_rows : rowwise1 (fun r => list_sum r) ex_sum /\ rowwise2 2 (fun r => [list_sum r; 7]) ex_pairs /\
  s_results (ex_run [CSample (fun _ => Ok (Some (A2 (mkMat 2 [[1; 2]; [3; 4]; [5; 6]; [7; 8]; [9; 10]])))); CEvaluateParallel ex_sum (Some 3%Z)] spec_ex) = Some (A1 [3; 7; 11; 15; 19]) /\
  s_results (ex_run [CSample (fun _ => Ok (Some (A2 (mkMat 2 [[1; 2]; [3; 4]])))); CEvaluate ex_pairs (Some 7%Z)] spec_ex) = Some (A2 (mkMat 2 [[3; 7]; [7; 7]])).
Proof. repeat split. Qed.

(** C49 is false when p_tqdm is installed: every parallel evaluation raises TypeError. *)
Theorem C49_progress_bar_refuted : forall V Res junk cpu f (s : spec V Res) x np, s_samples s = Some x -> 1 <= cpu -> (forall z, np = Some z -> (1 <= z)%Z) ->
  evaluate_parallel junk cpu true f np s = (s, Some TypeError).
Proof. intros V Res junk cpu f s x np E C P. eapply spec_ptqdm; eauto. apply workers_pos; auto. Qed.
Print Assumptions C49_progress_bar_refuted.

(** C49 is false for models that lose the number of outputs when given no rows: with more processors than samples they raise. *)
Theorem C49_empty_chunk_refuted : rowwise2_nonempty 2 (fun r => [list_sum r; 7]) ex_list_comprehension /\
  let s := ex_run [CSample (fun _ => Ok (ex_samples 2))] spec_ex in
  s_results (fst (ex_step s (CEvaluate ex_list_comprehension (Some 1%Z)))) = Some (A2 (mkMat 2 [[3; 7]; [3; 7]])) /\
  snd (ex_step s (CEvaluate ex_list_comprehension (Some 3%Z))) = Some ValueError.
Proof.
  split; [|split; reflexivity]. split; [reflexivity|]. intros m N. unfold ex_list_comprehension. destruct (rows m); [contradiction|]. reflexivity.
Qed.
Print Assumptions C49_empty_chunk_refuted.

(** The analysis of one output: the function applied to the problem, X if it has such a parameter, and Y. *)
Definition analysis_of {V Res Arg} (a : analyzer V Res Arg) (s : spec V Res) (y : list V) : result Res :=
  an_fun a [PSelf (s_prob s)] (if an_X a then Some (s_samples s) else None) (A1 y).

(** C50: with several distinctly named outputs each name gets the analysis of its column, in order; serial and parallel calls
    store the same, with p_tqdm or without, and raise the first output's exception if one fails. *)
Theorem C50_per_output : forall V Res Arg cpu ptqdm (a : analyzer V Res Arg) (s : spec V Res) m o,
  p_num_vars (s_prob s) <> 1 -> 1 <= cpu ->
  s_results s = Some (A2 m) -> well_shaped m -> s_outputs s = Some o -> length o = cols m -> 1 < length o -> NoDup o ->
  exists ys, length ys = length o /\ (forall i y, nth_error ys i = Some y -> is_column m i y) /\
    forall np n, np = None \/ np = Some n -> (forall z, n = Some z -> (1 <= z)%Z) ->
      (forall rs, mapM (analysis_of a s) ys = Ok rs ->
         let done := (mkSpec (s_prob s) (s_outputs s) (s_samples s) (s_results s) (Some (PerOutput (combine o rs))), None) in
         analyze cpu ptqdm a [] np s = done /\ analyze_parallel cpu ptqdm a [] n s = done) /\
      (forall e, mapM (analysis_of a s) ys = Err e -> snd (analyze cpu ptqdm a [] np s) = Some e /\ snd (analyze_parallel cpu ptqdm a [] n s) = Some e).
Proof.
  intros V Res Arg cpu ptqdm a s m o NV C ER W EO LO L1 ND.
  destruct (spec_multi cpu ptqdm a [] s m o None NV C ER W EO LO L1 ND ltac:(discriminate)) as (ys & L & H & H1 & H2).
  exists ys. split; [exact L|]. split; [exact H|]. intros np n N P.
  destruct (spec_multi cpu ptqdm a [] s m o (Some n) NV C ER W EO LO L1 ND ltac:(intros k E; apply P; congruence)) as (ys' & L' & H' & H1' & H2').
  assert (ys' = ys).
  { apply nth_error_ext'. intros i. destruct (nth_error ys i) as [y|] eqn:E1; destruct (nth_error ys' i) as [y'|] eqn:E2; auto.
    - f_equal. eapply is_column_unique; [apply H'; exact E2|apply H; exact E1].
    - apply nth_error_None in E2. assert (i < length ys) by (apply nth_error_Some; congruence). lia.
    - apply nth_error_None in E1. assert (i < length ys') by (apply nth_error_Some; congruence). lia. }
  subst ys'. unfold usual in *. split.
  - intros rs E. cbv zeta. destruct N as [-> | ->]; [|rewrite analyze_nprocs by exact NV]; auto.
  - intros e E. destruct N as [-> | ->]; [|rewrite analyze_nprocs by exact NV]; auto.
Qed.
Print Assumptions C50_per_output.

(** C50: a single output is analysed as it is and its analysis stored as it is. *)
Theorem C50_single : forall V Res Arg cpu ptqdm (a : analyzer V Res Arg) (s : spec V Res) y o np n,
  p_num_vars (s_prob s) <> 1 -> s_results s = Some y -> s_outputs s = Some o -> length o = 1 -> np = None \/ np = Some n ->
  let r := match an_fun a [PSelf (s_prob s)] (if an_X a then Some (s_samples s) else None) y with
           | Ok r => (mkSpec (s_prob s) (s_outputs s) (s_samples s) (s_results s) (Some (Single r)), None)
           | Err e => (s, Some e)
           end in
  analyze cpu ptqdm a [] np s = r /\ analyze_parallel cpu ptqdm a [] n s = r.
Proof.
  intros V Res Arg cpu ptqdm a s y o np n NV ER EO L1 N. cbv zeta.
  pose proof (spec_single cpu ptqdm a [] s y o None NV ER EO L1) as H1. pose proof (spec_single cpu ptqdm a [] s y o (Some n) NV ER EO L1) as H2.
  unfold usual in *. destruct N as [-> | ->]; [|rewrite analyze_nprocs by exact NV]; auto.
Qed.
Print Assumptions C50_single.

(** C50: nothing is analysed without results. *)
Theorem C50_no_results : forall V Res Arg cpu ptqdm (a : analyzer V Res Arg) args (s : spec V Res) np, p_num_vars (s_prob s) <> 1 -> s_results s = None ->
  analyze cpu ptqdm a args np s = (s, Some RuntimeError) /\ (forall n, analyze_parallel cpu ptqdm a args n s = (s, Some RuntimeError)).
Proof. intros. apply spec_no_results; auto. Qed.
Print Assumptions C50_no_results.

Example C50_two_outputs : let s := ex_run [CSample (fun _ => Ok (ex_samples 3)); CEvaluate ex_pairs (Some 1%Z)] spec_ex in
  s_outputs s = Some ["Y1"; "Y2"]%string /\
  s_analysis (fst (ex_step s (CAnalyze ex_analysis [] None))) = Some (PerOutput [("Y1", (9, 0)); ("Y2", (21, 0))]%string) /\
  s_analysis (fst (ex_step s (CAnalyze ex_analysis [] (Some (Some 8%Z))))) = Some (PerOutput [("Y1", (9, 0)); ("Y2", (21, 0))]%string).
Proof. repeat split. Qed.

(** C50 is false for positional arguments: they are put before the problem, so a function whose first parameter is the problem
    raises on any of them, where calling it directly succeeds. *)
Theorem C50_positional_refuted :
  (forall V Res Arg cpu ptqdm (a : analyzer V Res Arg) args (s : spec V Res) y o, p_num_vars (s_prob s) <> 1 ->
     s_results s = Some y -> s_outputs s = Some o -> length o = 1 -> args <> [] ->
     (forall ps X Y, (forall p r, ps <> PSelf p :: r) -> an_fun a ps X Y = Err TypeError) ->
     analyze cpu ptqdm a args None s = (s, Some TypeError)) /\
  (forall p y, an_fun ex_analysis [PSelf p; PArg 5] None y = Ok (ex_total y, 1)) /\
  snd (ex_step (ex_run [CSample (fun _ => Ok (ex_samples 3)); CEvaluate ex_sum (Some 1%Z)] spec_ex) (CAnalyze ex_analysis [5] None)) = Some TypeError.
Proof.
  split; [|split; reflexivity]. intros V Res Arg cpu ptqdm a args s y o NV ER EO L1 N F.
  pose proof (spec_single cpu ptqdm a args s y o None NV ER EO L1) as H. cbn [usual] in H. rewrite H. unfold call_analyzer. rewrite F; [reflexivity|].
  intros p r. destruct args; [contradiction|discriminate].
Qed.
Print Assumptions C50_positional_refuted.

(** C50 is false for repeated names: the last output of the name is the only one kept. *)
Theorem C50_repeated_names_refuted : exists (s : spec nat (nat * nat)), s_outputs s = Some ["q"; "q"]%string /\
  construct (mkArgs (Some ["a"; "b"]%string) (Some [[0; 1]; [0; 1]]%R) None None (Some ["q"; "q"]%string)) = Ok s /\
  s_analysis (ex_run [CSample (fun _ => Ok (ex_samples 3)); CEvaluate ex_pairs (Some 1%Z); CAnalyze ex_analysis [] None] s) = Some (PerOutput [("q"%string, (21, 0))]).
Proof. eexists. repeat split; reflexivity. Qed.
Print Assumptions C50_repeated_names_refuted.

(** C51: a problem of one parameter is refused, whatever the rest. *)
Theorem C51_one_parameter : forall V Res Arg cpu ptqdm (a : analyzer V Res Arg) args np (s : spec V Res), p_num_vars (s_prob s) = 1 ->
  analyze cpu ptqdm a args np s = (s, Some ValueError).
Proof. intros. apply spec_one_parameter; auto. Qed.
Print Assumptions C51_one_parameter.

Example C51_example : exists s : spec nat (nat * nat), construct (mkArgs (Some ["a"]%string) (Some [[0; 1]]%R) None None None) = Ok s /\ p_num_vars (s_prob s) = 1 /\
  snd (ex_step (ex_run [CSetSamples (Some (A2 (mkMat 1 [[1]; [2]]))); CEvaluate ex_sum (Some 1%Z)] s) (CAnalyze ex_analysis [] None)) = Some ValueError.
Proof. eexists. repeat split; reflexivity. Qed.

(** C51 is false of groups: parameters all in one group are analysed. *)
Theorem C51_one_group_refuted : exists s : spec nat (nat * nat),
  construct (mkArgs (Some ["a"; "b"]%string) (Some [[0; 1]; [0; 1]]%R) (Some ["g"; "g"]%string) None None) = Ok s /\
  let r := ex_step (ex_run [CSample (fun _ => Ok (ex_samples 3)); CEvaluate ex_sum (Some 1%Z)] s) (CAnalyze ex_analysis [] None) in
  snd r = None /\ s_analysis (fst r) = Some (Single (9, 0)).
Proof. eexists. repeat split; reflexivity. Qed.
Print Assumptions C51_one_group_refuted.

(** C51 is false of analyze_parallel called directly, even for one parameter. *)
Theorem C51_parallel_refuted : exists s : spec nat (nat * nat),
  construct (mkArgs (Some ["a"]%string) (Some [[0; 1]]%R) None None None) = Ok s /\
  let r := ex_step (ex_run [CSetSamples (Some (A2 (mkMat 1 [[1]; [2]]))); CEvaluate ex_sum (Some 1%Z)] s) (CAnalyzeParallel ex_analysis [] None) in
  snd r = None /\ s_analysis (fst r) = Some (Single (3, 0)).
Proof. eexists. repeat split; reflexivity. Qed.
Print Assumptions C51_parallel_refuted.

(** C52: what a constructed object holds. *)
Theorem C52_constructed : forall V Res (a : spec_args) (s : spec V Res), construct a = Ok s ->
  exists names bounds, a_names a = Some names /\ a_bounds a = Some bounds /\ length bounds = length names /\
    p_num_vars (s_prob s) = length names /\ p_names (s_prob s) = names /\ p_bounds (s_prob s) = bounds /\ p_dists (s_prob s) = a_dists a /\
    (exists g, p_groups (s_prob s) = Some g /\ length g = length names /\ ((a_groups a = None \/ a_groups a = Some []) -> g = names) /\
       (forall g', a_groups a = Some g' -> g' <> [] -> g = g')) /\
    s_outputs s = a_outputs a /\ s_samples s = None /\ s_results s = None /\ s_analysis s = None.
Proof. intros. apply spec_construct; auto. Qed.
Print Assumptions C52_constructed.

(** C52: when construction fails. *)
Theorem C52_refused : forall V Res (a : spec_args) e, @construct V Res a = Err e ->
  (e = AssertionError /\ (a_names a = None \/ a_bounds a = None \/ exists n b, a_names a = Some n /\ a_bounds a = Some b /\ length b <> length n)) \/
  (e = ValueError /\ exists n g, a_names a = Some n /\ a_groups a = Some g /\ g <> [] /\ length g <> length n).
Proof. intros. eapply spec_construct_err; eauto. Qed.
Print Assumptions C52_refused.

(** C52: storing results names one output per column, or raises ValueError and changes nothing. *)
Theorem C52_store : forall V Res (a : arr V) (s : spec V Res),
  (s_outputs s = None -> exists o, assign_results (Some a) s = (mkSpec (s_prob s) (Some o) (s_samples s) (Some a) (s_analysis s), None) /\
     length o = ncols a /\ NoDup o /\ (ncols a = 1 -> o = ["Y"%string])) /\
  (forall o, s_outputs s = Some o -> length o = ncols a ->
     assign_results (Some a) s = (mkSpec (s_prob s) (s_outputs s) (s_samples s) (Some a) (s_analysis s), None)) /\
  (forall o, s_outputs s = Some o -> length o <> ncols a -> assign_results (Some a) s = (s, Some ValueError)).
Proof. intros. apply spec_store. Qed.
Print Assumptions C52_store.

(** C52: the names given to several outputs are Y1, Y2, ...: the letter and the position counted from one. *)
Theorem C52_numbered : forall V Res (a : arr V) (s : spec V Res) s', s_outputs s = None -> ncols a <> 1 -> assign_results (Some a) s = (s', None) ->
  exists o, s_outputs s' = Some o /\ length o = ncols a /\
    forall i, i < ncols a -> exists digits u, nth_error o i = Some ("Y" ++ digits)%string /\ NilEmpty.uint_of_string digits = Some u /\ Nat.of_uint u = i + 1.
Proof. intros V Res. exact store_numbered. Qed.
Print Assumptions C52_numbered.

(** C52: through every history: results have one name per column, names once given stay, the problem is untouched, and a storing
    call that raises changes nothing. *)
Theorem C52_history : forall V Res Arg junk cpu ptqdm pathos a (s0 : spec V Res) (cs : list (call V Res Arg)), construct a = Ok s0 ->
  let s := run junk cpu ptqdm pathos cs s0 in
  well_named s /\ s_prob s = s_prob s0 /\
  (forall (c : call V Res Arg) o, s_outputs s = Some o -> s_outputs (fst (step junk cpu ptqdm pathos s c)) = Some o) /\
  (forall c : call V Res Arg, stores_results c -> snd (step junk cpu ptqdm pathos s c) <> None -> fst (step junk cpu ptqdm pathos s c) = s).
Proof.
  intros V Res Arg junk cpu ptqdm pathos a s0 cs C s. split; [|split; [|split]].
  - apply run_well_named. intros Y E. destruct (construct_fresh _ _ C) as (_ & R & _). congruence.
  - apply run_prob.
  - intros c o E. apply step_outputs. exact E.
  - intros c K E. destruct (storing_cases junk cpu ptqdm pathos c s K) as [(e & H)|(b & o & H & _)]; rewrite H in *; simpl in *; congruence.
Qed.
Print Assumptions C52_history.

Example C52_example : let s := ex_run [CSample (fun _ => Ok (ex_samples 3)); CEvaluate ex_pairs (Some 1%Z)] spec_ex in
  s_outputs s = Some ["Y1"; "Y2"]%string /\ ex_step s (CEvaluate ex_sum (Some 1%Z)) = (s, Some ValueError) /\
  s_results s = Some (A2 (mkMat 2 [[3; 7]; [3; 7]; [3; 7]])).
Proof. repeat split. Qed.
