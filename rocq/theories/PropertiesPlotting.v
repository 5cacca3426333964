(** * Tables and plots of results: C88-C92. *)
From Coq Require Import Reals String List Arith Bool Lia Lra Permutation.
From Verif Require Import Base Arrays ModelGroups SpecGroups ModelScale Stats ModelSobol ModelFast ModelMorrisAnalyze SpecMorris ModelRbd ModelDgsm ModelPawn SpecPawn ModelFF ModelDelta ModelHdmr
  ModelPlotting SpecPlotting ProofsPawn3 ProofsPlotting ProofsPlotting2 ProofsPlotting3 ProofsPlotting4 ProofsPlotting5 ProofsPlotting6 ProofsPlotting7.
Import ListNotations.
Local Open Scope nat_scope.

(** ** C88: bar charts *)
(** A frame is drawn as one group of bars per column that is not a confidence interval, over the frame's index; the error bars of a group are the
    column named after it with "_conf" appended. *)
Theorem C88_bars : forall f c, regular (fr_columns f) -> bar_plot f = Ok c -> charted f c.
Proof. exact bars_paired. Qed.
Print Assumptions C88_bars.

(** Drawing fails exactly without an index to draw or with a negative error bar. *)
Theorem C88_refused : forall f, regular (fr_columns f) ->
  (bar_plot f = Err TypeError <-> (forall k l, ~ drawn f k l)) /\
  (bar_plot f = Err ValueError <-> exists k l e v, drawn f k l /\ In (conf_name k, Numbers e) (fr_columns f) /\ In (Some v) e /\ (v < 0)%R) /\
  (forall x, bar_plot f = Err x -> x = TypeError \/ x = ValueError).
Proof. exact bars_refused. Qed.
Print Assumptions C88_refused.

(** Every result of the Morris, FAST, RBD-FAST, DGSM, delta and Sobol' analysers can be converted and drawn, each index with its own confidence interval. *)
Theorem C88_morris : forall nq p X Y conf_level scaled levels resample o,
  snd (morris_analyze nq p X Y conf_level scaled levels resample) = Ok o -> (0 <= nq (1 / 2 + conf_level / 2))%R ->
  object_plot (inherited (morris_items o)) None
  = Ok [((0, 0), mkChart (singles (m_names o)) [mkBars "mu" (m_mu o) None; mkBars "mu_star" (m_mu_star o) (Some (m_conf o)); mkBars "sigma" (m_sigma o) None])].
Proof. exact morris_charted. Qed.
Print Assumptions C88_morris.

Theorem C88_fast : forall D Y M bnd draws names l, fast_analyze D Y M bnd draws = Ok l -> length names = D -> (0 <= bnd)%R ->
  object_plot (inherited (fast_items names l)) None
  = Ok [((0, 0), mkChart (singles names) [mkBars "S1" (map f_S1 l) (Some (map f_S1c l)); mkBars "ST" (map f_ST l) (Some (map f_STc l))])].
Proof. exact fast_charted. Qed.
Print Assumptions C88_fast.

Theorem C88_rbd_fast : forall srt nq p X Y M conf_level draws o, rbd_analyze srt nq p X Y M conf_level draws = Ok o -> length (p_names p) = p_num_vars p ->
  (0 <= nq (1 / 2 + conf_level / 2))%R ->
  object_plot (inherited (rbd_items o)) None = Ok [((0, 0), mkChart (singles (p_names p)) [mkBars "S1" (r_S1 o) (Some (r_conf o))])].
Proof. exact rbd_charted. Qed.
Print Assumptions C88_rbd_fast.

Theorem C88_dgsm : forall nq p X Y conf_level resample o, dgsm_analyze nq p X Y conf_level resample = Ok o -> length (p_names p) = p_num_vars p -> (0 <= nq (1 / 2 + conf_level / 2))%R ->
  object_plot (inherited (dgsm_items o)) None
  = Ok [((0, 0), mkChart (singles (p_names p)) [mkBars "vi" (d_vi o) None; mkBars "vi_std" (d_vi_std o) None; mkBars "dgsm" (d_dgsm o) (Some (d_conf o))])].
Proof. exact dgsm_charted. Qed.
Print Assumptions C88_dgsm.

Theorem C88_delta : forall kde nq dc sc p X Y n conf y method specs o, delta_analyze kde nq dc sc p X Y n conf y method specs = Ok o ->
  length (p_names p) = p_num_vars p -> (0 <= nq (1 / 2 + conf / 2))%R ->
  object_plot (inherited (delta_items o)) None = Ok [((0, 0), mkChart (singles (p_names p)) (delta_bars o))].
Proof. exact delta_charted. Qed.
Print Assumptions C88_delta.

(** Total and first order in the first two panels, second order in the third; with a single group second-order results cannot be converted. *)
Theorem C88_sobol : forall mu sigma Zq resample cpus p Y second conf keep workers s n,
  sigma <> 0%R -> analyze_with mu sigma Zq resample cpus p Y second conf keep workers = Ok s -> (0 <= Zq conf)%R ->
  let names := fst (extract_group_names p) in
  let base := [((0, 0), mkChart (singles names) [mkBars "ST" (ST s) (Some (ST_conf s))]); ((0, 1), mkChart (singles names) [mkBars "S1" (S1 s) (Some (S1_conf s))])] in
  (second = false -> object_plot (sobol_object p s n) None = Ok base) /\
  (second = true -> 2 <= length names -> exists idx v vc, second_frame p s = Ok (Some (idx, v, vc)) /\
     object_plot (sobol_object p s n) None = Ok (base ++ [((0, 2), mkChart (pair_names idx) [mkBars "S2" v (Some vc)])])) /\
  (second = true -> length names = 1 -> object_plot (sobol_object p s n) None = Err IndexError).
Proof. exact sobol_charted. Qed.
Print Assumptions C88_sobol.

(** PAWN results are drawn exactly when there is a row per name. *)
Theorem C88_pawn : forall o, let col := fun j => map (fun r => nth j r None) (pw_rows o) in
  (length (pw_rows o) = length (pw_names o) -> object_plot (inherited (pawn_items o)) None
     = Ok [((0, 0), mkChart (singles (pw_names o)) [mkBars "minimum" (col 0) None; mkBars "mean" (col 1) None; mkBars "median" (col 2) None; mkBars "maximum" (col 3) None;
                                                   mkBars "CV" (col 4) None; mkBars "stdev" (col 5) None])]) /\
  (length (pw_rows o) <> length (pw_names o) -> object_plot (inherited (pawn_items o)) None = Err ValueError).
Proof. exact pawn_charted. Qed.
Print Assumptions C88_pawn.

(** C88 is false of PAWN for problems whose parameters all have the same group label: neither table nor plot. *)
Theorem C88_pawn_refuted : forall p X Y n g, 0 < n -> pawn_input (p_num_vars p) X Y -> p_groups p = Some (repeat g (p_num_vars p)) -> 2 <= p_num_vars p ->
  exists o, pawn_analyze p X Y n = Ok o /\ object_plot (inherited (pawn_items o)) None = Err ValueError.
Proof.
  intros p X Y n g H1 H2 H3 H4. destruct (pawn_one_label p X Y n g H1 H2 H3 H4) as (o & E & EN & ER). exists o. split; [exact E|].
  apply (pawn_charted o). rewrite EN, ER. cbn. lia.
Qed.
Print Assumptions C88_pawn_refuted.

(** C88 is false of the fractional factorial analyser without interactions: its second frame is None. *)
Theorem C88_ff_refuted : forall p Y second o, snd (ff_analyze p Y second) = Ok o -> length (p_names p) = p_num_vars p ->
  (second = false \/ p_num_vars p < 2 -> object_plot (ff_object o) None = Err AttributeError) /\
  (second = true -> 2 <= p_num_vars p -> exists l, ff_IE o = Some l /\
     object_plot (ff_object o) None = Ok [((0, 0), mkChart (singles (ff_names o)) [mkBars "ME" (map Some (ff_ME o)) None]);
                                          ((0, 1), mkChart (pair_names (map fst l)) [mkBars "IE" (map (fun e => Some (snd e)) l) None])]).
Proof. exact ff_analyze_charted. Qed.
Print Assumptions C88_ff_refuted.

(** The table of an HDMR analysis has a row per term and eight columns, each the entry of the result of that name; it exists exactly when the
    entries have a value per term. *)
Theorem C88_hdmr : forall o,
  let ks := ["Sa"; "Sa_conf"; "Sb"; "Sb_conf"; "S"; "S_conf"; "ST"; "ST_conf"]%string in
  (forall f, hdmr_frame o = Ok f -> fr_index f = singles (h_Term o) /\ map fst (fr_columns f) = ks /\
     forall k c, In (k, c) (fr_columns f) -> exists l, c = Numbers l /\ length l = length (h_Term o) /\ (item (hdmr_items o) k = Some (VArray l) \/ item (hdmr_items o) k = Some (VList l))) /\
  (forall x, hdmr_frame o = Err x -> x = ValueError /\ exists k l, In k ks /\ (item (hdmr_items o) k = Some (VArray l) \/ item (hdmr_items o) k = Some (VList l)) /\
     length l <> length (h_Term o)).
Proof.
  intros o ks. unfold hdmr_frame, make_frame. rewrite map_length.
  destruct (forallb _ _) eqn:F.
  - split; [|discriminate]. intros f [= <-]. cbn [fr_index fr_columns]. split; [reflexivity|]. split; [reflexivity|].
    intros k c I. rewrite forallb_forall in F. assert (L := F _ I). cbn [snd] in L. apply Nat.eqb_eq in L.
    cbn [In] in I. repeat (destruct I as [I|I]; [injection I as <- <-; eexists; split; [reflexivity|]; split; [exact L|]; cbn; tauto|]). contradiction.
  - split; [discriminate|]. intros x [= <-]. split; [reflexivity|]. apply forallb_false_ex in F. destruct F as ([k c] & I & L). cbn [snd] in L. apply Nat.eqb_neq in L.
    cbn [In] in I. repeat (destruct I as [I|I]; [injection I as Ek <-; cbn [column_length] in L; exists k; eexists; split; [subst ks k; cbn [In]; tauto|]; split; [subst k; cbn; first [left; reflexivity|right; reflexivity]|exact L]|]). contradiction.
Qed.
Print Assumptions C88_hdmr.

(** A frame with a text column, and an analysis of one factor. *)
Example C88_example :
  let f := mkFrame [["a"]; ["b"]]%string [("S1", Numbers [Some 1; Some 2]); ("S1_conf", Numbers [Some 0; None]); ("notes", Texts ["x"; "y"]); ("ST", Numbers [Some 3; Some 4])]%string%R in
  bar_plot f = Ok (mkChart [["a"]; ["b"]]%string [mkBars "S1" [Some 1; Some 2] (Some [Some 0; None]); mkBars "ST" [Some 3; Some 4] None])%R /\
  (do m <- (let '(_, r) := ff_analyze (mkProblem 1 ["a"]%string [[0; 1]]%R None None false) [1; 3]%R false in r) ;; object_plot (ff_object m) None) = Err AttributeError.
Proof.
  split.
  - unfold bar_plot. cbn -[Rltb]. unfold Rltb. destruct (Rlt_dec 0 0); [lra|]. reflexivity.
  - reflexivity.
Qed.

(** ** C89: heat maps *)
(** When the indices of the shape of the first one come first, the map shows them, each under its own name, one value per parameter or group. *)
Theorem C89_heatmap : forall o names d index title good bad, keys_of d index = good ++ bad -> good <> [] ->
  Forall (stored d (length names)) good -> Forall (stored_otherwise d (length names)) bad ->
  exists h, heatmap names [o] (Some (OneData d)) None index title = Ok h /\ shown d names good h /\ ht_title h = match title with Some t => t | None => o end.
Proof. exact heat_shown. Qed.
Print Assumptions C89_heatmap.

Theorem C89_metric : forall names outputs l metric index title d, 2 <= length outputs -> In metric outputs ->
  find (fun r => String.eqb metric (fst r)) l = Some (metric, d) ->
  heatmap names outputs (Some (PerOutputData l)) (Some metric) index title = heatmap names [metric] (Some (OneData d)) None index title.
Proof. exact heat_metric. Qed.
Print Assumptions C89_metric.

(** The default map of Sobol' results shows S1 and ST, whatever else is stored; Morris, DGSM and PAWN results are shown completely. *)
Theorem C89_defaults : forall o title,
  (forall p s n, let names := fst (extract_group_names p) in names <> [] -> length (S1 s) = length names -> length (ST s) = length names ->
     exists h, heatmap names [o] (Some (OneData (sobol_items s n))) None AllIndices title = Ok h /\ shown (sobol_items s n) names ["S1"; "ST"]%string h) /\
  (forall out, let names := m_names out in length (m_mu out) = length names -> length (m_mu_star out) = length names -> length (m_sigma out) = length names ->
     exists h, heatmap names [o] (Some (OneData (morris_items out))) None AllIndices title = Ok h /\ shown (morris_items out) names ["mu"; "mu_star"; "sigma"]%string h) /\
  (forall out, let names := ModelDgsm.d_names out in length (d_vi out) = length names -> length (d_vi_std out) = length names -> length (d_dgsm out) = length names ->
     exists h, heatmap names [o] (Some (OneData (dgsm_items out))) None AllIndices title = Ok h /\ shown (dgsm_items out) names ["vi"; "vi_std"; "dgsm"]%string h) /\
  (forall out, let names := pw_names out in length (pw_rows out) = length names ->
     exists h, heatmap names [o] (Some (OneData (pawn_items out))) None AllIndices title = Ok h /\ shown (pawn_items out) names ["minimum"; "mean"; "median"; "maximum"; "CV"; "stdev"]%string h).
Proof.
  intros o title. split; [|split; [|split]].
  - intros p s n names NE L1 L2. exact (proj1 (sobol_heat o p s n title NE L1 L2)).
  - intros out. exact (morris_heat o out title).
  - intros out. exact (dgsm_heat o out title).
  - intros out. exact (pawn_heat o out title).
Qed.
Print Assumptions C89_defaults.

(** C89 is false for other orders: asking for S1, S2 and ST shows the values of ST under the label S2, and asking for S2 and S1 shows the second
    row of S2 under the label S1. *)
Theorem C89_labels_refuted : forall o p s n title m mc, let names := fst (extract_group_names p) in names <> [] ->
  length (S1 s) = length names -> length (ST s) = length names -> S2 s = Some m -> S2_conf s = Some mc ->
  heatmap names [o] (Some (OneData (sobol_items s n))) None (Indices ["S1"; "S2"; "ST"]%string) title
    = Ok (mkHeat [S1 s; ST s] names ["S1"; "S2"]%string (match title with Some t => t | None => o end)) /\
  (2 <= length m -> heatmap names [o] (Some (OneData (sobol_items s n))) None (Indices ["S2"; "S1"]%string) title
    = Ok (mkHeat m names ["S2"; "S1"]%string (match title with Some t => t | None => o end))).
Proof.
  intros o p s n title m mc names NE L1 L2 E1 E2. split.
  - exact (proj2 (sobol_heat o p s n title NE L1 L2) m mc E1 E2).
  - intros H. destruct m as [|r0 [|r1 rest]]; cbn in H; try lia. exact (sobol_heat_second o p s n title _ mc r0 r1 rest E1 E2 eq_refl).
Qed.
Print Assumptions C89_labels_refuted.

(** C89 is false of the results of FAST and RBD-FAST (lists), of delta (with notes) and of HDMR (with terms): the default map raises AttributeError. *)
Theorem C89_lists_refuted : forall o names title,
  (forall l, heatmap names [o] (Some (OneData (fast_items names l))) None AllIndices title = Err AttributeError) /\
  (forall out, heatmap names [o] (Some (OneData (rbd_items out))) None AllIndices title = Err AttributeError) /\
  (forall out, d_notes out <> None -> heatmap names [o] (Some (OneData (delta_items out))) None AllIndices title = Err AttributeError) /\
  (forall out, heatmap names [o] (Some (OneData (hdmr_items out))) None AllIndices title = Err AttributeError).
Proof.
  intros o names title. split; [|split; [|split]].
  - intros l. exact (fast_heat o names l title).
  - intros out. exact (rbd_heat o names out title).
  - intros out. exact (delta_heat o names out title).
  - intros out. exact (hdmr_heat o names out title).
Qed.
Print Assumptions C89_lists_refuted.

Example C89_example :
  let d := [("S1", VArray [Some 1; Some 2]); ("S1_conf", VArray [None; None]); ("ST", VArray [Some 3; Some 4]); ("S2", VTable [[None; Some 5]; [None; None]]); ("names", VTexts ["a"; "b"]%string)]%string%R in
  heatmap ["a"; "b"]%string ["Y"]%string (Some (OneData d)) None AllIndices None = Ok (mkHeat [[Some 1; Some 2]; [Some 3; Some 4]]%R ["a"; "b"]%string ["S1"; "ST"]%string "Y") /\
  heatmap ["a"; "b"]%string ["Y"]%string (Some (OneData d)) None (Indices ["S2"; "ST"]%string) None = Ok (mkHeat [[None; Some 5]; [None; None]]%R ["a"; "b"]%string ["S2"; "ST"]%string "Y") /\
  heatmap ["a"; "b"]%string ["Y"]%string (Some (OneData d)) (Some "Z"%string) AllIndices None = Err AssertionError.
Proof. repeat split. Qed.

(** ** C90: plots of a ProblemSpec *)
(** Several outputs: one row of the figure per output, titled with its name, showing that output's result. *)
Theorem C90_one_frame : forall outputs l, 2 <= outputs -> length l = outputs ->
  (forall k o, In (k, o) l -> o_own_plot o = None /\ exists f c, o_frames o = Ok (One f) /\ bar_plot f = Ok c) ->
  exists out, spec_plot outputs (PerOutput l) = Ok out /\ length out = outputs /\
    forall i k o, nth_error l i = Some (k, o) -> exists f c, o_frames o = Ok (One f) /\ bar_plot f = Ok c /\ nth_error out i = Some (k, (i, 0), [((i, 0), c)]).
Proof. exact spec_plot_one. Qed.
Print Assumptions C90_one_frame.

Theorem C90_sobol : forall outputs l (second : bool), 2 <= outputs -> length l = outputs ->
  (forall k o, In (k, o) l -> exists mu sigma Zq resample cpus p Y conf keep workers s n,
     sigma <> 0%R /\ analyze_with mu sigma Zq resample cpus p Y second conf keep workers = Ok s /\ (0 <= Zq conf)%R /\ 2 <= length (fst (extract_group_names p)) /\ o = sobol_object p s n) ->
  exists out, spec_plot outputs (PerOutput l) = Ok out /\ length out = outputs /\
    forall i k o, nth_error l i = Some (k, o) -> exists d, object_plot o None = Ok d /\ nth_error out i = Some (k, (i, 0), map (fun pc => ((i, snd (fst pc)), snd pc)) d).
Proof. exact spec_plot_sobol. Qed.
Print Assumptions C90_sobol.

Theorem C90_several_frames : forall outputs l nf, 2 <= outputs -> length l = outputs -> 2 <= nf ->
  (forall k o, In (k, o) l -> o_own_plot o = None /\ nf <= o_keys o / 2 /\ exists fs cs, o_frames o = Ok (Several (map Some fs)) /\ length fs = nf /\ mapM bar_plot fs = Ok cs) ->
  exists out, spec_plot outputs (PerOutput l) = Ok out /\ length out = outputs /\
    forall i k o, nth_error l i = Some (k, o) -> exists fs cs, o_frames o = Ok (Several (map Some fs)) /\ mapM bar_plot fs = Ok cs /\
      nth_error out i = Some (k, (i, 0), combine (map (fun j => (i, j)) (seq 0 nf)) cs).
Proof. exact spec_plot_several. Qed.
Print Assumptions C90_several_frames.

(** C90 is false of results with a plot method of their own (HDMR, RSA) and of fractional factorial results without interactions: TypeError. *)
Theorem C90_own_plot_refuted : forall outputs k0 o0 l f0 r, 2 <= outputs -> length ((k0, o0) :: l) = outputs -> o_frames o0 = Ok f0 ->
  1 <= match f0 with Several _ => o_keys o0 / 2 | One _ => 1 end -> o_own_plot o0 = Some r -> spec_plot outputs (PerOutput ((k0, o0) :: l)) = Err TypeError.
Proof. exact spec_plot_own. Qed.
Print Assumptions C90_own_plot_refuted.
Theorem C90_ff_refuted : forall outputs k0 o0 l, 2 <= outputs -> length ((k0, ff_object o0) :: l) = outputs -> length (ff_ME o0) = length (ff_names o0) -> ff_IE o0 = None ->
  spec_plot outputs (PerOutput ((k0, ff_object o0) :: l)) = Err TypeError.
Proof. exact spec_plot_ff. Qed.
Print Assumptions C90_ff_refuted.

Example C90_example :
  let o := fun a b => inherited [("S1", VArray [Some a; Some b]); ("names", VTexts ["p"; "q"])]%string in
  spec_plot 2 (PerOutput [("Y1", o 1 2); ("Y2", o 3 4)]%string%R)
    = Ok [("Y1"%string, (0, 0), [((0, 0), mkChart [["p"]; ["q"]]%string [mkBars "S1" [Some 1; Some 2]%R None])]);
          ("Y2"%string, (1, 0), [((1, 0), mkChart [["p"]; ["q"]]%string [mkBars "S1" [Some 3; Some 4]%R None])])] /\
  spec_plot 1 NoAnalysis = Err RuntimeError.
Proof. split; reflexivity. Qed.

(** ** C91: Morris plots *)
Theorem C91_bars : forall argsort o sortby key, In (sortby, key) [("mu_star", m_mu_star o); ("mu_star_conf", m_conf o); ("sigma", m_sigma o); ("mu", m_mu o)]%string ->
  m_names o <> [] -> length (m_mu_star o) = length (m_names o) -> length (m_conf o) = length (m_names o) -> (forall x, In x (m_conf o) -> not_negative x) ->
  Permutation (argsort key) (seq 0 (length (m_names o))) ->
  exists bs, horizontal_bars argsort o sortby = Ok bs /\ length bs = length (m_names o) /\
    forall i j, nth_error (argsort key) i = Some j -> exists n m c, nth_error bs i = Some (i, n, m, c) /\
      nth_error (m_names o) j = Some n /\ nth_error (m_mu_star o) j = Some m /\ nth_error (m_conf o) j = Some c.
Proof. exact bars_sorted. Qed.
Print Assumptions C91_bars.

Theorem C91_histograms : forall X num_vars names, cols X = num_vars -> length names = num_vars -> 2 <= num_vars <= 9 ->
  exists out, sample_histograms X num_vars names = Ok out /\ length out = num_vars /\
    forall v, v < num_vars -> exists n, nth_error names v = Some n /\ nth_error out v = Some ((1, num_vars, v + 1), map (fun r => nth v r 0%R) (rows X), n).
Proof. exact histograms_few. Qed.
Print Assumptions C91_histograms.

(** C91 is false for one parameter and for ten or more: the histograms raise. *)
Theorem C91_histograms_refuted : forall X num_vars names, cols X = num_vars -> length names = num_vars ->
  (num_vars = 1 -> sample_histograms X num_vars names = Err IndexError) /\ (10 <= num_vars -> sample_histograms X num_vars names = Err ValueError).
Proof. exact histograms_many. Qed.
Print Assumptions C91_histograms_refuted.

(** C91 is false of covariance plots of grouped analyses: "sigma is not present if using morris groups", but it is, as nan, so that nothing is
    visible and the confidence intervals are not used. *)
Theorem C91_covariance_refuted : forall nq conf_level resample ls N E out, summarises nq conf_level resample ls N E out ->
  (forall x js, In x ls -> members_of ls x js -> 2 <= length js) ->
  covariance_points (Some (m_sigma out)) (m_mu_star out) (m_conf out) = (map (fun m => (m, None)) (m_mu_star out), Sigma).
Proof. exact covariance_blank. Qed.
Print Assumptions C91_covariance_refuted.

Example C91_example :
  let o := mkMorris ["a"; "b"; "c"]%string [Some 1; Some 2; Some 3]%R [Some 5; Some 4; Some 6]%R [None; None; None] [Some 0; Some 0; Some 0]%R in
  horizontal_bars (fun _ => [1; 0; 2]) o "mu_star" = Ok [(0, "b"%string, Some 4%R, Some 0%R); (1, "a"%string, Some 5%R, Some 0%R); (2, "c"%string, Some 6%R, Some 0%R)] /\
  sample_histograms (mkMat 2 [[1; 2]; [3; 4]]%R) 2 ["a"; "b"]%string = Ok [((1, 2, 1), [1; 3]%R, "a"%string); ((1, 2, 2), [2; 4]%R, "b"%string)] /\
  sample_histograms (mkMat 10 [repeat 0%R 10]) 10 (repeat "a"%string 10) = Err ValueError.
Proof.
  split; [|split; reflexivity]. unfold horizontal_bars. cbn -[Rltb]. unfold Rltb. destruct (Rlt_dec 0 0); [lra|]. reflexivity.
Qed.

(** ** C92: HDMR plots *)
(** The trials shown are the last ten, each once, and every parameter has a regression panel under its own name. *)
Theorem C92_trials : forall K, 1 <= K -> K <= 10 \/ K mod 10 = 0 ->
  trial_panels K = Ok (map (fun k => (0, 1 + k, K - Nat.min K 10 + k)) (seq 0 (Nat.min K 10))).
Proof. exact trials_shown. Qed.
Print Assumptions C92_trials.
Theorem C92_regressions : forall names d, d <= length names ->
  regression_panels names d = Ok (map (fun k => (k / 3, k mod 3 + 1, k, nth k names ""%string)) (seq 0 d)).
Proof. exact regressions_shown. Qed.
Print Assumptions C92_regressions.

(** C92 is false for more than ten trials when their number is not a multiple of ten. *)
Theorem C92_trials_refuted : forall K, 10 < K -> K mod 10 <> 0 -> trial_panels K = Err UnboundLocalError.
Proof. exact trials_unbound. Qed.
Print Assumptions C92_trials_refuted.

Example C92_example : trial_panels 3 = Ok [(0, 1, 0); (0, 2, 1); (0, 3, 2)] /\ trial_panels 15 = Err UnboundLocalError /\
  trial_panels 20 = Ok (map (fun k => (0, 1 + k, 10 + k)) (seq 0 10)) /\
  regression_panels ["a"; "b"; "c"; "d"]%string 4 = Ok [(0, 1, 0, "a"%string); (0, 2, 1, "b"%string); (0, 3, 2, "c"%string); (1, 1, 3, "d"%string)].
Proof. repeat split. Qed.
