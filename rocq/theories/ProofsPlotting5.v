(** * Proofs: heat maps. *)
From Coq Require Import Reals String List Arith Lia Lra Bool.
From Verif Require Import Base Arrays ListFacts ModelGroups ModelScale Stats ModelSobol ModelFast ModelMorrisAnalyze ModelRbd ModelDgsm ModelPawn ModelFF ModelDelta ModelHdmr ModelPlotting SpecPlotting ProofsPlotting ProofsPlotting2.
Import ListNotations.
Local Open Scope nat_scope.

Lemma shape_eqb_refl : forall s, shape_eqb s s = true.
Proof. intros s. unfold shape_eqb. destruct (list_eq_dec _ s s); congruence. Qed.
Lemma shape_eqb_neq : forall s t, s <> t -> shape_eqb s t = false.
Proof. intros s t H. unfold shape_eqb. destruct (list_eq_dec _ s t); congruence. Qed.

Definition gathered (d : items) (s0 : list nat) (k : string) : result (list (list fval)) :=
  do v <- match item d k with Some v => Ok v | None => Err KeyError end ;; do s <- shape v ;; Ok (if shape_eqb s s0 then stacked v else []).

Lemma gathered_stored : forall d n k, stored d n k -> exists l, item d k = Some (VArray l) /\ length l = n /\ gathered d [n] k = Ok [l].
Proof. intros d n k (l & E & L). exists l. unfold gathered. rewrite E. cbn [bind shape]. rewrite L, shape_eqb_refl. auto. Qed.
Lemma gathered_otherwise : forall d n k, stored_otherwise d n k -> gathered d [n] k = Ok [].
Proof. intros d n k (v & s & E & ES & N). unfold gathered. rewrite E. cbn [bind]. rewrite ES. cbn [bind]. rewrite shape_eqb_neq by exact N. reflexivity. Qed.

Lemma gathered_all : forall d n good bad, Forall (stored d n) good -> Forall (stored_otherwise d n) bad ->
  exists rows, mapM (gathered d [n]) (good ++ bad) = Ok rows /\ length (concat rows) = length good /\
    Forall2 (fun k r => item d k = Some (VArray r) /\ length r = n) good (concat rows).
Proof.
  intros d n good bad HG HB. induction HG as [|k good HK HG IH].
  - cbn [app]. induction HB as [|k bad HK HB IH]; [exists []; cbn; auto|].
    destruct IH as (rows & E & L & F). exists ([] :: rows). cbn [mapM]. rewrite (gathered_otherwise _ _ _ HK). cbn [bind]. rewrite E. cbn [bind concat app]. auto.
  - destruct IH as (rows & E & L & F). destruct (gathered_stored _ _ _ HK) as (l & E1 & E2 & E3). exists ([l] :: rows).
    cbn [app mapM]. rewrite E3. cbn [bind]. rewrite E. cbn [bind concat app length]. split; [reflexivity|]. split; [lia|]. constructor; auto.
Qed.

(** The data of the metric. *)
Definition one_output (o : string) (names : list string) (d : items) (index : index_arg) (title : option string) : result heat :=
  heatmap names [o] (Some (OneData d)) None index title.

Definition keys_of (d : items) (index : index_arg) : list string :=
  match index with
  | AllIndices | Indices [] => filter reported (map fst d)
  | Indices ks => filter reported ks
  | OneIndex k => if String.eqb k "" then filter reported (map fst d) else [k]
  end.

Lemma one_output_eq : forall o names d index title, one_output o names d index title =
  (do k0 <- get (keys_of d index) 0 ;;
   do v0 <- match item d k0 with Some v => Ok v | None => Err KeyError end ;;
   do s0 <- shape v0 ;;
   do vs <- mapM (gathered d s0) (keys_of d index) ;;
   Ok (mkHeat (concat vs) names (firstn (length (concat vs)) (keys_of d index)) (match title with Some t => t | None => o end))).
Proof. intros. unfold one_output, heatmap. cbn [get nth_error bind existsb]. rewrite String.eqb_refl. reflexivity. Qed.

Theorem heat_shown : forall o names d index title good bad, keys_of d index = good ++ bad -> good <> [] ->
  Forall (stored d (length names)) good -> Forall (stored_otherwise d (length names)) bad ->
  exists h, one_output o names d index title = Ok h /\ shown d names good h /\ ht_title h = match title with Some t => t | None => o end.
Proof.
  intros o names d index title good bad EK NE HG HB. rewrite one_output_eq, EK. destruct (gathered_all d _ good bad HG HB) as (rows & E & L & F).
  destruct good as [|k0 good]; [congruence|]. cbn [app get nth_error bind]. inversion HG as [|? ? HK HG']; subst.
  destruct HK as (l & E1 & E2). rewrite E1. cbn [bind shape]. rewrite E2. cbn [app] in E. rewrite E. cbn [bind].
  eexists. split; [reflexivity|]. split; [|reflexivity]. split; [reflexivity|]. split; [|exact F]. cbn [ht_ylabels].
  rewrite L. change (k0 :: good ++ bad) with ((k0 :: good) ++ bad); rewrite firstn_app, Nat.sub_diag, firstn_all; apply app_nil_r.
Qed.

(** Several outputs: the metric picks the results of that output. *)
Theorem heat_metric : forall names outputs l metric index title d, 2 <= length outputs -> In metric outputs ->
  find (fun r => String.eqb metric (fst r)) l = Some (metric, d) ->
  heatmap names outputs (Some (PerOutputData l)) (Some metric) index title = one_output metric names d index title.
Proof.
  intros names outputs l metric index title d H2 HI HF. unfold one_output, heatmap. cbn [get nth_error bind].
  assert (E : existsb (String.eqb metric) outputs = true) by (apply existsb_exists; exists metric; split; [exact HI|apply String.eqb_refl]).
  rewrite E. cbn [negb existsb]. rewrite String.eqb_refl. cbn [orb negb].
  assert (E2 : (1 <? length outputs) = true) by (apply Nat.ltb_lt; lia). rewrite E2. rewrite HF. reflexivity.
Qed.

(** ** The analysers' results *)
Ltac all_stored := repeat constructor; eexists; (split; [reflexivity|first [assumption | rewrite ?map_length; assumption]]).

Theorem sobol_heat : forall o p s n title, let names := fst (extract_group_names p) in names <> [] ->
  length (S1 s) = length names -> length (ST s) = length names ->
  (exists h, one_output o names (sobol_items s n) AllIndices title = Ok h /\ shown (sobol_items s n) names ["S1"; "ST"]%string h) /\
  (forall m mc, S2 s = Some m -> S2_conf s = Some mc ->
     one_output o names (sobol_items s n) (Indices ["S1"; "S2"; "ST"]%string) title = Ok (mkHeat [S1 s; ST s] names ["S1"; "S2"]%string (match title with Some t => t | None => o end))).
Proof.
  intros o p s n title names NE L1 L2.
  assert (T : forall t, exists a b, shape (VTable t) = Ok [a; b]) by (intros t; do 2 eexists; reflexivity).
  split.
  - assert (X : exists bad, keys_of (sobol_items s n) AllIndices = ["S1"; "ST"]%string ++ bad /\ Forall (stored_otherwise (sobol_items s n) (length names)) bad).
    { unfold keys_of, sobol_items. destruct (S1_conf_all s) as [a|], (ST_conf_all s) as [b|], (S2 s) as [m|], (S2_conf s) as [mc|]; cbn -[seq map nth shape];
        (eexists; split; [reflexivity|repeat constructor; do 2 eexists; (split; [reflexivity|]; split; [reflexivity|discriminate])]). }
    destruct X as (bad & EK & HB).
    destruct (heat_shown o names (sobol_items s n) AllIndices title ["S1"; "ST"]%string bad EK ltac:(discriminate)) as (h & E & SH & _).
    + repeat constructor; eexists; (split; [reflexivity|assumption]).
    + exact HB.
    + exists h. auto.
  - intros m mc E1 E2. rewrite one_output_eq. change (keys_of (sobol_items s n) (Indices ["S1"; "S2"; "ST"]%string)) with ["S1"; "S2"; "ST"]%string.
    assert (I1 : item (sobol_items s n) "S1" = Some (VArray (S1 s))) by reflexivity.
    assert (I2 : item (sobol_items s n) "ST" = Some (VArray (ST s))) by reflexivity.
    assert (I3 : item (sobol_items s n) "S2" = Some (VTable m)) by (unfold sobol_items; rewrite E1, E2; destruct (S1_conf_all s), (ST_conf_all s); reflexivity).
    cbn [get nth_error bind]. rewrite I1. cbn [bind shape mapM]. unfold gathered. rewrite I1, I2, I3. cbn [bind shape]. rewrite L1, L2, shape_eqb_refl.
    rewrite shape_eqb_neq by discriminate. reflexivity.
Qed.

(** A matrix first: its rows are labelled with the names of the other indices. *)
Theorem sobol_heat_second : forall o p s n title m mc r0 r1 rest, let names := fst (extract_group_names p) in
  S2 s = Some m -> S2_conf s = Some mc -> m = r0 :: r1 :: rest ->
  one_output o names (sobol_items s n) (Indices ["S2"; "S1"]%string) title = Ok (mkHeat m names ["S2"; "S1"]%string (match title with Some t => t | None => o end)).
Proof.
  intros o p s n title m mc r0 r1 rest names E1 E2 EM. rewrite one_output_eq. change (keys_of (sobol_items s n) (Indices ["S2"; "S1"]%string)) with ["S2"; "S1"]%string.
  assert (I1 : item (sobol_items s n) "S1" = Some (VArray (S1 s))) by reflexivity.
  assert (I3 : item (sobol_items s n) "S2" = Some (VTable m)) by (unfold sobol_items; rewrite E1, E2; destruct (S1_conf_all s), (ST_conf_all s); reflexivity).
  cbn [get nth_error bind]. rewrite I3. cbn [bind shape mapM]. unfold gathered. rewrite I1, I3. cbn [bind shape]. rewrite shape_eqb_refl.
  rewrite shape_eqb_neq by discriminate. cbn [bind stacked concat]. rewrite !app_nil_r. subst m. cbn [length firstn]. rewrite firstn_nil. reflexivity.
Qed.

Theorem morris_heat : forall o out title, let names := m_names out in
  length (m_mu out) = length names -> length (m_mu_star out) = length names -> length (m_sigma out) = length names ->
  exists h, one_output o names (morris_items out) AllIndices title = Ok h /\ shown (morris_items out) names ["mu"; "mu_star"; "sigma"]%string h.
Proof.
  intros o out title names L1 L2 L3.
  destruct (heat_shown o names (morris_items out) AllIndices title ["mu"; "mu_star"; "sigma"]%string [] eq_refl ltac:(discriminate)) as (h & E & SH & _); [all_stored|constructor|exists h; auto].
Qed.
Theorem dgsm_heat : forall o out title, let names := ModelDgsm.d_names out in
  length (d_vi out) = length names -> length (d_vi_std out) = length names -> length (d_dgsm out) = length names ->
  exists h, one_output o names (dgsm_items out) AllIndices title = Ok h /\ shown (dgsm_items out) names ["vi"; "vi_std"; "dgsm"]%string h.
Proof.
  intros o out title names L1 L2 L3.
  destruct (heat_shown o names (dgsm_items out) AllIndices title ["vi"; "vi_std"; "dgsm"]%string [] eq_refl ltac:(discriminate)) as (h & E & SH & _); [all_stored|constructor|exists h; auto].
Qed.
Theorem pawn_heat : forall o out title, let names := pw_names out in length (pw_rows out) = length names ->
  exists h, one_output o names (pawn_items out) AllIndices title = Ok h /\ shown (pawn_items out) names ["minimum"; "mean"; "median"; "maximum"; "CV"; "stdev"]%string h.
Proof.
  intros o out title names L1.
  destruct (heat_shown o names (pawn_items out) AllIndices title ["minimum"; "mean"; "median"; "maximum"; "CV"; "stdev"]%string [] eq_refl ltac:(discriminate)) as (h & E & SH & _); [all_stored|constructor|exists h; auto].
Qed.

(** Lists have no shape. *)
Theorem fast_heat : forall o names l title, one_output o names (fast_items names l) AllIndices title = Err AttributeError.
Proof. intros. rewrite one_output_eq. reflexivity. Qed.
Theorem rbd_heat : forall o names out title, one_output o names (rbd_items out) AllIndices title = Err AttributeError.
Proof. intros. rewrite one_output_eq. reflexivity. Qed.
Theorem delta_heat : forall o names out title, d_notes out <> None -> one_output o names (delta_items out) AllIndices title = Err AttributeError.
Proof.
  intros o names out title H. rewrite one_output_eq. unfold delta_items. destruct (d_notes out) as [nt|]; [|congruence].
  destruct (d_delta out), (d_delta_conf out), (d_S1 out), (d_S1_conf out); reflexivity.
Qed.
Theorem hdmr_heat : forall o names out title, one_output o names (hdmr_items out) AllIndices title = Err AttributeError.
Proof. intros. rewrite one_output_eq. reflexivity. Qed.
