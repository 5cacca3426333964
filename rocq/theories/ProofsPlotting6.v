(** * Proofs: plots of a ProblemSpec. *)
From Coq Require Import Reals String List Arith Lia Lra Bool.
From Verif Require Import Base Arrays ListFacts ModelGroups ModelScale Stats ModelSobol ModelFF ModelPlotting SpecPlotting ProofsSobol3 ProofsSobol4 ProofsPlotting ProofsPlotting2 ProofsPlotting4.
Import ListNotations.
Local Open Scope nat_scope.

Lemma enumerate_nth : forall (A : Type) (L : list A) n i x, length L = n -> nth_error (combine (seq 0 n) L) i = Some x -> fst x = i /\ nth_error L i = Some (snd x).
Proof.
  intros A L n i [a b] HL E. assert (H : forall s, nth_error (combine (seq s n) L) i = Some (a, b) -> a = s + i /\ nth_error L i = Some b).
  { clear E. subst n. revert i. induction L as [|z L IH]; intros [|i] s E; cbn in E; try discriminate.
    - injection E as <- <-. split; [lia|reflexivity].
    - destruct (IH _ _ E) as [-> E2]. split; [lia|exact E2]. }
  destruct (H 0 E). auto.
Qed.

(** The columns of the figure. *)
Definition figure_columns (o : result_object) (f : frames) : nat := match f with Several _ => o_keys o / 2 | One _ => 1 end.
Definition one_row (nc i : nat) (r : string * result_object) : result (string * place * drawing) :=
  do d <- object_plot (snd r) (Some (axes_row i nc)) ;; Ok (fst r, (i, 0), d).

Lemma spec_plot_eq : forall outputs k0 o0 l f0, 2 <= outputs -> length ((k0, o0) :: l) = outputs -> o_frames o0 = Ok f0 -> 1 <= figure_columns o0 f0 ->
  spec_plot outputs (PerOutput ((k0, o0) :: l)) = mapM (fun ir => one_row (figure_columns o0 f0) (fst ir) (snd ir)) (combine (seq 0 outputs) ((k0, o0) :: l)).
Proof.
  intros outputs k0 o0 l f0 H2 HL E0 HC. unfold spec_plot. assert (E1 : (outputs =? 1) = false) by (apply Nat.eqb_neq; lia). rewrite E1, E0. cbn [bind].
  fold (figure_columns o0 f0). assert (E2 : (outputs =? 0) = false) by (apply Nat.eqb_neq; lia). assert (E3 : (figure_columns o0 f0 =? 0) = false) by (apply Nat.eqb_neq; lia).
  rewrite E2, E3. cbn [orb]. apply mapM_ext. intros [i r] _. unfold one_row. cbn [fst snd]. destruct (object_plot _ _); [|reflexivity]. cbn [bind].
  unfold axes_row. destruct (figure_columns o0 f0) as [|[|n]]; [lia|reflexivity|reflexivity].
Qed.

Lemma spec_plot_rows : forall outputs k0 o0 l f0 (D : nat -> drawing), 2 <= outputs -> length ((k0, o0) :: l) = outputs -> o_frames o0 = Ok f0 -> 1 <= figure_columns o0 f0 ->
  (forall i k o, nth_error ((k0, o0) :: l) i = Some (k, o) -> object_plot o (Some (axes_row i (figure_columns o0 f0))) = Ok (D i)) ->
  spec_plot outputs (PerOutput ((k0, o0) :: l)) = Ok (map (fun ir => (fst (snd ir), (fst ir, 0), D (fst ir))) (combine (seq 0 outputs) ((k0, o0) :: l))).
Proof.
  intros outputs k0 o0 l f0 D H2 HL E0 HC H. rewrite (spec_plot_eq _ _ _ _ _ H2 HL E0 HC). rewrite <- mapM_Ok_map. apply mapM_ext.
  intros x I. apply In_nth_error in I as [i Hi]. destruct (enumerate_nth _ _ _ _ _ HL Hi) as [E1 E2]. destruct x as [a [k o]]. cbn [fst snd] in *. subst a.
  unfold one_row. cbn [fst snd]. rewrite (H _ _ _ E2). reflexivity.
Qed.

(** Results of one frame. *)
Theorem spec_plot_one : forall outputs l, 2 <= outputs -> length l = outputs ->
  (forall k o, In (k, o) l -> o_own_plot o = None /\ exists f c, o_frames o = Ok (One f) /\ bar_plot f = Ok c) ->
  exists out, spec_plot outputs (PerOutput l) = Ok out /\ length out = outputs /\
    forall i k o, nth_error l i = Some (k, o) -> exists f c, o_frames o = Ok (One f) /\ bar_plot f = Ok c /\ nth_error out i = Some (k, (i, 0), [((i, 0), c)]).
Proof.
  intros outputs l H2 HL HF. destruct l as [|[k0 o0] l']; [cbn in HL; lia|].
  destruct (HF k0 o0 (or_introl eq_refl)) as [_ (f0 & c0 & F0 & _)]. set (L := (k0, o0) :: l') in *.
  pose (ch := fun i => match nth_error L i with Some (_, o) => match o_frames o with Ok (One f) => match bar_plot f with Ok c => [((i, 0), c)] | _ => [] end | _ => [] end | None => [] end).
  assert (HC : forall i k o, nth_error L i = Some (k, o) -> exists f c, o_frames o = Ok (One f) /\ bar_plot f = Ok c /\ ch i = [((i, 0), c)] /\ object_plot o (Some (axes_row i 1)) = Ok (ch i)).
  { intros i k o E. destruct (HF _ _ (nth_error_In _ _ E)) as [HN (f & c & E2 & E3)]. exists f, c. assert (EC : ch i = [((i, 0), c)]) by (unfold ch; rewrite E, E2, E3; reflexivity).
    split; [exact E2|]. split; [exact E3|]. split; [exact EC|]. rewrite EC. unfold object_plot. rewrite HN, E2. cbn [bind result_plot axes_row Nat.eqb]. rewrite E3. reflexivity. }
  pose proof (spec_plot_rows outputs k0 o0 l' (One f0) ch H2 HL F0 (le_n 1)) as X. cbn [figure_columns] in X. fold L in X.
  rewrite X by (intros i k o E; destruct (HC _ _ _ E) as (f & c & _ & _ & _ & E4); exact E4).
  eexists. split; [reflexivity|]. split; [rewrite map_length, combine_length, seq_length; fold L; lia|].
  intros i k o E. destruct (HC _ _ _ E) as (f & c & E2 & E3 & E4 & _). exists f, c. split; [exact E2|]. split; [exact E3|].
  assert (Hi : i < outputs) by (rewrite <- HL; apply nth_error_Some; congruence). fold L.
  destruct (nth_error_lt_Some (combine (seq 0 outputs) L) (i := i)) as [x Hx]; [rewrite combine_length, seq_length; lia|].
  destruct (enumerate_nth _ _ _ _ _ HL Hx) as [X1 X2]. rewrite E in X2. injection X2 as X2. rewrite nth_error_map', Hx. cbn [option_map].
  destruct x as [a b]. cbn [fst snd] in *. subst a b. cbn [fst snd]. rewrite E4. reflexivity.
Qed.

(** Results of several frames: one column per frame when the first result's dictionary has twice as many keys as frames. *)
Theorem spec_plot_several : forall outputs l nf, 2 <= outputs -> length l = outputs -> 2 <= nf ->
  (forall k o, In (k, o) l -> o_own_plot o = None /\ nf <= o_keys o / 2 /\ exists fs cs, o_frames o = Ok (Several (map Some fs)) /\ length fs = nf /\ mapM bar_plot fs = Ok cs) ->
  exists out, spec_plot outputs (PerOutput l) = Ok out /\ length out = outputs /\
    forall i k o, nth_error l i = Some (k, o) -> exists fs cs, o_frames o = Ok (Several (map Some fs)) /\ mapM bar_plot fs = Ok cs /\
      nth_error out i = Some (k, (i, 0), combine (map (fun j => (i, j)) (seq 0 nf)) cs).
Proof.
  intros outputs l nf H2 HL HN HF. destruct l as [|[k0 o0] l']; [cbn in HL; lia|].
  destruct (HF k0 o0 (or_introl eq_refl)) as [_ (K0 & fs0 & cs0 & F0 & LF0 & _)]. set (L := (k0, o0) :: l') in *.
  pose (ch := fun i => match nth_error L i with Some (_, o) => match o_frames o with Ok (Several fs) => match mapM (fun f => match f with Some f => bar_plot f | None => Err AttributeError end) fs with Ok cs => combine (map (fun j => (i, j)) (seq 0 nf)) cs | _ => [] end | _ => [] end | None => [] end).
  assert (MS : forall fs, mapM (fun f => match f with Some f => bar_plot f | None => Err AttributeError end) (map Some fs) = mapM bar_plot fs).
  { induction fs as [|f fs IH]; [reflexivity|]. cbn [map mapM]. rewrite IH. reflexivity. }
  assert (HC : forall i k o, nth_error L i = Some (k, o) -> exists fs cs, o_frames o = Ok (Several (map Some fs)) /\ mapM bar_plot fs = Ok cs /\ ch i = combine (map (fun j => (i, j)) (seq 0 nf)) cs /\
     object_plot o (Some (axes_row i (o_keys o0 / 2))) = Ok (ch i)).
  { intros i k o E. destruct (HF _ _ (nth_error_In _ _ E)) as [HO (HK & fs & cs & E2 & LF & E3)]. exists fs, cs.
    assert (EC : ch i = combine (map (fun j => (i, j)) (seq 0 nf)) cs) by (unfold ch; rewrite E, E2, MS, E3; reflexivity).
    split; [exact E2|]. split; [exact E3|]. split; [exact EC|]. rewrite EC. unfold object_plot. rewrite HO, E2. cbn [bind result_plot].
    assert (AR : axes_row i (o_keys o0 / 2) = AxisArray (map (fun j => (i, j)) (seq 0 (o_keys o0 / 2)))).
    { unfold axes_row. destruct (Nat.eqb_spec (o_keys o0 / 2) 1); [lia|reflexivity]. }
    rewrite AR, map_length, LF. apply mapM_Ok_length in E3 as LC.
    assert (G : forall m, m <= nf -> mapM (fun idx => do f <- get (map Some fs) idx ;; do p <- axes_get (AxisArray (map (fun j => (i, j)) (seq 0 (o_keys o0 / 2)))) idx ;;
        match f with None => Err AttributeError | Some f => do c <- bar_plot f ;; Ok (p, c) end) (seq (nf - m) m) = Ok (combine (map (fun j => (i, j)) (seq (nf - m) m)) (skipn (nf - m) cs))).
    { induction m as [|m IH]; intros Hm; [reflexivity|]. cbn [seq mapM map]. replace (S (nf - S m)) with (nf - m) by lia. rewrite IH by lia.
      destruct (nth_error_lt_Some fs (i := nf - S m)) as [f Hf]; [lia|]. destruct (@mapM_Ok_nth _ _ _ _ _ _ _ E3 Hf) as (c & E4 & Hc).
      unfold get at 1. rewrite nth_error_map', Hf. cbn [option_map bind]. unfold axes_get, get. rewrite nth_error_map', nth_error_seq. destruct (Nat.ltb_spec (nf - S m) (o_keys o0 / 2)); [|lia].
      cbn [option_map bind]. rewrite E4. cbn [bind Nat.add].
      assert (SK : skipn (nf - S m) cs = c :: skipn (nf - m) cs).
      { clear - Hc Hm. replace (nf - m) with (S (nf - S m)) by lia. revert Hc. generalize (nf - S m). clear. intros n. revert n. induction cs as [|x cs IH]; intros [|n] E; cbn in *; try discriminate; [congruence|]. apply IH. exact E. }
      rewrite SK. reflexivity. }
    specialize (G nf (le_n _)). rewrite Nat.sub_diag in G. exact G. }
  assert (FC : figure_columns o0 (Several (map Some fs0)) = o_keys o0 / 2) by reflexivity.
  pose proof (spec_plot_rows outputs k0 o0 l' _ ch H2 HL F0) as X. rewrite FC in X. fold L in X.
  rewrite X by (try lia; intros i k o E; destruct (HC _ _ _ E) as (f & c & _ & _ & _ & E4); exact E4).
  eexists. split; [reflexivity|]. split; [rewrite map_length, combine_length, seq_length; fold L; lia|].
  intros i k o E. destruct (HC _ _ _ E) as (f & c & E2 & E3 & E4 & _). exists f, c. split; [exact E2|]. split; [exact E3|].
  assert (Hi : i < outputs) by (rewrite <- HL; apply nth_error_Some; congruence). fold L.
  destruct (nth_error_lt_Some (combine (seq 0 outputs) L) (i := i)) as [x Hx]; [rewrite combine_length, seq_length; lia|].
  destruct (enumerate_nth _ _ _ _ _ HL Hx) as [X1 X2]. rewrite E in X2. injection X2 as X2. rewrite nth_error_map', Hx. cbn [option_map].
  destruct x as [a b]. cbn [fst snd] in *. subst a b. cbn [fst snd]. rewrite E4. reflexivity.
Qed.

(** Results with a plot method of their own cannot be drawn for several outputs; neither can fractional factorial results without interactions. *)
Theorem spec_plot_own : forall outputs k0 o0 l f0 r, 2 <= outputs -> length ((k0, o0) :: l) = outputs -> o_frames o0 = Ok f0 -> 1 <= figure_columns o0 f0 ->
  o_own_plot o0 = Some r -> spec_plot outputs (PerOutput ((k0, o0) :: l)) = Err TypeError.
Proof.
  intros outputs k0 o0 l f0 r H2 HL E0 HC HO. rewrite (spec_plot_eq _ _ _ _ _ H2 HL E0 HC). destruct outputs as [|n]; [lia|]. cbn [seq combine mapM fst snd].
  unfold one_row at 1. cbn [fst snd]. unfold object_plot. rewrite HO. reflexivity.
Qed.
Theorem spec_plot_ff : forall outputs k0 o0 l, 2 <= outputs -> length ((k0, ff_object o0) :: l) = outputs -> length (ff_ME o0) = length (ff_names o0) -> ff_IE o0 = None ->
  spec_plot outputs (PerOutput ((k0, ff_object o0) :: l)) = Err TypeError.
Proof.
  intros outputs k0 o0 l H2 HL LM HI.
  assert (EF : exists f, o_frames (ff_object o0) = Ok (Several [Some f; None])).
  { unfold ff_object, ff_frames. cbn [o_frames]. rewrite make_frame_ok by (intros k c [E|[]]; injection E as <- <-; cbn; rewrite !map_length; exact LM). rewrite HI. cbn. eauto. }
  destruct EF as [f EF]. assert (FC : figure_columns (ff_object o0) (Several [Some f; None]) = 1) by (unfold figure_columns, ff_object; cbn; rewrite HI; reflexivity).
  rewrite (spec_plot_eq _ _ _ _ _ H2 HL EF) by lia. rewrite FC. destruct outputs as [|n]; [lia|]. cbn [seq combine mapM fst snd].
  unfold one_row at 1. cbn [fst snd]. unfold object_plot. rewrite EF. reflexivity.
Qed.

(** A result that can be drawn on its own consists of frames that can be drawn. *)
Lemma plot_several_inv : forall l d, result_plot (Several l) None = Ok d -> exists fs, l = map Some fs /\ mapM bar_plot fs = Ok (map snd d).
Proof.
  intros l d E. cbn [result_plot] in E. destruct (length l =? 0); [discriminate|]. cbn [bind] in E.
  assert (G : forall l2 l1 d2, l = l1 ++ l2 ->
     mapM (fun idx => do f <- get l idx ;; do p <- axes_get (axes_row 0 (length l)) idx ;; match f with None => Err AttributeError | Some f => do c <- bar_plot f ;; Ok (p, c) end)
       (seq (length l1) (length l2)) = Ok d2 -> exists fs, l2 = map Some fs /\ mapM bar_plot fs = Ok (map snd d2)).
  { induction l2 as [|f l2 IH]; intros l1 d2 EL EM; [exists []; cbn in EM; injection EM as <-; auto|].
    cbn [length seq mapM] in EM. assert (EG : get l (length l1) = Ok f) by (unfold get; rewrite EL, nth_error_app2, Nat.sub_diag by lia; reflexivity).
    rewrite EG in EM. cbn [bind] in EM. apply bind_ok in EM as (y & E1 & EM). apply bind_ok in E1 as (p & _ & E1). destruct f as [f|]; [|discriminate].
    apply bind_ok in E1 as (c & EC & E1). injection E1 as <-. apply bind_ok in EM as (d3 & EM & E2). injection E2 as <-.
    assert (EL' : l = (l1 ++ [Some f]) ++ l2) by (rewrite <- app_assoc; exact EL).
    destruct (IH (l1 ++ [Some f]) d3 EL') as (fs & E3 & E4). { rewrite app_length. cbn [length]. rewrite Nat.add_1_r. exact EM. }
    exists (f :: fs). split; [cbn; congruence|]. cbn [mapM map snd]. rewrite EC. cbn [bind]. rewrite E4. reflexivity. }
  apply (G l [] d eq_refl E).
Qed.

Lemma sobol_frames_several : forall p s f, sobol_frames p s = Ok f -> exists l, f = Several l.
Proof.
  intros p s f E. unfold sobol_frames in E. repeat (apply bind_ok in E as (? & _ & E)). destruct x as [[[idx v] vc]|]; [apply bind_ok in E as (? & _ & E)|]; injection E as <-; eauto.
Qed.

Lemma analyze_inv' : forall mu sigma Zq resample cpus p Y second conf keep workers s, sigma <> 0%R -> analyze_with mu sigma Zq resample cpus p Y second conf keep workers = Ok s ->
  (match S2 s with Some _ => second = true | None => second = false end) /\ (match S2_conf s with Some _ => second = true | None => second = false end).
Proof.
  intros mu sigma Zq rs cpus p Y second conf keep workers s HS HA. destruct (analyze_inv _ _ _ _ _ _ _ _ _ _ _ _ HS HA) as (N & A & B & AB & BA & _ & _ & _ & _ & _ & _ & _ & _ & _ & Hsh & _).
  destruct Hsh as (_ & _ & _ & _ & Q1 & Q2). split; [destruct (S2 s); [apply Q1|exact Q1]|destruct (S2_conf s); [apply Q2|exact Q2]].
Qed.

(** Sobol' results of several outputs. *)
Theorem spec_plot_sobol : forall outputs l (second : bool), 2 <= outputs -> length l = outputs ->
  (forall k o, In (k, o) l -> exists mu sigma Zq resample cpus p Y conf keep workers s n,
     sigma <> 0%R /\ analyze_with mu sigma Zq resample cpus p Y second conf keep workers = Ok s /\ (0 <= Zq conf)%R /\ 2 <= length (fst (extract_group_names p)) /\ o = sobol_object p s n) ->
  exists out, spec_plot outputs (PerOutput l) = Ok out /\ length out = outputs /\
    forall i k o, nth_error l i = Some (k, o) -> exists d, object_plot o None = Ok d /\ nth_error out i = Some (k, (i, 0), map (fun pc => ((i, snd (fst pc)), snd pc)) d).
Proof.
  intros outputs l second H2 HL HF. set (nf := if second then 3 else 2).
  assert (P : forall k o, In (k, o) l -> exists d fs, object_plot o None = Ok d /\ map fst d = map (fun j => (0, j)) (seq 0 nf) /\ o_own_plot o = None /\ nf <= o_keys o / 2 /\
     o_frames o = Ok (Several (map Some fs)) /\ length fs = nf /\ mapM bar_plot fs = Ok (map snd d)).
  { intros k o I. destruct (HF _ _ I) as (mu & sigma & Zq & rs & cpus & p & Y & conf & keep & workers & s & n & HS & HA & HZ & HG & ->).
    destruct (sobol_charted _ _ _ _ _ _ _ _ _ _ _ _ n HS HA HZ) as (C1 & C2 & _).
    assert (X : exists d, object_plot (sobol_object p s n) None = Ok d /\ map fst d = map (fun j => (0, j)) (seq 0 nf)).
    { destruct second; [destruct (C2 eq_refl HG) as (idx & v & vc & _ & E); rewrite E|rewrite (C1 eq_refl)]; (eexists; split; [reflexivity|reflexivity]). }
    destruct X as (d & E & ED). unfold object_plot in E. cbn [sobol_object o_own_plot o_frames] in E. destruct (sobol_frames p s) as [f|] eqn:EF; [|discriminate].
    destruct (sobol_frames_several _ _ _ EF) as [fl ->]. cbn [bind] in E. destruct (plot_several_inv _ _ E) as (fs & -> & EM).
    exists d, fs. split; [unfold object_plot; cbn [sobol_object o_own_plot o_frames]; rewrite EF; exact E|]. split; [exact ED|]. split; [reflexivity|]. split; [|split; [exact EF|split; [|exact EM]]].
    - cbn [sobol_object o_keys]. destruct (analyze_inv' _ _ _ _ _ _ _ _ _ _ _ _ HS HA) as [Q1 Q2]. unfold sobol_items, nf. destruct second.
      + destruct (S2 s); [|discriminate]. destruct (S2_conf s); [|discriminate]. rewrite !app_length. cbn [length]. destruct (S1_conf_all s), (ST_conf_all s); cbn; lia.
      + rewrite !app_length. cbn [length]. destruct (S1_conf_all s), (ST_conf_all s), (S2 s), (S2_conf s); cbn; lia.
    - apply mapM_Ok_length in EM. rewrite map_length in EM. rewrite <- EM. rewrite <- (map_length fst d), ED, map_length, seq_length. reflexivity. }
  destruct (spec_plot_several outputs l nf H2 HL) as (out & E & LO & HO).
  - unfold nf. destruct second; lia.
  - intros k o I. destruct (P k o I) as (d & fs & _ & _ & A1 & A2 & A3 & A4 & A5). split; [exact A1|]. split; [exact A2|]. exists fs, (map snd d). auto.
  - exists out. split; [exact E|]. split; [exact LO|]. intros i k o EN. destruct (P k o (nth_error_In _ _ EN)) as (d & fs & A0 & AD & A1 & A2 & A3 & A4 & A5).
    exists d. split; [exact A0|]. destruct (HO _ _ _ EN) as (fs' & cs' & B1 & B2 & B3). rewrite B3. do 2 f_equal.
    rewrite A3 in B1. injection B1 as B1. assert (fs = fs'). { clear - B1. revert fs' B1. induction fs as [|a fs IH]; intros [|b fs'] E; try discriminate; [reflexivity|]. cbn in E. injection E as -> E. f_equal. apply IH, E. }
    subst fs'. rewrite A5 in B2. injection B2 as <-. clear - AD. assert (EI : map (fun j => (i, j)) (seq 0 nf) = map (fun q : place => (i, snd q)) (map fst d)).
    { rewrite AD, map_map. reflexivity. }
    rewrite EI, map_map. clear. induction d as [|[[a b] c] d IH]; [reflexivity|]. cbn [map combine fst snd]. rewrite IH. reflexivity.
Qed.
