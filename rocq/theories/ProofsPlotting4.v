(** * Charts of the Sobol' analyser's and the fractional factorial analyser's results *)
From Coq Require Import Reals String List Arith Lia Lra Bool.
From Verif Require Import Base Arrays ListFacts ModelGroups ModelScale Stats ModelSobol ModelFF ModelPlotting SpecPlotting
  ProofsGroups ProofsSobol3 ProofsSobol4 ProofsSobol7 ProofsFF ProofsFF2 ProofsPlotting ProofsPlotting2.
Import ListNotations.
Local Open Scope nat_scope.

Lemma confidence_quiet : forall Z e, (0 <= Z)%R -> not_negative (confidence Z e).
Proof.
  intros Z e H v E. unfold confidence, fmul in E. destruct (est_std e) as [s|] eqn:ES; [|discriminate]. injection E as <-.
  apply Rmult_le_pos; [exact H|]. unfold est_std in ES. destruct e as [x|l]; [discriminate|]. destruct (all_some l) as [xs|]; [|discriminate].
  unfold sd1 in ES. destruct (_ <? _)%nat; [discriminate|]. injection ES as <-. apply sqrt_pos.
Qed.
Lemma zero_quiet : not_negative (Some 0%R).
Proof. intros v E. injection E as <-. lra. Qed.
Lemma none_quiet : not_negative None.
Proof. intros v E. discriminate. Qed.

Definition pair_names (l : list (string * string)) : list (list string) := map (fun i => [fst i; snd i]) l.

Lemma pair_bar : forall index k k' a b, (forall x, In x b -> not_negative x) -> k' = conf_name k -> contains "_conf" k = false ->
  bar_plot (mkFrame index [(k, Numbers a); (k', Numbers b)]) = Ok (mkChart index [mkBars k a (Some b)]).
Proof.
  intros index k k' a b H -> NC. unfold bar_plot. cbn [fr_columns fr_index filter fst]. rewrite NC. assert (MC : contains "_conf" (conf_name k) = true) by apply contains_spec, conf_mentions.
  rewrite MC. cbn [negb numeric flat_map snd fst app map]. rewrite erase_conf by (apply contains_false; exact NC). cbn [filter existsb fst]. rewrite String.eqb_refl. cbn [orb existsb snd].
  rewrite quiet by exact H. cbn [orb map fst snd find_column]. rewrite String.eqb_refl. reflexivity.
Qed.

(** The frames of a result of the right shape whose confidences are not negative. *)
Lemma sobol_drawn : forall p s n, let names := fst (extract_group_names p) in
  length (S1 s) = length names -> length (S1_conf s) = length names -> length (ST s) = length names -> length (ST_conf s) = length names ->
  (forall x, In x (S1_conf s) -> not_negative x) -> (forall x, In x (ST_conf s) -> not_negative x) ->
  let base := [((0, 0), mkChart (singles names) [mkBars "ST" (ST s) (Some (ST_conf s))]); ((0, 1), mkChart (singles names) [mkBars "S1" (S1 s) (Some (S1_conf s))])] in
  (second_frame p s = Ok None -> object_plot (sobol_object p s n) None = Ok base) /\
  (forall idx v vc, second_frame p s = Ok (Some (idx, v, vc)) -> length v = length idx -> length vc = length idx -> (forall x, In x vc -> not_negative x) ->
     object_plot (sobol_object p s n) None = Ok (base ++ [((0, 2), mkChart (pair_names idx) [mkBars "S2" v (Some vc)])])) /\
  (forall e, second_frame p s = Err e -> object_plot (sobol_object p s n) None = Err e).
Proof.
  intros p s n names L1 L2 L3 L4 Q1 Q2 base.
  assert (FT : make_frame (singles names) [("ST", Numbers (ST s)); ("ST_conf", Numbers (ST_conf s))]%string = Ok (mkFrame (singles names) [("ST", Numbers (ST s)); ("ST_conf", Numbers (ST_conf s))]%string)).
  { apply make_frame_ok. intros k c [E|[E|[]]]; injection E as <- <-; cbn; rewrite singles_length; assumption. }
  assert (FF : make_frame (singles names) [("S1", Numbers (S1 s)); ("S1_conf", Numbers (S1_conf s))]%string = Ok (mkFrame (singles names) [("S1", Numbers (S1 s)); ("S1_conf", Numbers (S1_conf s))]%string)).
  { apply make_frame_ok. intros k c [E|[E|[]]]; injection E as <- <-; cbn; rewrite singles_length; assumption. }
  unfold object_plot, sobol_object, sobol_frames. cbn [o_own_plot o_frames]. change (map (fun n0 : string => [n0]) (fst (extract_group_names p))) with (singles names).
  split; [|split].
  - intros E. rewrite E. cbn [bind]. rewrite FT. cbn [bind]. rewrite FF. cbn [bind]. cbn -[bar_plot]. rewrite !pair_bar by (assumption || reflexivity). reflexivity.
  - intros idx v vc E E1 E2 Q3. rewrite E. cbn [bind]. rewrite FT. cbn [bind]. rewrite FF. cbn [bind].
    rewrite make_frame_ok by (intros k c [X|[X|[]]]; injection X as <- <-; cbn; rewrite map_length; assumption).
    cbn -[bar_plot]. rewrite !pair_bar by (assumption || reflexivity). reflexivity.
  - intros e E. rewrite E. reflexivity.
Qed.

Lemma value_quiet : forall Z A B AB BA r (w : bool) t, (0 <= Z)%R -> (fst (fst t) = kS1c \/ fst (fst t) = kSTc \/ fst (fst t) = kS2c) ->
  not_negative ((if w then ser_value Z A B AB BA r else par_value Z A B AB BA r) t).
Proof.
  intros Z A B AB BA r w [[d j] k] HZ H. cbn [fst] in H.
  assert (P : not_negative (par_value Z A B AB BA r (d, j, k))) by (destruct H as [-> | [-> | -> ]]; destruct k; cbn [par_value]; first [apply confidence_quiet; exact HZ|apply none_quiet]).
  destruct w; [|exact P]. destruct H as [-> | [-> | -> ]]; cbn [ser_value]; [| |exact P]; destruct (Reqb _ _); auto using zero_quiet.
Qed.

Theorem sobol_charted : forall mu sigma Zq resample cpus p Y second conf keep workers s n,
  sigma <> 0%R -> analyze_with mu sigma Zq resample cpus p Y second conf keep workers = Ok s -> (0 <= Zq conf)%R ->
  let names := fst (extract_group_names p) in
  let base := [((0, 0), mkChart (singles names) [mkBars "ST" (ST s) (Some (ST_conf s))]); ((0, 1), mkChart (singles names) [mkBars "S1" (S1 s) (Some (S1_conf s))])] in
  (second = false -> object_plot (sobol_object p s n) None = Ok base) /\
  (second = true -> 2 <= length names -> exists idx v vc, second_frame p s = Ok (Some (idx, v, vc)) /\
     object_plot (sobol_object p s n) None = Ok (base ++ [((0, 2), mkChart (pair_names idx) [mkBars "S2" v (Some vc)])])) /\
  (second = true -> length names = 1 -> object_plot (sobol_object p s n) None = Err IndexError).
Proof.
  intros mu sigma Zq resample cpus p Y second conf keep workers s n HS HA HZ names base.
  destruct (analyze_inv _ _ _ _ _ _ _ _ _ _ _ _ HS HA) as (N & A & B & AB & BA & HYl & HN & HR & Es & LA & LB & LAB & FAB & HBA & Hsh & Hcov & _).
  assert (ED : snd (extract_group_names p) = length names) by (unfold names; rewrite extract_group_names_eq; reflexivity).
  destruct Hsh as (L1 & L2 & L3 & L4 & Q1 & Q2). rewrite ED in *.
  set (val := match workers with None => _ | Some _ => _ end) in Hcov.
  assert (HV : forall t, (fst (fst t) = kS1c \/ fst (fst t) = kSTc \/ fst (fst t) = kS2c) -> not_negative (val t)).
  { intros t H. subst val. destruct workers; [apply (value_quiet _ _ _ _ _ _ false); assumption|apply (value_quiet _ _ _ _ _ _ true); assumption]. }
  assert (C1 : forall x, In x (S1_conf s) -> not_negative x).
  { intros x I. apply In_nth_error in I as [j Hj]. assert (j < length names) by (rewrite <- L2; apply nth_error_Some; congruence).
    destruct (Hcov (kS1c, j, None)) as [H1 _]. cbn [read] in H1. rewrite H1 in Hj by (apply in_first_tasks; simpl; auto). injection Hj as <-. apply HV. auto. }
  assert (CT : forall x, In x (ST_conf s) -> not_negative x).
  { intros x I. apply In_nth_error in I as [j Hj]. assert (j < length names) by (rewrite <- L4; apply nth_error_Some; congruence).
    destruct (Hcov (kSTc, j, None)) as [H1 _]. cbn [read] in H1. rewrite H1 in Hj by (apply in_first_tasks; simpl; auto). injection Hj as <-. apply HV. auto. }
  destruct (sobol_drawn p s n L1 L2 L3 L4 C1 CT) as (D1 & D2 & D3). split; [|split].
  - intros ->. apply D1. unfold second_frame. destruct (S2 s); [destruct Q1; discriminate|reflexivity].
  - intros -> H2. rewrite <- ED in H2. destruct (second_report _ _ _ _ _ _ _ _ _ _ _ HS H2 HA) as (idx & v & vc & EF & ND & LV & LC & HI & HV2).
    exists idx, v, vc. split; [exact EF|]. apply D2; [exact EF|exact LV|exact LC|].
    intros x I. apply In_nth_error in I as [q Hq]. assert (Hl : q < length idx) by (rewrite <- LC; apply nth_error_Some; congruence).
    destruct (nth_error_lt_Some idx (i := q) Hl) as [[a b] Hab].
    destruct (proj1 (HI a b) (nth_error_In _ _ Hab)) as (j & k & Hjk & Ha & Hb).
    destruct (HV2 _ _ _ _ _ Hab Ha Hb) as (m & mc & E1 & E2 & _ & Ec). rewrite Hq in Ec.
    destruct (Hcov (kS2c, j, Some k)) as [H1 _]. cbn [read] in H1. rewrite E2, <- Ec in H1.
    assert (HX : Some x = Some (val (kS2c, j, Some k))). { apply H1. apply in_second_tasks; [exact Hjk| |simpl; auto]. apply nth_error_Some. fold names in Hb. congruence. }
    injection HX as ->. apply HV. auto.
  - intros -> H1. apply D3. apply (second_report_single _ _ _ _ _ _ _ _ _ _ _ HS (eq_trans ED H1) HA).
Qed.

(** ** Fractional factorial *)
Theorem ff_charted : forall o, length (ff_ME o) = length (ff_names o) ->
  (ff_IE o = None \/ ff_IE o = Some [] -> object_plot (ff_object o) None = Err AttributeError) /\
  (forall e l, ff_IE o = Some (e :: l) ->
     object_plot (ff_object o) None = Ok [((0, 0), mkChart (singles (ff_names o)) [mkBars "ME" (map Some (ff_ME o)) None]);
                                          ((0, 1), mkChart (pair_names (map fst (e :: l))) [mkBars "IE" (map (fun e => Some (snd e)) (e :: l)) None])]).
Proof.
  intros o L. unfold object_plot, ff_object, ff_frames. cbn [o_own_plot o_frames].
  rewrite make_frame_ok by (intros k c [E|[]]; injection E as <- <-; cbn; rewrite !map_length; exact L). cbn [bind]. split.
  - intros [->| ->]; reflexivity.
  - intros e l ->. rewrite make_frame_ok by (intros k c [E|[]]; injection E as <- <-; cbn; rewrite !map_length; reflexivity). cbn [bind].
    unfold pair_names. rewrite map_map. reflexivity.
Qed.

Theorem ff_analyze_charted : forall p Y second o, snd (ff_analyze p Y second) = Ok o -> length (p_names p) = p_num_vars p ->
  (second = false \/ p_num_vars p < 2 -> object_plot (ff_object o) None = Err AttributeError) /\
  (second = true -> 2 <= p_num_vars p -> exists l, ff_IE o = Some l /\
     object_plot (ff_object o) None = Ok [((0, 0), mkChart (singles (ff_names o)) [mkBars "ME" (map Some (ff_ME o)) None]);
                                          ((0, 1), mkChart (pair_names (map fst l)) [mkBars "IE" (map (fun e => Some (snd e)) l) None])]).
Proof.
  intros p Y second o E L.
  destruct (le_lt_dec (p_num_vars p) 512) as [H|H].
  2:{ destruct (extend_refused p H) as [X _]. unfold ff_analyze in E. rewrite X in E. discriminate. }
  destruct (extend_ok p H) as (k & Hk & H1 & H2 & _).
  destruct (Nat.eq_dec (length Y) (2 * 2 ^ k)) as [LY|LY]; [|rewrite (ff_analyze_length p k Y second Hk H1 H2 H LY) in E; discriminate].
  assert (EY : Y = map (fun i => nth i Y 0%R) (seq 0 (2 ^ k + 2 ^ k))).
  { apply (nth_ext _ _ 0%R 0%R); [rewrite map_length, seq_length; lia|]. intros i Hi. rewrite nth_map_seq by lia. reflexivity. }
  rewrite EY in E. rewrite (proj1 (ff_analyze_ok p k _ second Hk H1 H2 H L)) in E. cbn [snd] in E. injection E as <-.
  assert (LM : length (ff_ME (ff_value p k (fun i => nth i Y 0%R) second)) = length (ff_names (ff_value p k (fun i => nth i Y 0%R) second))).
  { cbn [ff_value ff_ME ff_names]. rewrite map_length, seq_length. symmetry. apply padded_names_len; assumption. }
  destruct (ff_charted _ LM) as [C1 C2]. split.
  - intros [->|HS]; apply C1; [left; reflexivity|]. destruct second; [right|left; reflexivity].
    assert (k = 0) by (assert (k <= 0) by (apply H2; simpl; lia); lia). subst k. reflexivity.
  - intros -> HS. assert (2 <= 2 ^ k) by lia.
    destruct (ff_IE (ff_value p k (fun i => nth i Y 0%R) true)) as [[|e l]|] eqn:EI; cbn [ff_value ff_IE] in EI.
    + exfalso. injection EI as EI. assert (I : In (1, 0) (pairs_of (2 ^ k))) by (apply pairs_of_In; lia). destruct (pairs_of (2 ^ k)); [exact I|discriminate].
    + exists (e :: l). split; [reflexivity|]. exact (C2 e l eq_refl).
    + discriminate.
Qed.
