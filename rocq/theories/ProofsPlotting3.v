(** * Charts of the delta analyser's results *)
From Coq Require Import Reals String List Arith ZArith Bool Lia Lra.
From Verif Require Import Base Arrays ModelGroups ModelScale Stats Sums ModelFast Quant ModelRsa ModelDelta ProofsFast2 ProofsDelta6 ModelPlotting SpecPlotting ProofsPlotting ProofsPlotting2.
Import ListNotations.
Local Open Scope nat_scope.

Lemma half_width_quiet : forall nq conf l, (0 <= nq (1 / 2 + conf / 2))%R -> not_negative (half_width nq conf l).
Proof.
  intros nq conf l B v E. unfold half_width in E. destruct (sd1 l) as [s|] eqn:ES; [|discriminate]. injection E as <-.
  unfold sd1 in ES. destruct (_ <? _)%nat; [discriminate|]. injection ES as <-. apply Rmult_le_pos; [exact B|apply sqrt_pos].
Qed.

Definition cell_quiet (s : cell) : Prop := (forall mo, not_negative (c_delta_conf s mo)) /\ not_negative (c_S1_conf s).

Lemma delta_param_quiet : forall kde nq dc sc Y X wd ws n conf y spec c, delta_param kde nq dc sc Y X wd ws n conf y spec = Ok c -> (0 <= nq (1 / 2 + conf / 2))%R -> cell_quiet c.
Proof.
  intros kde nq dc sc Y X wd ws n conf y spec c E B. unfold delta_param in E. cbv zeta in E.
  apply bind_ok in E as (en & _ & E).
  assert (N : not_negative None) by (intros v EV; discriminate).
  set (steps := (_ ++ _)%list) in E. set (s0 := mkCell _ _ _ _ _ _) in E.
  assert (P : cell_quiet (fst (run_all steps s0))).
  { apply run_all_inv; [|split; [intros mo|]; exact N]. intros f s s' I [Q1 Q2] EF. subst steps. apply in_app_iff in I as [I|I].
    - destruct wd; [|destruct I]. apply in_app_iff in I as [I|[<-|[]]].
      + apply in_map_iff in I as (mo & <- & _). unfold run_mode in EF. destruct (_ && _).
        * injection EF as <-. split; [|exact Q2]. intros mo'. cbn. unfold set_mode. destruct (mode_eqb Step mo'); [exact N|apply Q1].
        * apply bind_ok in EF as (v & EV & EF). injection EF as <-. split; [|exact Q2]. intros mo'. cbn. unfold set_mode. destruct (mode_eqb mo mo'); [|apply Q1].
          unfold bias_reduced in EV. repeat (apply bind_ok in EV as (? & _ & EV)). injection EV as <-. cbn [fst snd]. apply half_width_quiet, B.
      + unfold note_diff in EF. injection EF as <-. destruct (c_delta s Balanced); [|split; assumption]. destruct (c_delta s Raw); [|split; assumption].
        destruct (Rlt_dec _ _); split; assumption.
    - destruct ws; [|destruct I]. destruct I as [<-|[<-|[]]].
      + unfold run_S1 in EF. repeat (apply bind_ok in EF as (? & _ & EF)). injection EF as <-. split; assumption.
      + unfold run_S1_conf in EF. apply bind_ok in EF as (w & EW & EF). injection EF as <-. split; [exact Q1|]. cbn.
        unfold sobol_conf in EW. apply bind_ok in EW as (ss & _ & EW). injection EW as <-. intros v EV. exact (width_nonneg _ _ _ B EV). }
  unfold finish in E. destruct (run_all steps s0) as [s [e|]]; cbn [fst] in P.
  - destruct e; try discriminate; injection E as <-; exact P.
  - injection E as <-; exact P.
Qed.

Definition delta_bars (o : delta_out) : list bars :=
  match d_delta o, d_delta_conf o with
   | Some d, Some c => [mkBars "delta_balanced" (d Balanced) (Some (c Balanced)); mkBars "delta_raw" (d Raw) (Some (c Raw)); mkBars "delta_step" (d Step) (Some (c Step))]
   | _, _ => [] end
  ++ match d_S1 o, d_S1_conf o with Some s, Some c => [mkBars "S1" s (Some c)] | _, _ => [] end.

Theorem delta_charted : forall kde nq dc sc p X Y n conf y method specs o, delta_analyze kde nq dc sc p X Y n conf y method specs = Ok o ->
  length (p_names p) = p_num_vars p -> (0 <= nq (1 / 2 + conf / 2))%R ->
  object_plot (inherited (delta_items o)) None = Ok [((0, 0), mkChart (singles (p_names p)) (delta_bars o))].
Proof.
  intros kde nq dc sc p X Y n conf y method specs o E L B. unfold delta_analyze in E.
  destruct (negb _); [discriminate|]. destruct (negb _); [discriminate|]. destruct (negb (existsb _ _)) eqn:EM; [discriminate|]. cbv zeta in E.
  destruct (negb (_ <=? _)); [discriminate|]. destruct Y as [|y0 Y']; [discriminate|]. destruct (existsb _ (p_names p)); [discriminate|].
  apply bind_ok in E as (cs & EC & E). injection E as <-.
  assert (LL : length cs = p_num_vars p) by (apply mapM_Ok_length in EC; rewrite seq_length in EC; exact EC).
  assert (Q : forall c, In c cs -> cell_quiet c).
  { intros c I. destruct (mapM_In _ _ _ _ _ _ EC I) as (i & _ & EI). apply bind_ok in EI as (nm & _ & EI). apply bind_ok in EI as (Xi & _ & EI).
    exact (delta_param_quiet _ _ _ _ _ _ _ _ _ _ _ _ _ EI B). }
  assert (Q1 : forall mo x, In x (map (fun c => c_delta_conf c mo) cs) -> not_negative x) by (intros mo x I; apply in_map_iff in I as (c & <- & I); apply (Q c I)).
  assert (Q2 : forall x, In x (map c_S1_conf cs) -> not_negative x) by (intros x I; apply in_map_iff in I as (c & <- & I); apply (Q c I)).
  unfold object_plot, inherited, result_frame, delta_items, delta_bars.
  assert (W : negb (method =? "sobol")%string = false -> negb (method =? "delta")%string = false -> False).
  { intros W1 W2. apply negb_false_iff, String.eqb_eq in W1, W2. congruence. }
  destruct (negb (method =? "sobol")%string), (negb (method =? "delta")%string); try (exfalso; apply W; reflexivity); destruct (existsb c_done cs); cbn -[make_frame bar_plot];
    (framed tt; charted_by; rewrite ?(quiet _ (Q1 Balanced)), ?(quiet _ (Q1 Raw)), ?(quiet _ (Q1 Step)), ?(quiet _ Q2); reflexivity).
Qed.
