(** * Proofs: the results of the analysers can be converted and drawn. *)
From Coq Require Import Reals String List Arith Lia Lra Bool.
From Verif Require Import Base ListFacts ModelGroups ModelScale Stats ModelSobol ModelFast ModelMorrisAnalyze ModelRbd ModelDgsm ModelPawn ModelFF ModelDelta ModelPlotting SpecPlotting
  ProofsGroups ProofsFast2 ProofsMorris7 ProofsSobol3 ProofsSobol4 ProofsSobol7 ProofsPlotting.
Import ListNotations.
Local Open Scope nat_scope.

Definition singles (names : list string) : list (list string) := map (fun n => [n]) names.
Lemma singles_length : forall l, length (singles l) = length l.
Proof. intros. apply map_length. Qed.

Lemma quiet : forall l, (forall x, In x l -> not_negative x) -> existsb negative l = false.
Proof.
  intros l H. destruct (existsb negative l) eqn:E; [|reflexivity]. apply existsb_exists in E as ([v|] & I & N); [|discriminate].
  cbn in N. unfold Rltb in N. destruct (Rlt_dec v 0); [|discriminate]. specialize (H _ I v eq_refl). lra.
Qed.

Lemma make_frame_ok : forall index cs, (forall k c, In (k, c) cs -> column_length c = length index) -> make_frame index cs = Ok (mkFrame index cs).
Proof.
  intros index cs H. unfold make_frame. destruct (forallb _ cs) eqn:E; [reflexivity|]. exfalso.
  assert (T : forallb (fun c : string * column => column_length (snd c) =? length index) cs = true).
  { apply forallb_forall. intros [k c] I. apply Nat.eqb_eq. apply (H k c I). }
  congruence.
Qed.

Lemma mapM_In : forall A B (f : A -> result B) l ys y, mapM f l = Ok ys -> In y ys -> exists x, In x l /\ f x = Ok y.
Proof.
  intros A B f. induction l as [|a l IH]; intros ys y E I; cbn in E; [injection E as <-; destruct I|].
  destruct (f a) as [b|] eqn:EA; [|discriminate]. cbn [bind] in E. destruct (mapM f l) as [bs|]; [|discriminate]. cbn [bind] in E. injection E as <-.
  destruct I as [<-|I]; [exists a; split; [left; reflexivity|exact EA]|]. destruct (IH bs y eq_refl I) as (x & X1 & X2). exists x. split; [right; exact X1|exact X2].
Qed.

(** Frames of an index and its confidence interval. *)
Lemma pair_chart : forall index k a b, length a = length index -> length b = length index -> (forall x, In x b -> not_negative x) -> contains "_conf" k = false ->
  (do f <- make_frame index [(k, Numbers a); (conf_name k, Numbers b)] ;; bar_plot f) = Ok (mkChart index [mkBars k a (Some b)]).
Proof.
  intros index k a b LA LB H NC. rewrite make_frame_ok.
  2: { intros k' c [E|[E|[]]]; injection E as <- <-; cbn; assumption. }
  cbn [bind]. unfold bar_plot. cbn [fr_columns fr_index filter fst]. rewrite NC. assert (MC : contains "_conf" (conf_name k) = true) by apply contains_spec, conf_mentions.
  rewrite MC. cbn [negb numeric flat_map snd fst app map]. rewrite erase_conf by (apply contains_false; exact NC). cbn [filter existsb fst]. rewrite String.eqb_refl. cbn [orb existsb snd].
  rewrite quiet by exact H. cbn [orb map fst snd find_column]. rewrite String.eqb_refl. reflexivity.
Qed.

(** ** Morris *)
Lemma fmul_sd_quiet : forall z l, (0 <= z)%R -> not_negative (ModelMorrisAnalyze.fmul (Some z) (fsd1 l)).
Proof.
  intros z l Z v E. unfold ModelMorrisAnalyze.fmul in E. destruct (fsd1 l) as [s|] eqn:ES; [|discriminate]. injection E as <-. apply fsd1_nonneg in ES. apply Rmult_le_pos; assumption.
Qed.

Theorem morris_charted : forall nq p X Y conf_level scaled levels resample o,
  snd (morris_analyze nq p X Y conf_level scaled levels resample) = Ok o -> (0 <= nq (1 / 2 + conf_level / 2))%R ->
  object_plot (inherited (morris_items o)) None
  = Ok [((0, 0), mkChart (singles (m_names o)) [mkBars "mu" (m_mu o) None; mkBars "mu_star" (m_mu_star o) (Some (m_conf o)); mkBars "sigma" (m_sigma o) None])].
Proof.
  intros nq p X Y cl scaled levels resample o E Z.
  assert (H : length (m_mu o) = length (m_names o) /\ length (m_mu_star o) = length (m_names o) /\ length (m_sigma o) = length (m_names o) /\
    length (m_conf o) = length (m_names o) /\ forall x, In x (m_conf o) -> not_negative x).
  { unfold morris_analyze in E. destruct (define_problem_with_groups p) as [p1|]; [|discriminate]. cbn [snd] in E.
    destruct (ModelMorris.compute_delta levels); [|discriminate]. cbn [bind] in E. destruct (compute_groups_matrix _) as [[groups names]|]; [|discriminate]. cbn [bind] in E.
    destruct (_ =? 0); [discriminate|]. destruct (elementary_effects _ _ _ _ _ _) as [EE|]; [|discriminate]. cbn [bind] in E.
    destruct (mu_star_confidence _ _ _ _ _) as [conf|] eqn:EC; [|discriminate]. cbn [bind] in E. destruct (negb _); [discriminate|]. injection E as <-. cbn.
    unfold grouped_metric, grouped_sigma. rewrite !map_length, !seq_length. repeat split.
    intros x I v EV. subst x. apply in_map_iff in I as (k & EK & _). apply (fmean_nonneg _ (fun j => nth j conf None) _) in EK; [exact EK|].
    intros j y EY. unfold mu_star_confidence in EC. destruct (negb _); [discriminate|].
    destruct (nth_in_or_default j conf None) as [I|D]; [|rewrite D in EY; discriminate]. rewrite EY in I.
    destruct (mapM_In _ _ _ _ _ _ EC I) as (j0 & _ & EC'). clear EC. rename EC' into EC.
    destruct (get EE j0) as [ee|]; [|discriminate]. cbn [bind] in EC. injection EC as EC.
    exact (fmul_sd_quiet _ _ Z y EC). }
  destruct H as (L1 & L2 & L3 & L4 & Q). unfold object_plot, inherited, result_frame, morris_items. cbn [o_own_plot o_frames item String.eqb Ascii.eqb Bool.eqb].
  cbn -[make_frame bar_plot]. rewrite make_frame_ok.
  2: { intros k c I. cbn in I. rewrite map_length. repeat (destruct I as [I|I]; [injection I as <- <-; cbn; assumption|]). destruct I. }
  cbn -[bar_plot]. unfold bar_plot. cbn -[negative existsb]. cbn [existsb fst String.eqb Ascii.eqb Bool.eqb orb snd]. rewrite (quiet _ Q). reflexivity.
Qed.

(** ** FAST, RBD-FAST, DGSM *)
Lemma bind_ok : forall (A B : Type) (r : result A) (f : A -> result B) y, (do x <- r ;; f x) = Ok y -> exists x, r = Ok x /\ f x = Ok y.
Proof. intros A B r f y E. destruct r as [x|e]; [|discriminate]. exists x. split; [reflexivity|exact E]. Qed.

Ltac framed L := rewrite make_frame_ok; [|let k := fresh in let c := fresh in let I := fresh in intros k c I; cbn in I; rewrite map_length;
  repeat (destruct I as [I|I]; [injection I as <- <-; cbn; rewrite ?map_length; first [assumption | lia]|]); destruct I].
Ltac charted_by := cbn -[bar_plot]; unfold bar_plot; cbn -[negative existsb]; cbn [existsb fst String.eqb Ascii.eqb Bool.eqb orb snd].

Theorem fast_charted : forall D Y M bnd draws names l, fast_analyze D Y M bnd draws = Ok l -> length names = D -> (0 <= bnd)%R ->
  object_plot (inherited (fast_items names l)) None
  = Ok [((0, 0), mkChart (singles names) [mkBars "S1" (map f_S1 l) (Some (map f_S1c l)); mkBars "ST" (map f_ST l) (Some (map f_STc l))])].
Proof.
  intros D Y M bnd draws names l E L B. unfold fast_analyze in E. destruct (D =? 0); [discriminate|]. destruct (negb _); [discriminate|]. destruct (M =? 0); [discriminate|].
  cbv zeta in E. assert (LL : length l = D) by (apply mapM_Ok_length in E; rewrite seq_length in E; exact E).
  assert (Q : forall x, In x l -> not_negative (f_S1c x) /\ not_negative (f_STc x)).
  { intros x I. destruct (mapM_In _ _ _ _ _ _ E I) as (i & _ & EI). destruct (compute_orders _ _ _); [|discriminate]. cbn [bind] in EI.
    destruct (bootstrap _ _ _ _) as [c|] eqn:EB; [|discriminate]. cbn [bind] in EI. injection EI as <-. cbn [f_S1c f_STc].
    unfold bootstrap in EB. destruct (mapM _ (draws i)); [|discriminate]. cbn [bind] in EB. injection EB as <-. cbn [fst snd].
    split; intros v EV; apply (width_nonneg _ _ _ B EV). }
  assert (Q1 : forall x, In x (map f_S1c l) -> not_negative x) by (intros x I; apply in_map_iff in I as (r & <- & I); apply (Q r I)).
  assert (Q2 : forall x, In x (map f_STc l) -> not_negative x) by (intros x I; apply in_map_iff in I as (r & <- & I); apply (Q r I)).
  unfold object_plot, inherited, result_frame, fast_items. cbn -[make_frame bar_plot]. framed tt.
  charted_by. rewrite (quiet _ Q1), (quiet _ Q2). reflexivity.
Qed.

Theorem rbd_charted : forall srt nq p X Y M conf_level draws o, rbd_analyze srt nq p X Y M conf_level draws = Ok o -> length (p_names p) = p_num_vars p -> (0 <= nq (1 / 2 + conf_level / 2))%R ->
  object_plot (inherited (rbd_items o)) None = Ok [((0, 0), mkChart (singles (p_names p)) [mkBars "S1" (r_S1 o) (Some (r_conf o))])].
Proof.
  intros srt nq p X Y M cl draws o E L B. unfold rbd_analyze in E. destruct (mapM _ (seq 0 (p_num_vars p))) as [rs|] eqn:EM; [|discriminate]. cbn [bind] in E. injection E as <-.
  assert (LL : length rs = p_num_vars p) by (apply mapM_Ok_length in EM; rewrite seq_length in EM; exact EM).
  assert (Q : forall x, In x (map snd rs) -> not_negative x).
  { intros x I. apply in_map_iff in I as (r & <- & I). destruct (mapM_In _ _ _ _ _ _ EM I) as (i & _ & EI). destruct (mapM _ X); [|discriminate]. cbn [bind] in EI.
    destruct (permute_outputs _ _); [|discriminate]. cbn [bind] in EI. destruct (unskew _ _ _); [|discriminate]. cbn [bind] in EI.
    destruct (rbd_bootstrap _ _ _ _ _ _) as [c|] eqn:EB; [|discriminate]. cbn [bind] in EI. injection EI as <-. cbn [snd].
    unfold rbd_bootstrap in EB. destruct (mapM _ (draws i)); [|discriminate]. cbn [bind] in EB. injection EB as <-. intros v EV. apply (width_nonneg _ _ _ B EV). }
  unfold object_plot, inherited, result_frame, rbd_items. cbn -[make_frame bar_plot]. framed tt.
  charted_by. rewrite (quiet _ Q). reflexivity.
Qed.

Theorem dgsm_charted : forall nq p X Y conf_level resample o, dgsm_analyze nq p X Y conf_level resample = Ok o -> length (p_names p) = p_num_vars p -> (0 <= nq (1 / 2 + conf_level / 2))%R ->
  object_plot (inherited (dgsm_items o)) None
  = Ok [((0, 0), mkChart (singles (p_names p)) [mkBars "vi" (d_vi o) None; mkBars "vi_std" (d_vi_std o) None; mkBars "dgsm" (d_dgsm o) (Some (d_conf o))])].
Proof.
  intros nq p X Y cl resample o E L B. unfold dgsm_analyze in E. cbv zeta in E. destruct (negb _); [discriminate|]. destruct (negb _); [discriminate|].
  destruct (mapM _ (seq 0 (p_num_vars p))) as [rs|] eqn:EM; [|discriminate]. cbn [bind] in E. injection E as <-.
  assert (LL : length rs = p_num_vars p) by (apply mapM_Ok_length in EM; rewrite seq_length in EM; exact EM).
  assert (Q : forall x, In x (map snd rs) -> not_negative x).
  { intros x I. apply in_map_iff in I as (r & <- & I). destruct (mapM_In _ _ _ _ _ _ EM I) as (i & _ & EI). unfold dgsm_param in EI. cbv zeta in EI.
    destruct (_ <? _); [discriminate|]. repeat (apply bind_ok in EI as (? & _ & EI)).
    destruct (_ =? 0); [discriminate|]. injection EI as <-. cbn [snd]. exact (fmul_sd_quiet _ _ B). }
  unfold object_plot, inherited, result_frame, dgsm_items. cbn -[make_frame bar_plot]. framed tt.
  charted_by. rewrite (quiet _ Q). reflexivity.
Qed.

(** ** PAWN *)
Theorem pawn_charted : forall o, let col := fun j => map (fun r => nth j r None) (pw_rows o) in
  (length (pw_rows o) = length (pw_names o) -> object_plot (inherited (pawn_items o)) None
     = Ok [((0, 0), mkChart (singles (pw_names o)) [mkBars "minimum" (col 0) None; mkBars "mean" (col 1) None; mkBars "median" (col 2) None; mkBars "maximum" (col 3) None;
                                                   mkBars "CV" (col 4) None; mkBars "stdev" (col 5) None])]) /\
  (length (pw_rows o) <> length (pw_names o) -> object_plot (inherited (pawn_items o)) None = Err ValueError).
Proof.
  intros o col. split; intros L.
  - unfold object_plot, inherited, result_frame, pawn_items. cbn -[make_frame bar_plot]. framed tt. charted_by. reflexivity.
  - unfold object_plot, inherited, result_frame, pawn_items. cbn -[make_frame bar_plot]. unfold make_frame. cbn [forallb snd column_length]. rewrite !map_length.
    apply Nat.eqb_neq in L. rewrite L. reflexivity.
Qed.
