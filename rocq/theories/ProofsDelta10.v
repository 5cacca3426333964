(** * The notes of the delta analyser *)
From Coq Require Import Reals String List Arith ZArith Bool Lia Lra.
From Verif Require Import Base Arrays ModelGroups ModelScale Stats Sums Quant ModelRsa ModelDelta SpecDelta SpecRsa ProofsDelta6 ModelPlotting ProofsPlotting2.
Import ListNotations.
Local Open Scope nat_scope.

Lemma where_count : forall t X, length (where_ t X) = length (filter t X).
Proof.
  intros t X. unfold where_. rewrite map_length. generalize 0. induction X as [|x X IH]; intros k; auto. cbn. destruct (t x); cbn; rewrite IH; auto.
Qed.

(** What the checks of the bins note. *)
Definition bin_note (n : note) : Prop := n = NoteWords \/ n = NoteRange \/ n = NoteOrder \/ n = NoteKind.
Lemma bininfo_notes : forall spec a b e l, check_bininfo spec a b = Ok (e, l) -> Forall bin_note l.
Proof.
  intros spec a b e l E. unfold check_bininfo in E. unfold bin_note. destruct spec as [[z|k| |]|].
  - destruct (_ <? _)%Z; [discriminate|]. injection E as <- <-. constructor.
  - destruct (_ || _); [injection E as <- <-; constructor; auto|]. destruct (negb _); injection E as <- <-; constructor; auto.
  - injection E as <- <-. constructor; auto.
  - injection E as <- <-. constructor; auto 6.
  - injection E as <- <-. constructor.
Qed.

Lemma run_all_none : forall f r s s', run_all (f :: r) s = (s', None) -> exists s1, f s = Ok s1 /\ run_all r s1 = (s', None).
Proof. intros f r s s' E. cbn in E. destruct (f s) as [s1|e]; [eauto|discriminate]. Qed.

Definition skips (X : list R) : bool :=
  let z := length (where_ (fun x => leb x 0) X) in let w := length (where_ (fun x => ltb 0 x) X) in
  (z <? Nat.max (length X / 200) 10) || (w <? Nat.max (length X / 200) 10).
Definition step_notes (X : list R) : list note :=
  if skips X then [NoteStep (length (where_ (fun x => leb x 0) X)) (length (where_ (fun x => ltb 0 x) X))] else [].
Definition diff_notes (c : cell) : list note :=
  match c_delta c Balanced, c_delta c Raw with Some a, Some b => if Rlt_dec (1 / 10) (Rabs (a - b)) then [NoteDiff (Rabs (a - b))] else [] | _, _ => [] end.

Lemma delta_param_notes : forall kde nq dc sc Y X ws n conf y spec c, delta_param kde nq dc sc Y X true ws n conf y spec = Ok c ->
  (exists e, c_note c = [NoteError e] /\ c_done c = false) \/
  (exists l, Forall bin_note l /\ c_note c = l ++ step_notes X ++ diff_notes c /\ c_done c = true /\ (skips X = true -> c_delta c Step = None)).
Proof.
  intros kde nq dc sc Y X ws n conf y spec c E. unfold delta_param in E. cbv zeta in E. apply bind_ok in E as ((edges, l) & EB & E). cbn [fst snd] in E.
  apply bininfo_notes in EB. unfold finish in E. destruct (run_all _ _) as [s [e|]] eqn:ER.
  - left. exists e. destruct e; try discriminate; injection E as <-; auto.
  - right. injection E as <-. exists l. split; auto. cbn [c_note c_done]. cbn [map app] in ER.
    apply run_all_none in ER as (s1 & E1 & ER). apply run_all_none in ER as (s2 & E2 & ER). apply run_all_none in ER as (s3 & E3 & ER).
    apply run_all_none in ER as (s4 & E4 & ER).
    assert (N1 : c_note s1 = l /\ c_note s2 = l).
    { unfold run_mode in E1, E2. cbn [mode_eqb andb] in E1, E2. apply bind_ok in E1 as (v & _ & E1). injection E1 as <-. apply bind_ok in E2 as (v2 & _ & E2). injection E2 as <-. auto. }
    destruct N1 as (_ & N2).
    assert (N3 : c_note s3 = l ++ step_notes X /\ (skips X = true -> c_delta s3 Step = None)).
    { unfold run_mode in E3. cbn [mode_eqb andb] in E3. unfold step_notes. fold (skips X) in E3. destruct (skips X).
      - injection E3 as <-. cbn. rewrite N2. auto.
      - apply bind_ok in E3 as (v & _ & E3). injection E3 as <-. cbn. rewrite N2, app_nil_r. split; [auto|discriminate]. }
    destruct N3 as (N3 & S3).
    assert (N4 : c_note s4 = (l ++ step_notes X) ++ diff_notes s4 /\ c_delta s4 = c_delta s3).
    { unfold note_diff in E4. injection E4 as <-. unfold diff_notes. destruct (c_delta s3 Balanced) as [a|] eqn:EA; [|cbn; rewrite EA, app_nil_r; auto].
      destruct (c_delta s3 Raw) as [b|] eqn:EBB; [|cbn; rewrite EA, EBB, app_nil_r; auto]. destruct (Rlt_dec _ _) as [H|H]; cbn [c_note c_delta]; rewrite EA, EBB.
      - destruct (Rlt_dec _ _); [|contradiction]. rewrite N3. auto.
      - destruct (Rlt_dec _ _); [contradiction|]. rewrite app_nil_r. auto. }
    destruct N4 as (N4 & D4).
    assert (N5 : c_note s = c_note s4 /\ c_delta s = c_delta s4).
    { destruct ws; [|injection ER as <-; auto]. apply run_all_none in ER as (s5 & E5 & ER). apply run_all_none in ER as (s6 & E6 & ER). injection ER as <-.
      unfold run_S1 in E5. repeat (apply bind_ok in E5 as (? & _ & E5)). injection E5 as <-. unfold run_S1_conf in E6. apply bind_ok in E6 as (? & _ & E6). injection E6 as <-. auto. }
    destruct N5 as (N5 & D5). rewrite N5, N4, <- app_assoc. unfold diff_notes. cbn [c_delta]. rewrite D5. split; auto. split; auto. intros H. rewrite D4. auto.
Qed.

Theorem delta_notes : forall kde nq dc sc p X Y n conf yo method specs out notes scores i, delta_input p X Y ->
  delta_analyze kde nq dc sc p X Y n conf yo method specs = Ok out -> d_notes out = Some notes -> d_delta out = Some scores -> i < p_num_vars p ->
  exists l, nth_error notes i = Some l /\
   ((exists e, l = [NoteError e]) \/
    ((forall e, ~ In (NoteError e) l) /\
     (forall d, In (NoteDiff d) l <-> exists a b, nth_error (scores Balanced) i = Some (Some a) /\ nth_error (scores Raw) i = Some (Some b) /\ d = Rabs (a - b) /\ (1 / 10 < d)%R) /\
     (forall z w, In (NoteStep z w) l <->
        z = length (filter (fun x => if Rle_dec x 0 then true else false) (col (rows X) i)) /\ w = length (filter (fun x => if Rlt_dec 0 x then true else false) (col (rows X) i)) /\
        (z < Nat.max (length Y / 200) 10 \/ w < Nat.max (length Y / 200) 10)) /\
     (forall z w, In (NoteStep z w) l -> nth_error (scores Step) i = Some None))).
Proof.
  intros kde nq dc sc p X Y n conf yo method specs out notes scores i HI E EN ES Hi. pose proof HI as (W & HD & LN & LR & NE & SF). unfold delta_analyze in E.
  destruct (negb _); [discriminate|]. destruct (negb _); [discriminate|]. destruct (negb (existsb _ _)) eqn:EM; [discriminate|]. cbv zeta in E.
  destruct (negb (_ <=? _)); [discriminate|]. destruct Y as [|y0 Y'] eqn:EY; [contradiction|]. rewrite <- EY in *. clear EY y0 Y'. destruct (existsb _ (p_names p)); [discriminate|].
  apply bind_ok in E as (cs & EC & E). injection E as <-. cbn [d_notes d_delta] in EN, ES.
  destruct (existsb c_done cs); [|discriminate]. injection EN as <-. destruct (negb (method =? "sobol")%string) eqn:EW; [|discriminate]. injection ES as <-.
  assert (Q : nth_error (seq 0 (p_num_vars p)) i = Some i).
  { rewrite nth_error_seq. destruct (Nat.ltb_spec i (p_num_vars p)); [auto|lia]. }
  destruct (mapM_Ok_nth _ _ i EC Q) as (c & Ec & Hc). apply bind_ok in Ec as (nm & _ & Ec). apply bind_ok in Ec as (Xi & EX & Ec).
  assert (XI : Xi = col (rows X) i /\ length Xi = length Y).
  { destruct (column_ok p X Y i HI Hi) as [C1 C2]. rewrite C1 in EX. injection EX as <-. split; [reflexivity|exact C2]. }
  destruct XI as (EXi & LX).
  rewrite nth_error_map', Hc. cbn [option_map]. exists (c_note c). split; auto.
  apply delta_param_notes in Ec as [(e & En & _)|(l & BN & En & _ & SS)]; [left; eauto|]. right. rewrite En.
  assert (CD : forall mo, nth_error (map (fun c => c_delta c mo) cs) i = Some (c_delta c mo)) by (intros mo; rewrite nth_error_map', Hc; auto).
  rewrite !CD. rewrite Forall_forall in BN.
  assert (IB : forall x, In x (l ++ step_notes Xi ++ diff_notes c) <-> In x l \/ In x (step_notes Xi) \/ In x (diff_notes c)) by (intros; rewrite !in_app_iff; tauto).
  assert (SN : forall x, In x (step_notes Xi) -> exists z w, x = NoteStep z w). { intros x Hx. unfold step_notes in Hx. destruct (skips Xi); [|destruct Hx]. destruct Hx as [<-|[]]. eauto. }
  assert (DN : forall x, In x (diff_notes c) -> exists d, x = NoteDiff d).
  { intros x Hx. unfold diff_notes in Hx. destruct (c_delta c Balanced); [|destruct Hx]. destruct (c_delta c Raw); [|destruct Hx]. destruct (Rlt_dec _ _); [|destruct Hx]. destruct Hx as [<-|[]]. eauto. }
  assert (KI : forall z w, In (NoteStep z w) (l ++ step_notes Xi ++ diff_notes c) <-> In (NoteStep z w) (step_notes Xi)).
  { intros z w. rewrite IB. split; auto. intros [H|[H|H]]; auto.
    - destruct (BN _ H) as [?|[?|[?|?]]]; discriminate.
    - destruct (DN _ H) as (d & ?); discriminate. }
  split; [|split; [|split]].
  - intros e H. apply IB in H as [H|[H|H]].
    + destruct (BN _ H) as [?|[?|[?|?]]]; discriminate.
    + destruct (SN _ H) as (z & w & ?); discriminate.
    + destruct (DN _ H) as (d & ?); discriminate.
  - intros d. rewrite IB. split.
    + intros [H|[H|H]].
      * destruct (BN _ H) as [?|[?|[?|?]]]; discriminate.
      * destruct (SN _ H) as (z & w & ?); discriminate.
      * unfold diff_notes in H. destruct (c_delta c Balanced) as [a|]; [|destruct H]. destruct (c_delta c Raw) as [b|]; [|destruct H].
        destruct (Rlt_dec _ _); [|destruct H]. destruct H as [H|[]]. injection H as <-. exists a, b. auto.
    + intros (a & b & EA & EB & -> & H). right. right. injection EA as EA. injection EB as EB. unfold diff_notes. rewrite EA, EB. destruct (Rlt_dec _ _); [left; auto|contradiction].
  - intros z w. rewrite KI. unfold step_notes, skips. rewrite !where_count, EXi. rewrite EXi in LX. rewrite LX.
    set (z0 := length (filter _ _)). set (w0 := length (filter _ _)).
    change (length (filter (fun x => if Rle_dec x 0 then true else false) (col (rows X) i))) with z0.
    change (length (filter (fun x => if Rlt_dec 0 x then true else false) (col (rows X) i))) with w0. split.
    + destruct (_ || _) eqn:O; [|intros []]. intros [H|[]]. injection H as <- <-. apply orb_true_iff in O. rewrite !Nat.ltb_lt in O. auto.
    + intros (-> & -> & O). rewrite <- !Nat.ltb_lt, <- orb_true_iff in O. rewrite O. left; auto.
  - intros z w H. rewrite KI in H. unfold step_notes in H. destruct (skips Xi) eqn:SK; [|destruct H]. rewrite SS by auto. auto.
Qed.
