(** * Delta: drawing subsets succeeds or fails independently of the draws; the subsets saved. *)
From Coq Require Import Reals String Ascii List Arith ZArith Bool Lia Lra.
From Verif Require Import Base Arrays ListFacts Stats Sums ModelGroups ModelFast ModelScale Quant ModelRsa ModelDelta ModelDeltaBoot SpecDelta ProofsDelta ProofsDelta2 ProofsDelta3 ProofsDelta4 ProofsDelta5 ProofsDelta9 ProofsDelta10 ProofsPlotting2.
Import ListNotations.
Local Open Scope nat_scope.

(** The outcome of a computation up to the values. *)
Definition outcome {A B} (f : A -> B) (r : result A) : result B := match r with Ok a => Ok (f a) | Err e => Err e end.

Lemma outcome_cases : forall A B (f : A -> B) r r', outcome f r = outcome f r' ->
  (exists a a', r = Ok a /\ r' = Ok a' /\ f a = f a') \/ (exists e, r = Err e /\ r' = Err e).
Proof. intros A B f [a|e] [a'|e'] H; inversion H; eauto 8. Qed.

Lemma choice_outcome : forall c c' pool n, outcome (@length nat) (choice c pool n) = outcome (@length nat) (choice c' pool n).
Proof. intros c c' [|x pool] n; unfold choice; [reflexivity|]. unfold outcome. rewrite !map_length. reflexivity. Qed.

Lemma draw_outcome : forall bins c c' per rm i,
  outcome (map (@length nat)) (draw_bins c per rm i bins) = outcome (map (@length nat)) (draw_bins c' per rm i bins).
Proof.
  induction bins as [|b bins IH]; intros c c' per rm i; [reflexivity|]. cbn [draw_bins]. destruct (length b =? 0); [apply IH|].
  destruct (outcome_cases _ _ _ _ _ (choice_outcome (c (S i)) (c' (S i)) b (per + (if i <? rm then 1 else 0)))) as [(d & d' & -> & -> & L)|(e & -> & ->)]; [|reflexivity].
  cbn [bind]. destruct (outcome_cases _ _ _ _ _ (IH c c' per rm (S i))) as [(ds & ds' & -> & -> & LS)|(e & -> & ->)]; [|reflexivity].
  cbn [bind outcome map]. rewrite L, LS. reflexivity.
Qed.

Lemma balanced_outcome : forall c c' edges Xs size k,
  outcome (map (@length nat)) (balanced_draws c edges Xs size k) = outcome (map (@length nat)) (balanced_draws c' edges Xs size k).
Proof. intros. unfold balanced_draws. destruct (_ =? 0); [reflexivity|]. destruct (_ <? 2); [reflexivity|]. destruct (_ <? _); [reflexivity|]. apply draw_outcome. Qed.

Lemma concat_length_map : forall A (ds : list (list A)), length (concat ds) = list_sum (map (@length A) ds).
Proof. induction ds as [|d ds IH]; [reflexivity|]. simpl. rewrite app_length, IH. reflexivity. Qed.

Lemma resample_outcome : forall c c' X y mo edges k, outcome (@length nat) (resample c X y mo edges k) = outcome (@length nat) (resample c' X y mo edges k).
Proof.
  intros c c' X y mo edges k. unfold resample. destruct X as [|x X]; [reflexivity|]. destruct (Reqb _ _); [reflexivity|]. destruct mo.
  - destruct (outcome_cases _ _ _ _ _ (balanced_outcome c c' edges (x :: X) y k)) as [(ds & ds' & -> & -> & L)|(e & -> & ->)]; [|reflexivity].
    cbn [bind outcome]. rewrite !concat_length_map, L. reflexivity.
  - apply choice_outcome.
  - cbv zeta. set (zs := where_ (fun x => leb x 0) (x :: X)). set (ps := where_ (fun x => ltb 0 x) (x :: X)).
    destruct (outcome_cases _ _ _ _ _ (choice_outcome (c 0) (c' 0) zs (y / 2))) as [(z & z' & -> & -> & LZ)|(e & -> & ->)]; [|reflexivity]. cbn [bind].
    unfold ps. rewrite take_where. cbn [bind]. destruct (filter _ _) as [|p P] eqn:EP; [reflexivity|].
    destruct (check_bininfo (Some (BInt 5)) (minl (p :: P)) (maxl (p :: P))) as [en|e]; [|reflexivity]. cbn [bind].
    assert (PL : length (where_ (fun x => ltb 0 x) (x :: X)) = length (p :: P)) by (rewrite where_length, EP; reflexivity).
    fold ps in PL. fold ps.
    destruct (bins_indices (fst en) (p :: P) (k / 2)) as [init fin] eqn:EB.
    assert (R : forall d ds, balanced_draws d (fst en) (p :: P) (y - y / 2) (k / 2) = Ok ds ->
       mapM (mapM (get ps)) ds = Ok (map (map (fun i => nth i ps 0)) ds)).
    { intros d ds E. apply mapM_mapM_get. intros i Hi. rewrite PL.
      pose proof (balanced_draws_spec d (fst en) (p :: P) (y - y / 2) (k / 2) init fin EB) as S. rewrite E in S. destruct S as (_ & _ & D).
      apply (bins_in_range (fst en) (p :: P) (k / 2) init fin i EB). apply (dealt_in _ _ _ _ _ D). exact Hi. }
    destruct (outcome_cases _ _ _ _ _ (balanced_outcome c c' (fst en) (p :: P) (y - y / 2) (k / 2))) as [(ds & ds' & E1 & E2 & L)|(e & -> & ->)]; [|reflexivity].
    rewrite E1, E2. cbn [bind]. rewrite (R _ _ E1), (R _ _ E2). cbn [bind outcome]. f_equal. rewrite !app_length, LZ. f_equal.
    rewrite !concat_length_map. rewrite !map_map. f_equal. rewrite !(map_ext _ (@length nat) (fun x => map_length _ x)). exact L.
Qed.

(** The first draw succeeds only when all do. *)
Lemma all_draws : forall (c : nat -> nat -> nat -> nat) X y mo edges k ind n, resample (c 0) X y mo edges k = Ok ind ->
  exists rs, mapM (fun j => resample (c (S j)) X y mo edges k) (seq 0 n) = Ok rs /\ Forall (fun r => length r = length ind) rs /\ length rs = n.
Proof.
  intros c X y mo edges k ind n H.
  assert (A : forall j, exists r, resample (c (S j)) X y mo edges k = Ok r /\ length r = length ind).
  { intros j. pose proof (resample_outcome (c 0) (c (S j)) X y mo edges k) as O. rewrite H in O.
    destruct (resample (c (S j)) X y mo edges k) as [r|e]; cbn [outcome] in O; [|discriminate]. injection O as O. eauto. }
  generalize 0 as s. induction n as [|n IH]; intros s; [exists []; repeat split; constructor|].
  cbn [seq mapM]. destruct (A s) as (r & -> & L). cbn [bind]. destruct (IH (S s)) as (rs & -> & F & LN). cbn [bind].
  exists (r :: rs). repeat split; [constructor; auto|simpl; lia].
Qed.

Definition quiet {A} (r : result A) : Prop := r <> Err RuntimeError.
Lemma quiet_ok : forall A (a : A), quiet (Ok a).
Proof. intros A a H. discriminate. Qed.
Lemma quiet_err : forall A e, e <> RuntimeError -> quiet (@Err A e).
Proof. intros A e N H. injection H as H. auto. Qed.
Lemma quiet_bind : forall A B (r : result A) (f : A -> result B), quiet r -> (forall a, r = Ok a -> quiet (f a)) -> quiet (bind r f).
Proof. intros A B [a|e] f H F; cbn [bind]; [apply F; reflexivity|]. intros E. apply H. injection E as ->. reflexivity. Qed.
Lemma quiet_mapM : forall A B (f : A -> result B) l, (forall x, In x l -> quiet (f x)) -> quiet (mapM f l).
Proof.
  induction l as [|x l IH]; intros H; cbn [mapM]; [apply quiet_ok|]. apply quiet_bind; [apply H; simpl; auto|]. intros a _.
  apply quiet_bind; [apply IH; intros; apply H; simpl; auto|]. intros; apply quiet_ok.
Qed.
Lemma quiet_get : forall A (l : list A) i, quiet (get l i).
Proof. intros A l i. unfold get. destruct (nth_error l i); [apply quiet_ok|apply quiet_err; discriminate]. Qed.
Lemma quiet_take : forall ind l, quiet (take ind l).
Proof. intros. apply quiet_mapM. intros. apply quiet_get. Qed.
Lemma quiet_choice : forall c pool n, quiet (choice c pool n).
Proof. intros c [|x pool] n; unfold choice; [destruct (n =? 0); [apply quiet_ok|apply quiet_err; discriminate]|apply quiet_ok]. Qed.
Lemma quiet_draw : forall bins c per rm i, quiet (draw_bins c per rm i bins).
Proof.
  induction bins as [|b bins IH]; intros; cbn [draw_bins]; [apply quiet_ok|]. destruct (length b =? 0); [apply IH|].
  apply quiet_bind; [apply quiet_choice|]. intros. apply quiet_bind; [apply IH|]. intros; apply quiet_ok.
Qed.
Lemma quiet_balanced : forall c edges Xs size k, quiet (balanced_draws c edges Xs size k).
Proof.
  intros. unfold balanced_draws. destruct (_ =? 0); [apply quiet_err; discriminate|]. destruct (_ <? 2); [apply quiet_err; discriminate|].
  destruct (_ <? _); [apply quiet_err; discriminate|]. apply quiet_draw.
Qed.
Lemma quiet_bininfo : forall spec a b, quiet (check_bininfo spec a b).
Proof.
  intros [[n|l| |]|] a b; unfold check_bininfo; try apply quiet_ok.
  - destruct (n + 1 <? 0)%Z; [apply quiet_err; discriminate|apply quiet_ok].
  - destruct (_ || _); [apply quiet_ok|]. destruct (negb _); apply quiet_ok.
Qed.
Lemma quiet_resample : forall c X y mo edges k, quiet (resample c X y mo edges k).
Proof.
  intros. unfold resample. destruct X as [|x X]; [apply quiet_err; discriminate|]. destruct (Reqb _ _); [apply quiet_err; discriminate|]. destruct mo.
  - apply quiet_bind; [apply quiet_balanced|]. intros; apply quiet_ok.
  - apply quiet_choice.
  - cbv zeta. apply quiet_bind; [apply quiet_choice|]. intros z _. apply quiet_bind; [apply quiet_mapM; intros; apply quiet_get|]. intros [|p P] _; [apply quiet_err; discriminate|].
    apply quiet_bind; [apply quiet_bininfo|]. intros en _. apply quiet_bind; [apply quiet_balanced|]. intros ds _.
    apply quiet_bind; [|intros; apply quiet_ok]. apply quiet_mapM. intros d _. apply quiet_mapM. intros i _. apply quiet_get.
Qed.

Section Kde.
Variables (kde : list R -> list R -> result (list R)) (nq : R -> R).
Hypothesis kde_quiet : forall d g, kde d g <> Err RuntimeError.

Lemma quiet_calc : forall Y g X m, quiet (calc_delta kde Y g X m).
Proof.
  intros. unfold calc_delta. apply quiet_bind; [apply kde_quiet|]. intros fy _. apply quiet_bind.
  - apply quiet_mapM. intros j _. unfold class_term. cbv zeta. destruct (class_of X m j) as [|i ix]; [apply quiet_ok|].
    apply quiet_bind; [apply quiet_mapM; intros; apply quiet_get|]. intros Yx _. destruct (Reqb _ _); [apply quiet_ok|].
    apply quiet_bind; [apply kde_quiet|]. intros; apply quiet_ok.
  - intros ts _. destruct (_ =? 0); [apply quiet_err; discriminate|apply quiet_ok].
Qed.

(** The handler of delta.py:421-422 never runs. *)
Lemma quiet_bias : forall c Y g X m n conf y mo edges k, quiet (bias_reduced kde nq c Y g X m n conf y mo edges k).
Proof.
  intros. unfold bias_reduced. apply quiet_bind; [apply quiet_resample|]. intros ind HI.
  apply quiet_bind; [apply quiet_take|]. intros Yi _. apply quiet_bind; [apply quiet_take|]. intros Xi _. apply quiet_bind; [apply quiet_calc|]. intros d _.
  destruct (all_draws c X y mo edges k ind n HI) as (rs & -> & _). cbn [bind].
  apply quiet_bind; [|intros; apply quiet_ok]. apply quiet_mapM. intros r _.
  apply quiet_bind; [apply quiet_take|]. intros Yr _. apply quiet_bind; [apply quiet_take|]. intros Xr _. apply quiet_calc.
Qed.

Lemma quiet_sobol : forall Y X m, quiet (sobol_first Y X m).
Proof.
  intros [|y Y] X m; unfold sobol_first; [apply quiet_err; discriminate|]. destruct (Reqb _ _); [apply quiet_ok|].
  apply quiet_bind; [|intros; apply quiet_ok]. apply quiet_mapM. intros j _. cbv zeta. apply quiet_bind; [apply quiet_mapM; intros; apply quiet_get|]. intros; apply quiet_ok.
Qed.

Lemma quiet_run_mode : forall c Y g X m n conf y edges k mo s, quiet (run_mode kde nq c Y g X m n conf y edges k mo s).
Proof. intros. unfold run_mode. cbv zeta. destruct (_ && _); [apply quiet_ok|]. apply quiet_bind; [apply quiet_bias|]. intros; apply quiet_ok. Qed.
Lemma quiet_S1 : forall c Y X m y s, quiet (run_S1 c Y X m y s).
Proof.
  intros. unfold run_S1. apply quiet_bind; [apply quiet_choice|]. intros ind _. apply quiet_bind; [apply quiet_take|]. intros ? _. apply quiet_bind; [apply quiet_take|]. intros ? _.
  apply quiet_bind; [apply quiet_sobol|]. intros; apply quiet_ok.
Qed.
Lemma quiet_S1_conf : forall c Y X m n conf y s, quiet (run_S1_conf nq c Y X m n conf y s).
Proof.
  intros. unfold run_S1_conf, sobol_conf. apply quiet_bind; [|intros; apply quiet_ok]. apply quiet_bind; [|intros; apply quiet_ok]. apply quiet_mapM. intros k _.
  apply quiet_bind; [apply quiet_choice|]. intros ind _. apply quiet_bind; [apply quiet_take|]. intros ? _. apply quiet_bind; [apply quiet_take|]. intros ? _. apply quiet_sobol.
Qed.

Lemma quiet_run_all : forall steps s s' e, (forall f x, In f steps -> quiet (f x)) -> run_all steps s = (s', Some e) -> e <> RuntimeError.
Proof.
  induction steps as [|f steps IH]; intros s s' e H E; cbn [run_all] in E; [discriminate|]. destruct (f s) as [s1|e1] eqn:F.
  - apply (IH s1 s' e); auto. intros g x Hg. apply H. simpl; auto.
  - injection E as _ <-. intros ->. apply (H f s); simpl; auto.
Qed.

Lemma quiet_param : forall dc sc Y X wd ws n conf y spec c, delta_param kde nq dc sc Y X wd ws n conf y spec = Ok c ->
  ~ In (NoteError RuntimeError) (c_note c).
Proof.
  intros dc sc Y X wd ws n conf y spec c E. destruct wd.
  - destruct (delta_param_notes kde nq dc sc Y X ws n conf y spec c E) as [(e & N & D)|(l & F & N & _)].
    + rewrite N. intros [H|[]]. injection H as ->. unfold delta_param in E. cbv zeta in E. apply bind_ok in E as (en & _ & E).
      unfold finish in E. destruct (run_all _ _) as [s [e|]] eqn:ER; [|injection E as <-; discriminate].
      assert (Q : e <> RuntimeError).
      { eapply quiet_run_all; [|exact ER]. intros f x Hf. apply in_app_or in Hf. destruct Hf as [Hf|Hf].
        - apply in_app_or in Hf. destruct Hf as [Hf|[<-|[]]]; [|apply quiet_ok]. apply in_map_iff in Hf as (mo & <- & _). apply quiet_run_mode.
        - destruct ws; [|destruct Hf]. destruct Hf as [<-|[<-|[]]]; [apply quiet_S1|apply quiet_S1_conf]. }
      destruct e; try discriminate; try (apply Q; reflexivity); injection E as <-; discriminate.
    + rewrite N. intros H. apply in_app_or in H. destruct H as [H|H].
      * rewrite Forall_forall in F. specialize (F _ H). destruct F as [F|[F|[F|F]]]; discriminate.
      * apply in_app_or in H. destruct H as [H|H].
        { unfold step_notes in H. destruct (skips X); [destruct H as [H|[]]; discriminate|destruct H]. }
        unfold diff_notes in H. destruct (c_delta c Balanced); [|destruct H]. destruct (c_delta c Raw); [|destruct H]. destruct (Rlt_dec _ _); [destruct H as [H|[]]; discriminate|destruct H].
  - unfold delta_param in E. cbv zeta in E. apply bind_ok in E as ((edges, l) & EB & E). apply bininfo_notes in EB. cbn [fst snd app] in E.
    assert (NL : ~ In (NoteError RuntimeError) l). { rewrite Forall_forall in EB. intros H. specialize (EB _ H). destruct EB as [F|[F|[F|F]]]; discriminate. }
    assert (Q : forall s e, run_all (if ws then [run_S1 sc Y X (grid_m y (classes y)) y; run_S1_conf nq sc Y X (grid_m y (classes y)) n conf y] else []) (mkCell (fun _ => None) (fun _ => None) None None l false) = (s, Some e) -> e <> RuntimeError).
    { intros s e ER. eapply quiet_run_all; [|exact ER]. intros f x Hf. destruct ws; [|destruct Hf]. destruct Hf as [<-|[<-|[]]]; [apply quiet_S1|apply quiet_S1_conf]. }
    unfold finish in E. destruct (run_all _ _) as [s [e|]] eqn:ER.
    + specialize (Q s e eq_refl). destruct e; try discriminate; injection E as <-; cbn [c_note]; intros [H|[]]; congruence.
    + injection E as <-. cbn [c_note]. destruct ws.
      * apply run_all_none in ER as (s1 & E1 & ER). apply run_all_none in ER as (s2 & E2 & ER). injection ER as <-.
        unfold run_S1 in E1. apply bind_ok in E1 as (? & _ & E1). apply bind_ok in E1 as (? & _ & E1). apply bind_ok in E1 as (? & _ & E1). apply bind_ok in E1 as (? & _ & E1). injection E1 as <-.
        unfold run_S1_conf in E2. apply bind_ok in E2 as (? & _ & E2). injection E2 as <-. exact NL.
      * injection ER as <-. exact NL.
Qed.

Lemma quiet_notes : forall dc sc p X Y n conf yo method specs out ns l, delta_analyze kde nq dc sc p X Y n conf yo method specs = Ok out ->
  d_notes out = Some ns -> In l ns -> ~ In (NoteError RuntimeError) l.
Proof.
  intros dc sc p X Y n conf yo method specs out ns l E HN HL. unfold delta_analyze in E.
  destruct (negb _); [discriminate|]. destruct (negb _); [discriminate|]. destruct (negb _); [discriminate|]. cbv zeta in E. destruct (negb _); [discriminate|].
  destruct Y as [|y0 Y]; [discriminate|]. destruct (existsb _ _); [discriminate|]. apply bind_ok in E as (cs & EC & E). injection E as <-. cbn [d_notes] in HN.
  destruct (existsb c_done cs); [|discriminate]. injection HN as <-. apply in_map_iff in HL as (c & <- & Hc).
  apply In_nth_error in Hc as (i & Hi). 
  assert (Li : i < length (seq 0 (p_num_vars p))) by (rewrite <- (mapM_Ok_length _ _ EC); apply nth_error_Some; congruence).
  destruct (nth_error (seq 0 (p_num_vars p)) i) as [j|] eqn:Ej; [|apply nth_error_None in Ej; lia].
  destruct (mapM_Ok_nth _ _ _ EC Ej) as (c' & Ec & Hc'). rewrite Hi in Hc'. injection Hc' as <-.
  apply bind_ok in Ec as (name & _ & Ec). apply bind_ok in Ec as (Xi & _ & Ec). eapply quiet_param. exact Ec.
Qed.
End Kde.

(** ** The saved subsets *)
Lemma ascii_app : forall a b, list_ascii_of_string (a ++ b) = (list_ascii_of_string a ++ list_ascii_of_string b)%list.
Proof. induction a as [|x a IH]; intros b; simpl; [reflexivity|]. rewrite IH. reflexivity. Qed.
Lemma ascii_inj : forall a b, list_ascii_of_string a = list_ascii_of_string b -> a = b.
Proof. intros a b H. rewrite <- (string_of_list_ascii_of_string a), <- (string_of_list_ascii_of_string b), H. reflexivity. Qed.

Lemma key_inj : forall n n' m m', boot_key n m = boot_key n' m' -> n = n' /\ m = m'.
Proof.
  intros n n' m m' H. apply (f_equal list_ascii_of_string) in H. unfold boot_key in H. rewrite !ascii_app in H.
  assert (R := f_equal (@rev ascii) H). rewrite !rev_app_distr in R.
  destruct m, m'; simpl in R; try discriminate R; (split; [|reflexivity]); apply ascii_inj; simpl in H; apply app_inv_tail in H; exact H.
Qed.

Lemma take_shape : forall ind X v, take ind X = Ok v -> length v = length ind /\ forall i x, nth_error v i = Some x -> exists k, nth_error ind i = Some k /\ nth_error X k = Some x.
Proof.
  intros ind X v E. unfold take in E. split; [apply (mapM_Ok_length _ _ E)|]. intros i x Hx.
  destruct (nth_error ind i) as [k|] eqn:Ei.
  - destruct (mapM_Ok_nth _ _ _ E Ei) as (y & Ey & Hy). rewrite Hx in Hy. injection Hy as <-. exists k. split; auto. unfold get in Ey. destruct (nth_error X k); congruence.
  - apply nth_error_None in Ei. assert (i < length v) by (apply nth_error_Some; congruence). rewrite (mapM_Ok_length _ _ E) in H. lia.
Qed.

Lemma column_shape : forall X ind y col, boot_column X ind y = Ok col -> length col = y /\
  ((length ind = y /\ exists v, take ind X = Ok v /\ col = map Some v) \/ (length ind <> y /\ col = repeat None y)).
Proof.
  intros X ind y col E. unfold boot_column in E. destruct (length ind =? y) eqn:L.
  - apply Nat.eqb_eq in L. apply bind_ok in E as (v & Ev & E). injection E as <-. destruct (take_shape _ _ _ Ev) as [LV _]. rewrite map_length. split; [lia|]. left. eauto.
  - apply Nat.eqb_neq in L. injection E as <-. rewrite repeat_length. auto.
Qed.

Lemma modes_in : forall skip bias X y ms m col, In (m, col) (boot_modes skip bias X y ms) ->
  In m ms /\ skip m = false /\ exists v, bias m = Ok v /\ boot_column X (snd v) y = Ok col.
Proof.
  induction ms as [|a ms IH]; intros m col H; [destruct H|]. cbn [boot_modes] in H. destruct (skip a) eqn:SK.
  - apply IH in H as (I & H). split; [right; auto|auto].
  - destruct (bias a) as [v|e] eqn:EB; [|destruct H]. destruct (boot_column X (snd v) y) as [c|e] eqn:EC; [|destruct H].
    destruct H as [H|H]; [injection H as <- <-; split; [left; auto|]; split; auto; eauto|]. apply IH in H as (I & H). split; [right; auto|auto].
Qed.
Lemma modes_nodup : forall skip bias X y ms, NoDup ms -> NoDup (map fst (boot_modes skip bias X y ms)).
Proof.
  induction ms as [|a ms IH]; intros N; [constructor|]. inversion N as [|? ? N1 N2]; subst. cbn [boot_modes]. destruct (skip a); auto.
  destruct (bias a) as [v|e]; [|constructor]. destruct (boot_column X (snd v) y) as [c|e]; [|constructor]. cbn [map fst]. constructor; auto.
  intros H. apply in_map_iff in H as ((m & col) & E & H). cbn in E. subst m. apply modes_in in H as (I & _). auto.
Qed.

Lemma NoDup_concat_map : forall A B (f : A -> list B) l, (forall a, In a l -> NoDup (f a)) ->
  (forall i j a b x, nth_error l i = Some a -> nth_error l j = Some b -> In x (f a) -> In x (f b) -> i = j) -> NoDup (concat (map f l)).
Proof.
  induction l as [|a l IH]; intros N D; [constructor|]. cbn [map concat]. 
  assert (Q : NoDup (concat (map f l))).
  { apply IH; [intros; apply N; simpl; auto|]. intros i j u v x Hi Hj Hu Hv. assert (S i = S j) by (apply (D (S i) (S j) u v x); auto). lia. }
  assert (NA := N a (or_introl eq_refl)). revert NA Q. 
  assert (DD : forall x, In x (f a) -> ~ In x (concat (map f l))).
  { intros x Hx H. apply in_concat in H as (y & Hy & Hxy). apply in_map_iff in Hy as (b & <- & Hb). apply In_nth_error in Hb as (j & Hj).
    assert (0 = S j) by (apply (D 0 (S j) a b x); auto). lia. }
  clear - DD. induction (f a) as [|x r IHr]; intros NA Q; [exact Q|]. inversion NA; subst. cbn [app]. constructor.
  - intros H. apply in_app_or in H. destruct H as [H|H]; [auto|]. apply (DD x); simpl; auto.
  - apply IHr; auto. intros z Hz. apply DD. simpl; auto.
Qed.

Lemma matrix_keys : forall kde nq dc Y params n conf y, NoDup (map (fun p => fst (fst p)) params) ->
  NoDup (map fst (boot_matrix kde nq dc Y params n conf y)).
Proof.
  intros kde nq dc Y params n conf y N. unfold boot_matrix. rewrite concat_map, map_map.
  apply (NoDup_concat_map _ _ (fun ip => map fst (let '(name, X, edges) := snd ip in map (fun mc => (boot_key name (fst mc), snd mc)) (boot_param kde nq (dc (fst ip)) Y X n conf y edges)))).
  - intros (i & ((name & X) & edges)) _. cbn [fst snd]. rewrite map_map. cbn [fst].
    rewrite <- (map_map fst (boot_key name)). apply FinFun.Injective_map_NoDup; [intros m m' H; apply key_inj in H; tauto|].
    apply modes_nodup. repeat constructor; simpl; intuition discriminate.
  - intros i j (i' & ((na & Xa) & ea)) (j' & ((nb & Xb) & eb)) x Hi Hj Ha Hb. cbn [fst snd] in Ha, Hb.
    rewrite map_map in Ha, Hb. apply in_map_iff in Ha as (ma & <- & _). apply in_map_iff in Hb as (mb & Eb & _). cbn [fst] in Eb. apply key_inj in Eb as [EN _].
    assert (G : forall t u v (l : list (string * list R * list R)) s, nth_error (combine (seq s (length l)) l) t = Some (u, v) -> nth_error l t = Some v).
    { clear. intros t u v l. revert t. induction l as [|p l IH]; intros [|t] s H; simpl in *; try discriminate; [congruence|]. apply (IH t (S s)); auto. }
    apply G in Hi. apply G in Hj. rewrite NoDup_nth_error in N. apply N.
    + rewrite map_length. apply nth_error_Some. congruence.
    + rewrite !nth_error_map, Hi, Hj. cbn. congruence.
Qed.

Lemma matrix_in : forall kde nq dc Y params n conf y key col, In (key, col) (boot_matrix kde nq dc Y params n conf y) ->
  exists i name X edges m v ind, nth_error params i = Some (name, X, edges) /\ key = boot_key name m /\
    bias_reduced kde nq (dc i m) Y (linspace (minl Y) (maxl Y) 100) X (grid_m y (classes y)) n conf y m edges (Nat.max (length X / 200) 10) = Ok (v, ind) /\
    boot_column X ind y = Ok col.
Proof.
  intros kde nq dc Y params n conf y key col H. unfold boot_matrix in H. apply in_concat in H as (l & Hl & H). apply in_map_iff in Hl as ((i & ((name & X) & edges)) & <- & Hp). cbn [fst snd] in H.
  apply in_map_iff in H as ((m & c) & E & H). cbn [fst snd] in E. injection E as <- <-. unfold boot_param in H. cbv zeta in H. apply modes_in in H as (_ & _ & (v & ind) & EB & EC).
  exists i, name, X, edges, m, v, ind. cbn [snd] in EC. split; [|split; [reflexivity|split; auto]].
  apply In_nth_error in Hp as (t & Ht).
  assert (G : forall t s u v (l : list (string * list R * list R)), nth_error (combine (seq s (length l)) l) t = Some (u, v) -> u = s + t /\ nth_error l t = Some v).
  { clear. intros t s u v l. revert t s. induction l as [|p l IH]; intros [|t] s H; simpl in *; try discriminate; [injection H as <- <-; split; [lia|auto]|].
    apply IH in H as [-> H]. split; [lia|auto]. }
  apply G in Ht as [-> Ht]. exact Ht.
Qed.

Lemma bias_subset : forall kde nq c Y g X m n conf y mo edges k v ind, bias_reduced kde nq c Y g X m n conf y mo edges k = Ok (v, ind) ->
  resample (c 0) X y mo edges k = Ok ind.
Proof.
  intros until ind. intros E. unfold bias_reduced in E. apply bind_ok in E as (i & EI & E). apply bind_ok in E as (? & _ & E). apply bind_ok in E as (? & _ & E).
  apply bind_ok in E as (? & _ & E). apply bind_ok in E as (? & _ & E). apply bind_ok in E as (? & _ & E). injection E as _ <-. exact EI.
Qed.

(** Every column has the length asked for, and holds the values at the positions of the subset used for the index, or nothing. *)
Lemma matrix_columns : forall kde nq dc Y params n conf y key col, In (key, col) (boot_matrix kde nq dc Y params n conf y) ->
  length col = y /\ exists i name X edges m ind, nth_error params i = Some (name, X, edges) /\ key = boot_key name m /\
    resample (dc i m 0) X y m edges (Nat.max (length X / 200) 10) = Ok ind /\
    ((length ind = y /\ exists v, col = map Some v /\ Forall2 (fun p x => nth_error X p = Some x) ind v) \/ (length ind <> y /\ col = repeat None y)).
Proof.
  intros kde nq dc Y params n conf y key col H. apply matrix_in in H as (i & name & X & edges & m & v & ind & HP & HK & HB & HC).
  apply column_shape in HC as (L & HC). split; auto. exists i, name, X, edges, m, ind. split; auto. split; auto. split; [eapply bias_subset; exact HB|].
  destruct HC as [(LI & w & EW & ->)|HC]; [|auto]. left. split; auto. exists w. split; auto.
  clear - EW. unfold take in EW. revert w EW. induction ind as [|p ind IH]; intros w E; cbn [mapM] in E; [injection E as <-; constructor|].
  apply bind_ok in E as (x & Ex & E). apply bind_ok in E as (r & Er & E). injection E as <-. constructor; auto. unfold get in Ex. destruct (nth_error X p); congruence.
Qed.

(** The file name. *)
Lemma string_app_nil : forall s, (s ++ "")%string = s.
Proof. induction s as [|c s IH]; simpl; [reflexivity|]. rewrite IH. reflexivity. Qed.
Lemma string_length_app : forall a b, String.length (a ++ b) = String.length a + String.length b.
Proof. induction a as [|c a IH]; intros b; simpl; [reflexivity|]. rewrite IH. reflexivity. Qed.
Lemma substring_tail : forall a b, String.substring (String.length a) (String.length b) (a ++ b) = b.
Proof.
  induction a as [|c a IH]; intros b; simpl; [|apply IH].
  induction b as [|c b IHb]; simpl; [reflexivity|]. rewrite IHb. reflexivity.
Qed.
Lemma path_suffix : forall s, ends_with (parquet_path s) ".parquet" = true.
Proof.
  intros s. unfold parquet_path. destruct (ends_with s ".parquet") eqn:E; [exact E|]. unfold ends_with. cbv zeta. rewrite string_length_app.
  replace (String.length s + String.length ".parquet" - String.length ".parquet") with (String.length s) by lia. rewrite substring_tail, String.eqb_refl.
  rewrite andb_true_r. apply Nat.leb_le. lia.
Qed.
Lemma path_idempotent : forall s, parquet_path (parquet_path s) = parquet_path s.
Proof. intros s. unfold parquet_path at 1. rewrite path_suffix. reflexivity. Qed.

(** The saved column of an index that exists may hold nothing. *)
Section Total.
Variables (kde : list R -> list R -> result (list R)) (nq : R -> R).
Hypothesis kde_total : forall d g, exists l, kde d g = Ok l.

Lemma take_total : forall ind l, Forall (fun i => i < length l) ind -> exists v, take ind l = Ok v /\ length v = length ind.
Proof.
  intros ind l F. unfold take. destruct (mapM (get l) ind) as [v|e] eqn:E; [exists v; split; auto; apply (mapM_Ok_length _ _ E)|]. exfalso.
  revert e E. induction F as [|i ind Hi F IH]; intros e E; cbn [mapM] in E; [discriminate|]. unfold get in E at 1. destruct (nth_error l i) as [x|] eqn:Ei; [|apply nth_error_None in Ei; lia].
  cbn [bind] in E. destruct (mapM (get l) ind) as [w|e'] eqn:EW; [discriminate|]. apply (IH e'); reflexivity.
Qed.
Lemma calc_total : forall Y g X y, length X = length Y -> 1 <= classes y -> exists d, calc_delta kde Y g X (grid_m y (classes y)) = Ok d.
Proof.
  intros Y g X y L M. unfold calc_delta. destruct (kde_total Y g) as (fy & ->). cbn [bind].
  assert (A : forall j, exists t, class_term kde fy Y g X (grid_m y (classes y)) j = Ok t).
  { intros j. unfold class_term. cbv zeta. destruct (class_of X (grid_m y (classes y)) j) as [|i ix] eqn:E; [eauto|].
    assert (F : Forall (fun i => i < length Y) (i :: ix)) by (rewrite <- E, <- L; apply class_range).
    destruct (take_total _ _ F) as (v & EV & _). unfold take in EV. rewrite EV. cbn [bind]. destruct (Reqb _ _); [eauto|]. destruct (kde_total v g) as (w & ->). cbn [bind]. eauto. }
  assert (B : forall l, exists ts, mapM (class_term kde fy Y g X (grid_m y (classes y))) l = Ok ts).
  { induction l as [|j l (ts & IH)]; cbn [mapM]; [eauto|]. destruct (A j) as (t & ->). cbn [bind]. rewrite IH. cbn [bind]. eauto. }
  destruct (B (seq 0 (length (grid_m y (classes y)) - 1))) as (ts & ->). cbn [bind]. rewrite grid_length. replace (classes y + 1 - 1 =? 0) with false by (symmetry; apply Nat.eqb_neq; lia). eauto.
Qed.
Lemma balanced_total : forall c Y g X n conf y edges k ind, length X = length Y -> 1 <= classes y -> 1 <= n ->
  resample (c 0) X y Balanced edges k = Ok ind ->
  exists d h, bias_reduced kde nq c Y g X (grid_m y (classes y)) n conf y Balanced edges k = Ok (Some d, h, ind).
Proof.
  intros c Y g X n conf y edges k ind L M N E. unfold bias_reduced. rewrite E. cbn [bind].
  assert (F := balanced_range _ _ _ _ _ _ E).
  assert (T : forall r, Forall (fun i => i < length X) r -> exists Yr Xr d, take r Y = Ok Yr /\ take r X = Ok Xr /\ calc_delta kde Yr g Xr (grid_m y (classes y)) = Ok d).
  { intros r Fr. destruct (take_total r X Fr) as (Xr & EX & LX). rewrite L in Fr. destruct (take_total r Y Fr) as (Yr & EY & LY).
    destruct (calc_total Yr g Xr y) as (d & ED); [lia|auto|]. exists Yr, Xr, d. auto. }
  destruct (T ind F) as (Yi & Xi & d & -> & -> & ED). cbn [bind]. rewrite ED. cbn [bind].
  destruct (all_draws c X y Balanced edges k ind n E) as (rs & ER & _ & LR). rewrite ER. cbn [bind].
  assert (FR : Forall (Forall (fun i => i < length X)) rs).
  { apply Forall_forall. intros r Hr. apply In_nth_error in Hr as (t & Ht). assert (t < length (seq 0 n)) by (rewrite seq_length, <- LR; apply nth_error_Some; congruence).
    destruct (nth_error (seq 0 n) t) as [j|] eqn:Ej; [|apply nth_error_None in Ej; lia]. destruct (mapM_Ok_nth _ _ _ ER Ej) as (r' & Er & Hr'). rewrite Ht in Hr'. injection Hr' as <-.
    eapply balanced_range. exact Er. }
  assert (D : exists ds, mapM (fun r => do Yr <- take r Y ;; do Xr <- take r X ;; calc_delta kde Yr g Xr (grid_m y (classes y))) rs = Ok ds /\ length ds = length rs).
  { clear ER LR. induction FR as [|r rs Fr FR (ds & IH & LD)]; cbn [mapM]; [exists []; auto|]. destruct (T r Fr) as (Yr & Xr & d' & -> & -> & E'). cbn [bind]. rewrite E'. cbn [bind]. rewrite IH. cbn [bind].
    exists (d' :: ds). split; auto. simpl. lia. }
  destruct D as (ds & -> & LD). cbn [bind]. destruct ds as [|d0 ds]; [simpl in LD; lia|]. cbn [map fmean_of]. eauto.
Qed.
Lemma saved_gap : forall dc Y X n conf y, length X = length Y -> ~ constant X -> 1 <= n -> 10 <= length X ->
  Nat.max (length X / 200) 10 <= y / 2 ->
  exists edges d h ind, check_bininfo (Some (BList [maxl X])) (minl X) (maxl X) = Ok (edges, []) /\
    bias_reduced kde nq (dc Balanced) Y (linspace (minl Y) (maxl Y) 100) X (grid_m y (classes y)) n conf y Balanced edges (Nat.max (length X / 200) 10) = Ok (Some d, h, ind) /\
    In (Balanced, repeat None y) (boot_param kde nq dc Y X n conf y edges).
Proof.
  intros dc Y X n conf y L HC N LX HY. assert (HX : X <> []) by (intros ->; simpl in LX; lia).
  destruct (top_edge_short (dc Balanced 0) X y (Nat.max (length X / 200) 10)) as (edges & ind & EB & ER & LI); auto; [lia| |].
  { apply Nat.max_lub; [|lia]. apply Nat.div_le_upper_bound; lia. }
  destruct (balanced_total (dc Balanced) Y (linspace (minl Y) (maxl Y) 100) X n conf y edges _ ind L (proj1 (classes_bounds y (Nat.le_trans 1 10 y ltac:(lia) (Nat.le_trans 10 (y / 2) y ltac:(lia) (Nat.div_le_upper_bound y 2 y ltac:(lia) ltac:(lia)))))) N ER) as (d & h & E).
  exists edges, d, h, ind. split; auto. split; auto.
  unfold boot_param. cbv zeta. cbn [boot_modes mode_eqb andb]. rewrite E. cbn [snd]. unfold boot_column.
  replace (length ind =? y) with false; [left; reflexivity|]. symmetry. apply Nat.eqb_neq. rewrite LI. assert (10 <= y / 2) by lia.
  assert (y / 2 <= y) by (apply Nat.div_le_upper_bound; lia). lia.
Qed.
End Total.
