(** * Delta: the analysis. *)
From Coq Require Import Reals String List Arith ZArith Bool Lia Lra Permutation Sorted.
From Verif Require Import Base Arrays ListFacts ModelGroups ModelScale ProofsScale Stats Sums Quant ModelRsa SpecRsa ProofsRsa ProofsRsa2 ProofsRsa3 ModelFast ModelDelta SpecDelta
  ProofsDelta ProofsDelta2 ProofsDelta3 ProofsDelta4 ProofsDelta5.
Import ListNotations.
Local Open Scope nat_scope.

(** ** Suffixes *)
Lemma substring_app : forall t s, String.substring (String.length t) (String.length s) (t ++ s)%string = s.
Proof.
  induction t as [|a t IH]; intros s; simpl.
  - induction s as [|b s IHs]; simpl; auto. f_equal. auto.
  - auto.
Qed.
Lemma string_app_length : forall t s, String.length (t ++ s)%string = String.length t + String.length s.
Proof. induction t as [|a t IH]; intros s; simpl; auto. Qed.
Lemma substring_split : forall n k, k <= String.length n ->
  exists t, n = (t ++ String.substring (String.length n - k) k n)%string.
Proof.
  intros n k H. exists (String.substring 0 (String.length n - k) n).
  remember (String.length n - k) as m. assert (E : String.length n = m + k) by lia. clear Heqm H. revert k E.
  revert m. induction n as [|a n IH]; intros m k E; simpl in E.
  - assert (m = 0) by lia. assert (k = 0) by lia. subst. reflexivity.
  - destruct m as [|m].
    + simpl in E. subst k. simpl. f_equal. clear IH. induction n as [|b n IHn]; simpl; auto. f_equal. auto.
    + simpl. f_equal. apply IH. lia.
Qed.
Lemma ends_with_spec : forall n s, ends_with n s = true <-> exists t, n = (t ++ s)%string.
Proof.
  intros n s. unfold ends_with. rewrite andb_true_iff, Nat.leb_le. split.
  - intros [L E]. apply String.eqb_eq in E. destruct (substring_split n (String.length s) L) as [t Ht]. exists t. rewrite <- E. auto.
  - intros [t ->]. rewrite string_app_length. split; [lia|]. replace (String.length t + String.length s - String.length s) with (String.length t) by lia.
    rewrite substring_app. apply String.eqb_refl.
Qed.
Lemma suffix_check : forall names, suffix_free names <->
  existsb (fun n => existsb (ends_with n) ["_raw"; "_balanced"; "_step"; "_conf"]%string) names = false.
Proof.
  intros names. rewrite <- not_true_iff_false, existsb_exists. unfold suffix_free. split.
  - intros H (n & Hn & E). apply existsb_exists in E. destruct E as (s & Hs & E). apply ends_with_spec in E. destruct E as [t ->].
    apply (H _ t Hn). apply (in_map (fun s => t ++ s)%string). auto.
  - intros H n t Hn C. apply H. exists n. split; auto. apply existsb_exists. apply in_map_iff in C. destruct C as (s & E & Hs).
    exists s. split; auto. apply ends_with_spec. eauto.
Qed.

(** ** The number of classes *)
Lemma classes_count : forall y, 1 <= y -> class_count y (classes y).
Proof.
  intros y Hy. unfold class_count, classes. replace (y =? 0) with false by (symmetry; apply Nat.eqb_neq; lia).
  destruct (class_power y Hy) as [[P1 P2] _]. set (q := Rpower (INR y) (2 / (7 + tanh ((1500 - INR y) / 500)))%R) in *.
  assert (C : forall x, (1 <= x)%R -> (INR (ceil_nat x) - 1 < x <= INR (ceil_nat x))%R).
  { intros x Hx. unfold ceil_nat. pose proof (base_Int_part (- x)) as [B1 B2]. set (z := Int_part (- x)) in *.
    assert (z < 0)%Z. { apply lt_IZR. lra. }
    rewrite INR_IZR_INZ, Z2Nat.id, opp_IZR by lia. lra. }
  specialize (C q P1). split; intros H.
  - assert (L : ceil_nat q <= 48).
    { destruct (ceil_bounds q 0 48) as [_ L]; auto; simpl; lra. }
    rewrite Nat.min_l by auto. auto.
  - assert (48 < ceil_nat q). { apply INR_lt. simpl. lra. } lia.
Qed.

(** ** The first-order index of a resample *)
Lemma sobol_first_first_order : forall Y X, Y <> [] -> length X = length Y ->
  exists s, sobol_first Y X (grid_m (length Y) (classes (length Y))) = Ok (Some s) /\ first_order Y X s /\ (0 <= s <= 1)%R.
Proof.
  intros Y X HY HX. assert (L : 1 <= length Y) by (destruct Y; simpl; [congruence|lia]).
  pose proof (classes_bounds _ L) as B. rewrite (sobol_first_spec Y X (classes (length Y)) HY HX B).
  eexists. split; [reflexivity|]. unfold first_order.
  destruct (Req_EM_T (ptp Y) 0) as [E|E].
  - split; [|lra]. split; auto. intros C. exfalso. apply C. unfold constant. apply ptp_zero_iff; auto.
  - destruct (S1_range Y X (classes (length Y)) HY HX B E) as [R1 R2]. split; [|auto]. split.
    + intros C. exfalso. apply E. apply ptp_zero_iff; auto.
    + intros _. exists (classes (length Y)), (classes_list X (classes (length Y))). split; [apply classes_count; auto|].
      split; [apply classes_spec; lia|auto].
Qed.
Lemma draw_ok : forall c (Y : list R) y, Y <> [] -> exists ind, choice c (seq 0 (length Y)) y = Ok ind /\ length ind = y /\ Forall (fun i => i < length Y) ind.
Proof.
  intros c Y y HY. destruct (choice_ok c (seq 0 (length Y)) y) as [ind H]; [destruct Y; simpl; congruence|].
  exists ind. split; auto. apply choice_spec in H. destruct H as [L I]. split; auto. apply Forall_forall. intros i Hi. apply I in Hi. apply in_seq in Hi. lia.
Qed.
Lemma index_of_draw : forall Y X ind y, length X = length Y -> 1 <= y -> length ind = y -> Forall (fun i => i < length Y) ind ->
  exists s, sobol_first (outputs Y ind) (outputs X ind) (grid_m y (classes y)) = Ok (Some s) /\ good_index Y X y s.
Proof.
  intros Y X ind y HX Hy HL HF.
  destruct (sobol_first_first_order (outputs Y ind) (outputs X ind)) as (s & E & F & B).
  - intros C. assert (length (outputs Y ind) = 0) by (rewrite C; auto). rewrite outputs_length in H. lia.
  - rewrite !outputs_length. auto.
  - exists s. rewrite outputs_length, HL in E. split; auto. exists ind. auto.
Qed.

Section Analysis.
Variable kde : list R -> list R -> result (list R).
Variable nq : R -> R.

Lemma run_S1_good : forall c Y X y s, Y <> [] -> length X = length Y -> 1 <= y ->
  exists v, run_S1 c Y X (grid_m y (classes y)) y s =
    Ok (mkCell (c_delta s) (c_delta_conf s) (Some v) (c_S1_conf s) (c_note s) (c_done s)) /\ good_index Y X y v.
Proof.
  intros c Y X y s HY HX Hy. unfold run_S1. destruct (draw_ok (c 0) Y y HY) as (ind & E & L & F). rewrite E. cbn [bind].
  unfold take. rewrite take_outputs by auto. cbn [bind]. rewrite take_outputs by (rewrite HX; auto). cbn [bind].
  destruct (index_of_draw Y X ind y HX Hy L F) as (v & -> & G). cbn [bind]. eauto.
Qed.
Lemma sobol_conf_ok : forall c Y X n conf y, Y <> [] -> length X = length Y -> 1 <= y ->
  exists vs, length vs = n /\ Forall (good_index Y X y) vs /\
    sobol_conf nq c Y X (grid_m y (classes y)) n conf y = Ok (half_width nq conf vs).
Proof.
  intros c Y X n conf y HY HX Hy. unfold sobol_conf.
  assert (G : forall l, exists vs, length vs = length l /\ Forall (good_index Y X y) vs /\
    mapM (fun k => do r <- choice (c k) (seq 0 (length Y)) y ;; do Yr <- take r Y ;; do Xr <- take r X ;; sobol_first Yr Xr (grid_m y (classes y))) l
      = Ok (map (fun v => Some v) vs)).
  { induction l as [|k l IH]; [exists []; repeat split; auto|]. destruct IH as (vs & L & F & E).
    destruct (draw_ok (c k) Y y HY) as (ind & Ei & Li & Fi). destruct (index_of_draw Y X ind y HX Hy Li Fi) as (v & Ev & Gv).
    exists (v :: vs). split; [simpl; auto|]. split; [constructor; auto|]. cbn [mapM]. rewrite Ei. cbn [bind]. unfold take at 1 2.
    rewrite !take_outputs by (rewrite ?HX; auto). cbn [bind]. rewrite Ev. cbn [bind]. rewrite E. auto. }
  destruct (G (seq 0 n)) as (vs & L & F & ->). rewrite seq_length in L. exists vs. repeat split; auto. cbn [bind].
  f_equal. unfold width, half_width. rewrite (all_some_map_some R (fun v => v) vs), map_id. destruct (sd1 vs); auto.
Qed.

Lemma param_sobol : forall dc sc Y X n conf y spec, Y <> [] -> length X = length Y -> 1 <= y ->
  (forall z, spec = Some (BInt z) -> (-1 <= z)%Z) ->
  exists v vs nt, delta_param kde nq dc sc Y X false true n conf y spec =
    Ok (mkCell (fun _ => None) (fun _ => None) (Some v) (half_width nq conf vs) nt true) /\ good_index Y X y v /\
    length vs = n /\ Forall (good_index Y X y) vs.
Proof.
  intros dc sc Y X n conf y spec HY HX Hy HZ. unfold delta_param.
  assert (E : exists en, check_bininfo spec (minl X) (maxl X) = Ok en).
  { unfold check_bininfo. destruct spec as [[z|l| |]|]; eauto.
    - specialize (HZ z eq_refl). destruct (z + 1 <? 0)%Z eqn:E; [lia|eauto].
    - destruct (_ || _); eauto. destruct (negb _); eauto. }
  destruct E as [en E]. rewrite E. cbn [bind app]. cbn [run_all].
  destruct (run_S1_good sc Y X y (mkCell (fun _ => None) (fun _ => None) None None (snd en) false) HY HX Hy) as (v & Ev & G).
  rewrite Ev. cbn [c_delta c_delta_conf c_S1 c_S1_conf c_note c_done].
  unfold run_S1_conf. destruct (sobol_conf_ok (fun k => sc (S k)) Y X n conf y HY HX Hy) as (vs & L & F & Ew). rewrite Ew. cbn [bind].
  cbn [c_delta c_delta_conf c_S1 c_S1_conf c_note c_done]. exists v, vs, (snd en). split; [reflexivity|]. auto.
Qed.

(** ** Whatever happens, the index stored is a share or nan *)
Definition S1_ok (Y X : list R) (y : nat) (s : cell) : Prop := forall v, c_S1 s = Some v -> good_index Y X y v.
Lemma run_all_inv : forall (P : cell -> Prop) steps s, (forall f s s', In f steps -> P s -> f s = Ok s' -> P s') -> P s -> P (fst (run_all steps s)).
Proof.
  intros P. induction steps as [|f steps IH]; intros s H Hs; simpl; auto. destruct (f s) as [s'|e] eqn:E; simpl; auto.
  apply IH; auto.
  - intros g a b Hg Ha Eg. eapply H; eauto. right. auto.
  - eapply H; eauto. left. auto.
Qed.
Lemma finish_S1 : forall r c, finish r = Ok c -> c_S1 c = c_S1 (fst r) /\ c_S1_conf c = c_S1_conf (fst r) /\ (forall m, c_delta c m = c_delta (fst r) m).
Proof. intros [s [e|]] c H; simpl in H; [destruct e|]; inversion H; subst; simpl; auto. Qed.
Lemma run_mode_S1 : forall dc Y g X m n conf y edges k mo s s', run_mode kde nq dc Y g X m n conf y edges k mo s = Ok s' -> c_S1 s' = c_S1 s.
Proof.
  intros dc Y g X m n conf y edges k mo s s' H. unfold run_mode in H. destruct (_ && _).
  - inversion H; subst; auto.
  - destruct (bias_reduced _ _ _ _ _ _ _ _ _ _ _ _ _) as [v|]; cbn [bind] in H; inversion H; subst; auto.
Qed.
Lemma note_diff_S1 : forall s s', note_diff s = Ok s' -> c_S1 s' = c_S1 s /\ c_delta s' = c_delta s /\ c_delta_conf s' = c_delta_conf s.
Proof.
  intros s s' H. unfold note_diff in H. inversion H; subst. destruct (c_delta s Balanced); auto. destruct (c_delta s Raw); auto.
  destruct (Rlt_dec _ _); auto.
Qed.
Lemma sobol_first_empty : forall X m, sobol_first [] X m = Err ValueError.
Proof. reflexivity. Qed.
Lemma param_S1 : forall dc sc Y X wd ws n conf y spec c, Y <> [] -> length X = length Y ->
  delta_param kde nq dc sc Y X wd ws n conf y spec = Ok c -> S1_ok Y X y c.
Proof.
  intros dc sc Y X wd ws n conf y spec c HY HX H. unfold delta_param in H.
  destruct (check_bininfo spec (minl X) (maxl X)) as [en|] eqn:E; cbn [bind] in H; [|discriminate].
  destruct (finish_S1 _ _ H) as (ES & _ & _). unfold S1_ok. rewrite ES.
  apply (run_all_inv (fun s => forall v, c_S1 s = Some v -> good_index Y X y v)).
  - intros f s s' Hf Hs Ef. apply in_app_or in Hf. destruct Hf as [Hf|Hf].
    + destruct wd; [|destruct Hf]. apply in_app_or in Hf. destruct Hf as [Hf|[<-|[]]].
      * apply in_map_iff in Hf. destruct Hf as (mo & <- & _). rewrite (run_mode_S1 _ _ _ _ _ _ _ _ _ _ _ _ _ Ef). auto.
      * apply note_diff_S1 in Ef. destruct Ef as [-> _]. auto.
    + destruct ws; [|destruct Hf]. destruct Hf as [<-|[<-|[]]].
      * destruct (Nat.eq_dec y 0) as [->|Ny].
        -- exfalso. unfold run_S1 in Ef. destruct (draw_ok (sc 0) Y 0 HY) as (ind & Ei & L & F). rewrite Ei in Ef. cbn [bind] in Ef.
           destruct ind; [|discriminate]. cbn in Ef. discriminate.
        -- destruct (run_S1_good sc Y X y s HY HX ltac:(lia)) as (v & Ev & G). rewrite Ev in Ef. inversion Ef; subst. simpl.
           intros v' Hv. inversion Hv; subst. auto.
      * unfold run_S1_conf in Ef. destruct (sobol_conf _ _ _ _ _ _ _ _); cbn [bind] in Ef; inversion Ef; subst. simpl. auto.
  - simpl. intros v Hv. discriminate.
Qed.

(** ** A constant parameter *)
Lemma param_constant : forall dc sc Y X ws n conf y spec c, constant X ->
  delta_param kde nq dc sc Y X true ws n conf y spec = Ok c ->
  c = mkCell (fun _ => None) (fun _ => None) None None [NoteError ValueError] false.
Proof.
  intros dc sc Y X ws n conf y spec c HC H. unfold delta_param in H.
  destruct (check_bininfo spec (minl X) (maxl X)) as [en|] eqn:E; cbn [bind] in H; [|discriminate].
  cbn [map app run_all] in H. unfold run_mode at 1 in H. cbn [mode_eqb andb] in H. unfold bias_reduced at 1 in H.
  rewrite resample_constant in H by auto. cbn [bind finish] in H. inversion H. auto.
Qed.

(** ** The whole analysis *)
Definition col_of (X : mat R) (i : nat) : list R := col (rows X) i.
Lemma column_ok : forall (p : problem) X Y i, delta_input p X Y -> i < p_num_vars p ->
  (if i <? cols X then mapM (fun r => get r i) (rows X) else Err IndexError) = Ok (col_of X i) /\ length (col_of X i) = length Y.
Proof.
  intros p X Y i (W & C & _ & L & _) Hi. replace (i <? cols X) with true by (symmetry; apply Nat.ltb_lt; lia). split.
  - unfold col_of, col. apply mapM_all_ok. intros r Hr. unfold wf_mat in W. rewrite Forall_forall in W. specialize (W r Hr).
    unfold get. destruct (nth_error_lt_Some r (i := i)) as [x Hx]; [lia|]. rewrite Hx. f_equal. symmetry. apply nth_error_nth. auto.
  - unfold col_of, col. rewrite map_length. auto.
Qed.
Definition cells_of dc sc (p : problem) (X : mat R) (Y : list R) n conf y method (specs : string -> option bin_spec) : result (list cell) :=
  mapM (fun i => delta_param kde nq (dc i) (sc i) Y (col_of X i) (negb (String.eqb method "sobol")) (negb (String.eqb method "delta")) n conf y
                   (specs (nth i (p_names p) ""%string))) (seq 0 (p_num_vars p)).
Lemma analyze_eq : forall dc sc p X Y n conf yo method specs, delta_input p X Y -> (0 < conf < 1)%R ->
  In method ["delta"; "sobol"; "all"]%string -> (forall y, yo = Some y -> y <= length Y) ->
  delta_analyze kde nq dc sc p X Y n conf yo method specs =
    let y := match yo with None => length Y | Some y => y end in
    do cs <- cells_of dc sc p X Y n conf y method specs ;;
    let wd := negb (String.eqb method "sobol") in let ws := negb (String.eqb method "delta") in
    Ok (mkDelta (if wd then Some (fun mo => map (fun c => c_delta c mo) cs) else None)
                (if wd then Some (fun mo => map (fun c => c_delta_conf c mo) cs) else None)
                (if ws then Some (map c_S1 cs) else None) (if ws then Some (map c_S1_conf cs) else None) (p_names p)
                (if existsb c_done cs then Some (map c_note cs) else None)).
Proof.
  intros dc sc p X Y n conf yo method specs HI Hc Hm Hy. pose proof HI as (W & C & LN & L & HY & SF). unfold delta_analyze.
  rewrite L, Nat.eqb_refl. cbn [negb]. rewrite (proj2 (ltb_spec 0 conf)), (proj2 (ltb_spec conf 1)) by lra. cbn [andb negb].
  assert (EM : existsb (String.eqb method) ["delta"; "sobol"; "all"]%string = true) by (apply existsb_exists; exists method; rewrite String.eqb_refl; auto).
  rewrite EM. cbn [negb]. cbv zeta. set (y := match yo with Some y => y | None => length Y end).
  assert (Ly : y <= length Y) by (unfold y; destruct yo; auto). replace (y <=? length Y) with true by (symmetry; apply Nat.leb_le; auto).
  cbn [negb]. rewrite match_ne by auto. rewrite (proj1 (suffix_check (p_names p)) SF).
  unfold cells_of.
  rewrite (mapM_ext (fun i => do name <- get (p_names p) i ;; do Xi <- (if i <? cols X then mapM (fun r => get r i) (rows X) else Err IndexError) ;;
    delta_param kde nq (dc i) (sc i) Y Xi (negb (String.eqb method "sobol")) (negb (String.eqb method "delta")) n conf y (specs name))
    (fun i => delta_param kde nq (dc i) (sc i) Y (col_of X i) (negb (String.eqb method "sobol")) (negb (String.eqb method "delta")) n conf y
                   (specs (nth i (p_names p) ""%string)))); auto.
  intros i Hi. apply in_seq in Hi. destruct (column_ok p X Y i HI ltac:(lia)) as [EC _]. rewrite EC.
  unfold get. destruct (nth_error_lt_Some (p_names p) (i := i)) as [nm Hn]; [lia|]. rewrite Hn. cbn [bind].
  rewrite (nth_error_nth _ _ ""%string Hn). auto.
Qed.
End Analysis.
