(** * Delta: invariances and the step mode in terms of the sample. *)
From Coq Require Import Reals String List Arith ZArith Bool Lia Lra Permutation Sorted.
From Verif Require Import Base Arrays ListFacts ModelGroups ModelScale ProofsScale Stats Sums Quant ModelRsa SpecRsa ProofsRsa ProofsRsa2 ProofsRsa3 ModelFast ModelDelta SpecDelta
  ProofsDelta ProofsDelta2 ProofsDelta3 ProofsDelta4 ProofsDelta5 ProofsDelta6 ProofsDelta7.
Import ListNotations.
Local Open Scope nat_scope.

Lemma trapezoid_mass : forall f g, trapezoid f g = mass f g.
Proof.
  unfold mass. induction f as [|a f IH]; intros g; [reflexivity|]. destruct f as [|b f]; [destruct g; reflexivity|].
  destruct g as [|s [|t g]]; [reflexivity|reflexivity|].
  change (trapezoid (a :: b :: f) (s :: t :: g)) with ((t - s) * (a + b) / 2 + trapezoid (b :: f) (t :: g))%R. rewrite IH.
  replace (Nat.min (length (a :: b :: f)) (length (s :: t :: g)) - 1) with (S (Nat.min (length (b :: f)) (length (t :: g)) - 1)) by (cbn [length]; lia).
  rewrite <- cons_seq, <- seq_shift. cbn [map]. rewrite map_map. reflexivity.
Qed.
Lemma density_kde_ok : forall kde T, density T kde -> kde_ok kde T.
Proof. intros kde T H d g f E. rewrite trapezoid_mass. apply (H d). auto. Qed.

Lemma even_linspace : forall a b n, 1 <= n -> even_edges a b n (linspace a b (n + 1)).
Proof.
  intros a b n Hn. split; [apply linspace_length|]. intros i Hi. rewrite linspace_nth by lia. replace (n + 1 - 1) with n by lia. auto.
Qed.
Lemma even_unique : forall a b n e e', even_edges a b n e -> even_edges a b n e' -> e = e'.
Proof.
  intros a b n e e' [L H] [L' H']. apply nth_error_ext'. intros i. destruct (Nat.le_gt_cases i n).
  - rewrite !(nth_error_nth' _ 0%R) by lia. f_equal. rewrite H, H' by auto. auto.
  - rewrite !(proj2 (nth_error_None _ _)) by lia. auto.
Qed.

(** The bins in use. *)
Lemma bins_used : forall X spec, X <> [] ->
  exists r, check_bininfo spec (minl X) (maxl X) = r /\
  match spec with
  | Some (BInt z) => ((1 <= z)%Z -> exists edges, r = Ok (edges, []) /\ even_edges (minl X) (maxl X) (Z.to_nat z) edges) /\
                     ((-1 <= z <= 0)%Z -> exists edges, r = Ok (edges, []) /\ length edges <= 1) /\ ((z < -1)%Z -> r = Err ValueError)
  | Some (BList l) => (StronglySorted Rlt l -> (forall e, In e l -> (minl X <= e <= maxl X)%R) ->
                         r = Ok ([minl X - / 1000000000] ++ l ++ [maxl X + / 1000000000], [])%R) /\
                      (~ (StronglySorted Rlt l /\ forall e, In e l -> (minl X <= e <= maxl X)%R) ->
                         exists edges nt, r = Ok (edges, [nt]) /\ even_edges (minl X) (maxl X) 10 edges)
  | Some _ => exists edges nt, r = Ok (edges, [nt]) /\ even_edges (minl X) (maxl X) 10 edges
  | None => exists edges, r = Ok (edges, []) /\ even_edges (minl X) (maxl X) 10 edges
  end.
Proof.
  intros X spec HX. eexists. split; [reflexivity|]. pose proof (even_linspace (minl X) (maxl X) 10 ltac:(lia)) as D.
  destruct spec as [[z|l| |]|]; cbn [check_bininfo]; eauto.
  - repeat split.
    + intros Hz. replace (z + 1 <? 0)%Z with false by (symmetry; apply Z.ltb_ge; lia). eexists. split; eauto.
      replace (Z.to_nat (z + 1)) with (Z.to_nat z + 1) by lia. apply even_linspace. lia.
    + intros Hz. replace (z + 1 <? 0)%Z with false by (symmetry; apply Z.ltb_ge; lia). eexists. split; eauto. rewrite linspace_length. lia.
    + intros Hz. replace (z + 1 <? 0)%Z with true by (symmetry; apply Z.ltb_lt; lia). auto.
  - destruct (some_below l (minl X) || some_above l (maxl X)) eqn:E1; [|destruct (ascends l) eqn:E2; cbn [negb]].
    + apply orb_true_iff in E1. split; [|eauto]. intros _ HF. exfalso.
      destruct E1 as [E1|E1]; [apply (proj2 (some_below_false l (minl X))) in HF || idtac|].
      * assert (some_below l (minl X) = false) by (apply some_below_false; intros; apply HF; auto). congruence.
      * assert (some_above l (maxl X) = false) by (apply some_above_false; intros; apply HF; auto). congruence.
    + split; auto. intros N. exfalso. apply N. split; [apply ascends_spec; auto|]. apply orb_false_iff in E1. destruct E1 as [A B].
      rewrite some_below_false in A. rewrite some_above_false in B. intros e He. split; auto.
    + split; eauto. intros S. apply ascends_spec in S. congruence.
Qed.

(** Draws with zero bins. *)
Lemma no_bins_error : forall c X y edges k, X <> [] -> ~ constant X -> length edges <= 1 -> resample c X y Balanced edges k = Err ZeroDivisionError.
Proof.
  intros c X y edges k HX HC HL. destruct (bins_indices edges X k) as [init fin] eqn:E. pose proof (resample_balanced c X y edges k init fin HX HC E) as R.
  pose proof E as B. apply bins_indices_spec in B. destruct B as [[LB _] M]. assert (init = []) by (destruct init; simpl in LB; auto; lia). subst init.
  apply merged_count in M. destruct M as [M _]. assert (fin = []) by (destruct fin; simpl in M; auto; lia). subst fin.
  destruct (resample c X y Balanced edges k) as [ind|e].
  - destruct R as [R _]. simpl in R. lia.
  - destruct R as [[-> _]|[[_ R]|[_ [R _]]]]; auto; simpl in R; lia.
Qed.

(** ** Step mode *)
Lemma where_place_gen : forall (t : R -> bool) X s j i,
  nth_error (map fst (filter (fun ix => t (snd ix)) (combine (seq s (length X)) X))) j = Some i ->
  s <= i /\ length (filter t (firstn (i - s) X)) = j.
Proof.
  intros t. induction X as [|a X IH]; intros s j i H; cbn [length seq combine filter map] in H; [destruct j; discriminate|].
  cbn [snd] in H. destruct (t a) eqn:E.
  - destruct j; cbn [map nth_error fst] in H.
    + inversion H; subst. rewrite Nat.sub_diag. auto.
    + destruct (IH (S s) j i H) as [L E']. split; [lia|]. replace (i - s) with (S (i - S s)) by lia. cbn [firstn filter]. rewrite E. simpl. lia.
  - destruct (IH (S s) j i H) as [L E']. split; [lia|]. replace (i - s) with (S (i - S s)) by lia. cbn [firstn filter]. rewrite E. auto.
Qed.
Lemma place_of : forall X j, j < length (positives X) -> positive_place X j (nth j (step_places X) 0).
Proof.
  intros X j Hj. split; [apply places_positive; auto|].
  assert (HL : j < length (step_places X)) by (unfold step_places; rewrite where_length; auto).
  destruct (nth_error_lt_Some (step_places X) HL) as [i Hi]. rewrite (nth_error_nth _ _ 0 Hi).
  unfold step_places, where_ in Hi. apply where_place_gen in Hi. destruct Hi as [_ E]. rewrite Nat.sub_0_r in E. auto.
Qed.
Lemma step_described : forall c X y edges k ind, resample c X y Step edges k = Ok ind ->
  exists e init fin z ds w, even_edges (minl (positives X)) (maxl (positives X)) 5 e /\ binned e (positives X) init /\ merged (k / 2) init fin /\
    ind = z ++ w /\ length z = y / 2 /\ Forall (fun i => exists x, nth_error X i = Some x /\ (x <= 0)%R) z /\
    2 <= length fin /\ k / 2 <= (y - y / 2) / length fin /\ dealt (y - y / 2) (length fin) 0 fin ds /\
    Forall2 (positive_place X) (concat ds) w.
Proof.
  intros c X y edges k ind H. destruct (bins_indices (step_edges X) (positives X) (k / 2)) as [init fin] eqn:E.
  destruct (resample_step c X y edges k ind init fin H E) as (z & ds & -> & L & F & A & B & D).
  exists (step_edges X), init, fin, z, ds. eexists. split; [apply even_linspace; lia|].
  pose proof E as E'. apply bins_indices_spec in E'. destruct E' as [E1 E2]. do 8 (split; eauto).
  assert (R : forall i, In i (concat ds) -> i < length (positives X)).
  { intros i Hi. apply (dealt_in _ _ _ _ _ D) in Hi. eapply bins_in_range; eauto. }
  clear - R. induction (concat ds) as [|j l IH]; simpl; constructor.
  - apply place_of. apply R. left. auto.
  - apply IH. intros. apply R. right. auto.
Qed.

(** ** Rescaling the sample or the output *)
Section Invariance.
Variable kde : list R -> list R -> result (list R).
Variable nq : R -> R.

Lemma outputs_map : forall g Y c, Forall (fun i => i < length Y) c -> outputs (map g Y) c = map g (outputs Y c).
Proof.
  intros g Y c H. unfold outputs. rewrite map_map. apply map_ext_in. intros i Hi. rewrite Forall_forall in H. specialize (H i Hi).
  rewrite nth_indep with (d' := g 0%R) by (rewrite map_length; auto). apply map_nth.
Qed.
Lemma constant_map_inj : forall g (l : list R), (forall x y, g x = g y -> x = y) -> (constant (map g l) <-> constant l).
Proof.
  intros g l G. unfold constant. split; intros H a b Ha Hb.
  - apply G. apply H; apply in_map; auto.
  - apply in_map_iff in Ha, Hb. destruct Ha as (a' & <- & Ha). destruct Hb as (b' & <- & Hb). f_equal. auto.
Qed.
Lemma ptp_constant : forall l, l <> [] -> (Reqb (ptp l) 0 = true <-> constant l).
Proof. intros l H. unfold constant. rewrite <- (ptp_zero_iff l H). unfold Reqb. destruct (Req_EM_T (ptp l) 0); split; auto; discriminate. Qed.
Lemma sobol_first_affine : forall a b Y X m, a <> 0%R -> length X = length Y -> sobol_first (map (fun v => a * v + b)%R Y) X m = sobol_first Y X m.
Proof.
  intros a b Y X m Ha HX. unfold sobol_first. destruct Y as [|y0 Y0] eqn:EY; auto. rewrite <- EY in *. destruct (map (fun v => a * v + b)%R Y) as [|z0 Z0] eqn:EZ; [subst; discriminate|].
  rewrite <- EZ. assert (HY : Y <> []) by (subst; discriminate).
  assert (EP : Reqb (ptp (map (fun v => a * v + b)%R Y)) 0 = Reqb (ptp Y) 0).
  { apply eq_true_iff_eq. rewrite !ptp_constant by (auto; rewrite EZ; discriminate). apply constant_map_inj. intros x y E. nra. }
  rewrite EP. destruct (Reqb (ptp Y) 0) eqn:EC; auto.
  assert (HV : var Y <> 0%R).
  { intros V. apply (ptp_var Y HY) in V. unfold Reqb in EC. destruct (Req_EM_T (ptp Y) 0); [discriminate|auto]. }
  set (t := fun j => match outputs Y (class_of X m j) with [] => None | _ => Some (INR (length (class_of X m j)) / INR (length Y) * (mean (outputs Y (class_of X m j)) - mean Y) ^ 2)%R end).
  set (t' := fun j => match outputs Y (class_of X m j) with [] => None | _ => Some (a ^ 2 * (INR (length (class_of X m j)) / INR (length Y) * (mean (outputs Y (class_of X m j)) - mean Y) ^ 2))%R end).
  rewrite (mapM_all_ok _ _ _ t').
  2:{ intros j _. cbv zeta. assert (R : Forall (fun i => i < length Y) (class_of X m j)) by (rewrite <- HX; apply class_range).
      rewrite take_outputs by (rewrite map_length; auto). cbn [bind]. rewrite outputs_map by auto. unfold t'. rewrite map_length.
      destruct (outputs Y (class_of X m j)) as [|v l] eqn:EO; auto. rewrite <- EO. rewrite !mean_map_affine by (auto; rewrite EO; discriminate).
      destruct (map _ (outputs Y (class_of X m j))) eqn:EM; [rewrite EO in EM; discriminate|]. do 2 f_equal. ring. }
  cbn [bind]. rewrite (mapM_all_ok _ _ _ t).
  2:{ intros j _. cbv zeta. assert (R : Forall (fun i => i < length Y) (class_of X m j)) by (rewrite <- HX; apply class_range).
      rewrite take_outputs by auto. cbn [bind]. unfold t. auto. }
  cbn [bind]. f_equal. rewrite var_affine by auto.
  assert (A2 : (a ^ 2 <> 0)%R) by (apply pow_nonzero; auto).
  assert (G : forall l, match all_some (map t' l) with Some r => fdiv (Rsum r) (a ^ 2 * var Y) | None => None end =
                        match all_some (map t l) with Some r => fdiv (Rsum r) (var Y) | None => None end).
  { intros l. assert (E : all_some (map t' l) = option_map (map (fun v => a ^ 2 * v)%R) (all_some (map t l))).
    { assert (T : forall j, t' j = option_map (fun v => a ^ 2 * v)%R (t j)) by (intros j; unfold t, t'; destruct (outputs Y (class_of X m j)); auto).
      induction l as [|j l IH]; auto. cbn [map all_some]. rewrite IH, T. destruct (t j); auto. cbn [option_map].
      destruct (all_some (map t l)); auto. }
    rewrite E. destruct (all_some (map t l)) as [r|]; auto. cbn [option_map]. unfold fdiv.
    assert (E1 : Reqb (a ^ 2 * var Y) 0 = false).
    { unfold Reqb. destruct (Req_EM_T _ _) as [Q|]; auto. apply Rmult_integral in Q. tauto. }
    assert (E2 : Reqb (var Y) 0 = false) by (unfold Reqb; destruct (Req_EM_T _ _); tauto).
    rewrite E1, E2. f_equal. pose proof (Rsum_map_scal _ (fun v : R => v) (a ^ 2)%R r) as RS. rewrite map_id in RS. rewrite RS. field. auto. }
  apply G.
Qed.

Definition same_S1 (a b : cell) : Prop := c_S1 a = c_S1 b /\ c_S1_conf a = c_S1_conf b.
Definition related (r r' : result cell) : Prop := match r, r' with Ok a, Ok b => same_S1 a b | Err _, Err _ => False | _, _ => False end.

(** With method "sobol" only the two steps for S1 run. *)
Lemma sobol_cell : forall dc sc Y X n conf y spec e nt, check_bininfo spec (minl X) (maxl X) = Ok (e, nt) ->
  delta_param kde nq dc sc Y X false true n conf y spec =
  finish (run_all [run_S1 sc Y X (grid_m y (classes y)) y; run_S1_conf nq sc Y X (grid_m y (classes y)) n conf y] (mkCell (fun _ => None) (fun _ => None) None None nt false)).
Proof. intros. unfold delta_param. rewrite H. reflexivity. Qed.

(** The draws are the same positions for both inputs, so equal indices of every draw give equal results. *)
Lemma S1_same : forall sc Y X Y' X' y n conf s s', length Y' = length Y -> length X' = length X -> 
  (forall ind, Forall (fun i => i < length Y) ind -> forall m,
     (do Yi <- take ind Y' ;; do Xi <- take ind X' ;; sobol_first Yi Xi m) = (do Yi <- take ind Y ;; do Xi <- take ind X ;; sobol_first Yi Xi m)) ->
  c_S1 s = c_S1 s' -> c_S1_conf s = c_S1_conf s' -> forall m,
  let r := run_all [run_S1 sc Y X m y; run_S1_conf nq sc Y X m n conf y] s in
  let r' := run_all [run_S1 sc Y' X' m y; run_S1_conf nq sc Y' X' m n conf y] s' in
  snd r = snd r' /\ same_S1 (fst r) (fst r').
Proof.
  intros sc Y X Y' X' y n conf s s' LY LX H E1 E2 m. cbn [run_all].
  assert (A : (do ind <- choice (sc 0) (seq 0 (length Y')) y;; (do Yi <- take ind Y';; do Xi <- take ind X';; sobol_first Yi Xi m)) =
              (do ind <- choice (sc 0) (seq 0 (length Y)) y;; (do Yi <- take ind Y;; do Xi <- take ind X;; sobol_first Yi Xi m))).
  { rewrite LY. destruct (choice (sc 0) (seq 0 (length Y)) y) as [ind|] eqn:E; cbn [bind]; auto. apply H.
    apply choice_spec in E. apply Forall_forall. intros i Hi. apply E in Hi. apply in_seq in Hi. lia. }
  assert (B : sobol_conf nq (fun k => sc (S k)) Y' X' m n conf y = sobol_conf nq (fun k => sc (S k)) Y X m n conf y).
  { unfold sobol_conf. rewrite LY. erewrite mapM_ext; [reflexivity|]. intros k _. cbv beta.
    destruct (choice (sc (S k)) (seq 0 (length Y)) y) as [ind|] eqn:E; cbn [bind]; auto. apply H.
    apply choice_spec in E. apply Forall_forall. intros i Hi. apply E in Hi. apply in_seq in Hi. lia. }
  assert (R : forall Z W (t : cell), run_S1 sc Z W m y t =
     match (do ind <- choice (sc 0) (seq 0 (length Z)) y;; (do Yi <- take ind Z;; do Xi <- take ind W;; sobol_first Yi Xi m)) with
     | Ok v => Ok (mkCell (c_delta t) (c_delta_conf t) v (c_S1_conf t) (c_note t) (c_done t)) | Err e => Err e end).
  { intros Z W t. unfold run_S1. destruct (choice (sc 0) (seq 0 (length Z)) y) as [i|]; cbn [bind]; auto. destruct (take i Z); cbn [bind]; auto.
    destruct (take i W); cbn [bind]; auto. }
  rewrite !R, A. clear A R.
  destruct (do ind <- choice (sc 0) (seq 0 (length Y)) y;; (do Yi <- take ind Y;; do Xi <- take ind X;; sobol_first Yi Xi m)) as [v|e]; [|cbn; repeat split; auto].
  unfold run_S1_conf. rewrite B. clear B. destruct (sobol_conf _ _ _ _ _ _ _ _); cbn; repeat split; auto.
Qed.
Lemma take_ok : forall l c, Forall (fun i => i < length l) c -> take c l = Ok (outputs l c).
Proof. intros. apply take_outputs. auto. Qed.
Lemma take_rows : forall c (Y X : list R), length X = length Y -> Forall (fun i => i < length Y) c -> take c Y = Ok (outputs Y c) /\ take c X = Ok (outputs X c).
Proof. intros c Y X L H. split; apply take_ok; auto. rewrite L. auto. Qed.
Lemma finish_same : forall r r' c, snd r = snd r' -> same_S1 (fst r) (fst r') -> finish r = Ok c -> exists c', finish r' = Ok c' /\ same_S1 c c'.
Proof.
  intros [s [e|]] [s' o'] c E [E1 E2] H; cbn [fst snd] in *; subst o'; cbn [finish] in *.
  - destruct e; try discriminate; inversion H; subst; eexists; split; eauto; split; auto.
  - inversion H; subst. eexists. split; eauto. split; auto.
Qed.
Lemma rescaled_input : forall p X Y g h, delta_input p X Y -> delta_input p (recol g X) (map h Y).
Proof.
  intros p X Y g h (A & B & C & D & E & F). split; [apply recol_wf|]. split; [auto|]. split; [auto|].
  split; [unfold recol; simpl; rewrite !map_length; auto|]. split; [destruct Y; simpl; congruence|auto].
Qed.
Lemma param_rescaled : forall dc sc Y X n conf y spec c g a b, increasing g -> a <> 0%R -> length X = length Y -> Y <> [] ->
  (forall z, spec = Some (BInt z) -> (-1 <= z)%Z) ->
  delta_param kde nq dc sc Y X false true n conf y spec = Ok c ->
  exists c', delta_param kde nq dc sc (map (fun v => a * v + b)%R Y) (map g X) false true n conf y spec = Ok c' /\ same_S1 c c'.
Proof.
  intros dc sc Y X n conf y spec c g a b G Ha HL HY HZ H.
  assert (B : forall W, W <> [] -> exists e nt, check_bininfo spec (minl W) (maxl W) = Ok (e, nt)).
  { intros W HW. destruct (bins_used W spec HW) as (r & E & S). rewrite E. destruct spec as [[z|l| |]|].
    - destruct S as (S1 & S2 & _). specialize (HZ z eq_refl). destruct (Z.le_gt_cases 1 z) as [C|C].
      + destruct (S1 C) as (e & -> & _). eauto.
      + destruct S2 as (e & -> & _); [lia|eauto].
    - destruct S as (S1 & S2). unfold check_bininfo in E. destruct (_ || _); [subst; eauto|]. destruct (negb _); subst; eauto.
    - destruct S as (e & nt & -> & _). eauto.
    - destruct S as (e & nt & -> & _). eauto.
    - destruct S as (e & -> & _). eauto. }
  assert (HX : X <> []) by (intros ->; destruct Y; simpl in *; congruence).
  destruct (B X HX) as (e & nt & E). destruct (B (map g X)) as (e' & nt' & E'); [destruct X; simpl; congruence|].
  rewrite (sobol_cell dc sc Y X n conf y spec e nt E) in H. rewrite (sobol_cell dc sc _ _ n conf y spec e' nt' E').
  eapply finish_same; [| |exact H].
  - apply (S1_same sc Y X (map (fun v => a * v + b)%R Y) (map g X) y n conf); auto; try apply map_length.
    intros ind HI m. rewrite (proj1 (take_rows ind Y X HL HI)), (proj2 (take_rows ind Y X HL HI)).
    rewrite (take_ok (map _ Y)), (take_ok (map g X)) by (rewrite map_length, ?HL; exact HI). cbn [bind]. rewrite (outputs_map _ Y), (outputs_map g X) by (rewrite ?HL; exact HI).
    rewrite sobol_first_affine by (auto; rewrite map_length, !outputs_length; auto). apply sobol_first_increasing. auto.
  - apply (S1_same sc Y X (map (fun v => a * v + b)%R Y) (map g X) y n conf); auto; try apply map_length.
    intros ind HI m. rewrite (proj1 (take_rows ind Y X HL HI)), (proj2 (take_rows ind Y X HL HI)).
    rewrite (take_ok (map _ Y)), (take_ok (map g X)) by (rewrite map_length, ?HL; exact HI). cbn [bind]. rewrite (outputs_map _ Y), (outputs_map g X) by (rewrite ?HL; exact HI).
    rewrite sobol_first_affine by (auto; rewrite map_length, !outputs_length; auto). apply sobol_first_increasing. auto.
Qed.
Lemma mapM_related : forall A B (f g : A -> result B) (Q : B -> B -> Prop) l ys, mapM f l = Ok ys ->
  (forall x y, In x l -> f x = Ok y -> exists y', g x = Ok y' /\ Q y y') -> exists ys', mapM g l = Ok ys' /\ Forall2 Q ys ys'.
Proof.
  intros A B f g Q. induction l as [|a l IH]; intros ys H HQ; simpl in H.
  - inversion H; subst. exists []. split; auto.
  - destruct (f a) as [y|] eqn:E; cbn [bind] in H; [|discriminate]. destruct (mapM f l) as [ys0|]; cbn [bind] in H; [|discriminate]. inversion H; subst.
    destruct (HQ a y (or_introl eq_refl) E) as (y' & E' & Qy). destruct (IH ys0 eq_refl) as (ys' & Es & F); [intros; apply HQ; auto; right; auto|].
    exists (y' :: ys'). simpl. rewrite E', Es. cbn [bind]. split; auto.
Qed.
Lemma analysis_rescaled : forall dc sc p X Y n conf yo specs g a b out, delta_input p X Y -> (forall i, increasing (g i)) -> a <> 0%R ->
  (forall name z, specs name = Some (BInt z) -> (-1 <= z)%Z) ->
  delta_analyze kde nq dc sc p X Y n conf yo "sobol" specs = Ok out ->
  exists out', delta_analyze kde nq dc sc p (recol g X) (map (fun v => a * v + b)%R Y) n conf yo "sobol" specs = Ok out' /\
    d_S1 out' = d_S1 out /\ d_S1_conf out' = d_S1_conf out.
Proof.
  intros dc sc p X Y n conf yo specs g a b out HI HG Ha HZ H.
  destruct (analyze_Ok_inv _ _ _ _ _ _ _ _ _ _ _ _ _ HI H) as (Hc & Hm & Hy). pose proof HI as (_ & HC & _ & _ & HY & _).
  rewrite analyze_eq in H by auto. rewrite analyze_eq by (try apply rescaled_input; auto; rewrite map_length; auto). cbv zeta in *. rewrite map_length.
  set (y := match yo with None => length Y | Some y => y end) in *.
  destruct (cells_of kde nq dc sc p X Y n conf y "sobol" specs) as [cs|] eqn:E; cbn [bind] in H; [|discriminate].
  destruct (mapM_related _ _ _ (fun i => delta_param kde nq (dc i) (sc i) (map (fun v => a * v + b)%R Y) (col_of (recol g X) i) false true n conf y
                   (specs (nth i (p_names p) ""%string))) same_S1 _ _ E) as (cs' & E' & F).
  { intros i c Hi Ei. apply in_seq in Hi. destruct (column_ok p X Y i HI ltac:(lia)) as [_ L]. unfold col_of at 1. rewrite recol_col by lia.
    eapply param_rescaled; eauto. }
  unfold cells_of. change (negb (String.eqb "sobol" "sobol")) with false in *. change (negb (String.eqb "sobol" "delta")) with true in *. rewrite E'. cbn [bind].
  eexists. split; [reflexivity|]. inversion H; subst out. cbn [d_S1 d_S1_conf].
  assert (E1 : map c_S1 cs' = map c_S1 cs) by (clear - F; induction F as [|u v l l' [A B]]; simpl; congruence).
  assert (E2 : map c_S1_conf cs' = map c_S1_conf cs) by (clear - F; induction F as [|u v l l' [A B]]; simpl; congruence).
  rewrite E1, E2. auto.
Qed.
End Invariance.
