(** * Delta: results of the analysis and the distance estimator. *)
From Coq Require Import Reals String List Arith ZArith Bool Lia Lra Permutation Sorted.
From Verif Require Import Base Arrays ListFacts ModelGroups ModelScale ProofsScale Stats Sums Quant ModelRsa SpecRsa ProofsRsa ProofsRsa2 ProofsRsa3 ModelFast ModelDelta SpecDelta
  ProofsDelta ProofsDelta2 ProofsDelta3 ProofsDelta4 ProofsDelta5 ProofsDelta6.
Import ListNotations.
Local Open Scope nat_scope.

Section Analysis.
Variable kde : list R -> list R -> result (list R).
Variable nq : R -> R.

Lemma mapM_Forall2 : forall A B (f : A -> result B) l ys, mapM f l = Ok ys -> Forall2 (fun x y => f x = Ok y) l ys.
Proof.
  induction l as [|a l IH]; intros ys H; simpl in H; [inversion H; constructor|].
  destruct (f a) eqn:E; cbn [bind] in H; [|discriminate]. destruct (mapM f l); cbn [bind] in H; inversion H; subst. constructor; auto.
Qed.
Lemma analysis_sobol : forall dc sc p X Y n conf yo specs, delta_input p X Y -> (0 < conf < 1)%R ->
  let y := match yo with None => length Y | Some y => y end in 1 <= y <= length Y ->
  (forall name z, specs name = Some (BInt z) -> (-1 <= z)%Z) ->
  exists out S1 C, delta_analyze kde nq dc sc p X Y n conf yo "sobol" specs = Ok out /\
    d_delta out = None /\ d_S1 out = Some S1 /\ d_S1_conf out = Some C /\ length S1 = p_num_vars p /\ length C = p_num_vars p /\
    forall i, i < p_num_vars p ->
      (exists v, nth_error S1 i = Some (Some v) /\ good_index Y (col_of X i) y v) /\
      exists vs, length vs = n /\ Forall (good_index Y (col_of X i) y) vs /\ nth_error C i = Some (half_width nq conf vs).
Proof.
  intros dc sc p X Y n conf yo specs HI Hc y Hy HZ. pose proof HI as (_ & _ & _ & _ & HY & _).
  rewrite analyze_eq; auto; [|right; left; auto|intros y0 ->; unfold y in Hy; lia].
  cbv zeta. fold y. unfold cells_of. change (negb (String.eqb "sobol" "sobol")) with false. change (negb (String.eqb "sobol" "delta")) with true.
  assert (G : forall i, i < p_num_vars p -> exists v vs nt, delta_param kde nq (dc i) (sc i) Y (col_of X i) false true n conf y (specs (nth i (p_names p) ""%string)) =
    Ok (mkCell (fun _ => None) (fun _ => None) (Some v) (half_width nq conf vs) nt true) /\ good_index Y (col_of X i) y v /\
    length vs = n /\ Forall (good_index Y (col_of X i) y) vs).
  { intros i Hi. apply param_sobol; auto; try lia. apply (column_ok p X Y i HI Hi). intros z. apply HZ. }
  assert (EO : exists cs, mapM (fun i => delta_param kde nq (dc i) (sc i) Y (col_of X i) false true n conf y (specs (nth i (p_names p) ""%string))) (seq 0 (p_num_vars p)) = Ok cs).
  { apply mapM_Ok_iff. intros i Hi. apply in_seq in Hi. destruct (G i ltac:(lia)) as (v & vs & nt & E & _). eauto. }
  destruct EO as [cs E]. rewrite E. cbn [bind]. eexists. exists (map c_S1 cs), (map c_S1_conf cs). split; [reflexivity|].
  cbn [d_delta d_S1 d_S1_conf]. pose proof (mapM_Ok_length _ _ E) as LE. rewrite seq_length in LE. rewrite !map_length.
  do 5 (split; [auto|]). intros i Hi. destruct (G i Hi) as (v & vs & nt & Ei & G1 & G2 & G3).
  destruct (mapM_Ok_nth _ _ i E (x := i)) as (c & Ec & Hn); [rewrite nth_error_seq; replace (i <? p_num_vars p) with true by (symmetry; apply Nat.ltb_lt; auto); auto|].
  rewrite Ei in Ec. inversion Ec; subst c. split.
  - exists v. rewrite nth_error_map', Hn. auto.
  - exists vs. rewrite nth_error_map', Hn. auto.
Qed.
Lemma analyze_Ok_inv : forall dc sc p X Y n conf yo method specs out, delta_input p X Y ->
  delta_analyze kde nq dc sc p X Y n conf yo method specs = Ok out ->
  (0 < conf < 1)%R /\ In method ["delta"; "sobol"; "all"]%string /\ (forall y, yo = Some y -> y <= length Y).
Proof.
  intros dc sc p X Y n conf yo method specs out HI H. pose proof HI as (_ & _ & _ & L & _). unfold delta_analyze in H.
  rewrite L, Nat.eqb_refl in H. cbn [negb] in H.
  destruct (ltb 0 conf && ltb conf 1) eqn:E1; cbn [negb] in H; [|discriminate]. apply andb_true_iff in E1. rewrite !ltb_spec in E1.
  destruct (existsb (String.eqb method) ["delta"; "sobol"; "all"]%string) eqn:E2; cbn [negb] in H; [|discriminate].
  apply existsb_exists in E2. destruct E2 as (m & Hm & Em). apply String.eqb_eq in Em. subst m. split; auto. split; auto.
  cbv zeta in H. destruct (match yo with Some y => y | None => length Y end <=? length Y) eqn:E3; cbn [negb] in H; [|discriminate].
  apply Nat.leb_le in E3. intros y ->. auto.
Qed.
Lemma analysis_cells : forall dc sc p X Y n conf yo method specs out, delta_input p X Y ->
  delta_analyze kde nq dc sc p X Y n conf yo method specs = Ok out ->
  let y := match yo with None => length Y | Some y => y end in
  exists cs, length cs = p_num_vars p /\
    (forall i c, nth_error cs i = Some c -> delta_param kde nq (dc i) (sc i) Y (col_of X i) (negb (String.eqb method "sobol")) (negb (String.eqb method "delta")) n conf y
                   (specs (nth i (p_names p) ""%string)) = Ok c) /\
    d_delta out = (if negb (String.eqb method "sobol") then Some (fun mo => map (fun c => c_delta c mo) cs) else None) /\
    d_delta_conf out = (if negb (String.eqb method "sobol") then Some (fun mo => map (fun c => c_delta_conf c mo) cs) else None) /\
    d_S1 out = (if negb (String.eqb method "delta") then Some (map c_S1 cs) else None) /\
    d_S1_conf out = (if negb (String.eqb method "delta") then Some (map c_S1_conf cs) else None) /\
    d_names out = p_names p /\ d_notes out = (if existsb c_done cs then Some (map c_note cs) else None).
Proof.
  intros dc sc p X Y n conf yo method specs out HI H y. destruct (analyze_Ok_inv _ _ _ _ _ _ _ _ _ _ _ HI H) as (Hc & Hm & Hy).
  rewrite analyze_eq in H by auto. cbv zeta in H. fold y in H.
  destruct (cells_of kde nq dc sc p X Y n conf y method specs) as [cs|] eqn:E; cbn [bind] in H; [|discriminate].
  exists cs. inversion H; subst out; cbn. pose proof (mapM_Ok_length _ _ E) as LE. rewrite seq_length in LE. repeat split; auto.
  intros i c Hi. assert (Hlt : i < p_num_vars p) by (rewrite <- LE; eapply nth_error_Some_lt; eauto).
  destruct (mapM_Ok_nth _ _ i E (x := i)) as (c' & Ec & Hn); [rewrite nth_error_seq; replace (i <? p_num_vars p) with true by (symmetry; apply Nat.ltb_lt; auto); auto|].
  rewrite Hi in Hn. inversion Hn; subst c'. auto.
Qed.
Lemma analysis_S1 : forall dc sc p X Y n conf yo method specs out S1, delta_input p X Y ->
  delta_analyze kde nq dc sc p X Y n conf yo method specs = Ok out -> d_S1 out = Some S1 -> length S1 = p_num_vars p /\
  forall i v, nth_error S1 i = Some (Some v) -> good_index Y (col_of X i) (match yo with None => length Y | Some y => y end) v.
Proof.
  intros dc sc p X Y n conf yo method specs out S1 HI H HS. pose proof HI as (_ & _ & _ & _ & HY & _).
  destruct (analysis_cells _ _ _ _ _ _ _ _ _ _ _ HI H) as (cs & L & HC & _ & _ & ES & _).
  rewrite ES in HS. destruct (negb (String.eqb method "delta")); inversion HS; subst S1. rewrite map_length. split; auto.
  intros i v Hv. rewrite nth_error_map' in Hv. destruct (nth_error cs i) as [c|] eqn:Ec; [|discriminate]. simpl in Hv. inversion Hv as [Hv'].
  specialize (HC i c Ec). apply param_S1 in HC; auto. apply (column_ok p X Y i HI). rewrite <- L. eapply nth_error_Some_lt; eauto.
Qed.
Lemma analysis_constant : forall dc sc p X Y n conf yo method specs out i, delta_input p X Y ->
  delta_analyze kde nq dc sc p X Y n conf yo method specs = Ok out -> method <> "sobol"%string -> i < p_num_vars p -> constant (col_of X i) ->
  (forall f mo, d_delta out = Some f -> nth_error (f mo) i = Some None) /\
  (forall f mo, d_delta_conf out = Some f -> nth_error (f mo) i = Some None) /\
  (forall l, d_S1 out = Some l -> nth_error l i = Some None) /\ (forall l, d_S1_conf out = Some l -> nth_error l i = Some None) /\
  (forall l, d_notes out = Some l -> nth_error l i = Some [NoteError ValueError]).
Proof.
  intros dc sc p X Y n conf yo method specs out i HI H HM Hi HC.
  destruct (analysis_cells _ _ _ _ _ _ _ _ _ _ _ HI H) as (cs & L & HCs & E1 & E2 & E3 & E4 & _ & E5).
  apply String.eqb_neq in HM. rewrite HM in *. cbn [negb] in *.
  destruct (nth_error_lt_Some cs (i := i)) as [c Hc]; [lia|]. pose proof (HCs i c Hc) as Ec. apply param_constant in Ec; auto. subst c.
  rewrite E1, E2, E3, E4, E5. repeat split.
  - intros f mo Hf. inversion Hf; subst. rewrite nth_error_map', Hc. auto.
  - intros f mo Hf. inversion Hf; subst. rewrite nth_error_map', Hc. auto.
  - intros l Hl. destruct (negb _); inversion Hl; subst. rewrite nth_error_map', Hc. auto.
  - intros l Hl. destruct (negb _); inversion Hl; subst. rewrite nth_error_map', Hc. auto.
  - intros l Hl. destruct (existsb c_done cs); inversion Hl; subst. rewrite nth_error_map', Hc. auto.
Qed.
(** Nothing is noted when every parameter is constant. *)
Lemma analysis_all_constant : forall dc sc p X Y n conf yo method specs out, delta_input p X Y ->
  delta_analyze kde nq dc sc p X Y n conf yo method specs = Ok out -> method <> "sobol"%string ->
  (forall i, i < p_num_vars p -> constant (col_of X i)) -> d_notes out = None.
Proof.
  intros dc sc p X Y n conf yo method specs out HI H HM HC.
  destruct (analysis_cells _ _ _ _ _ _ _ _ _ _ _ HI H) as (cs & L & HCs & _ & _ & _ & _ & _ & E5).
  apply String.eqb_neq in HM. rewrite HM in *. cbn [negb] in *. rewrite E5.
  assert (E : existsb c_done cs = false); [|rewrite E; auto]. apply not_true_iff_false. rewrite existsb_exists. intros (c & Hc & D).
  apply In_nth_error in Hc. destruct Hc as [i Hi]. pose proof (HCs i c Hi) as Ec. apply param_constant in Ec; [subst c; discriminate|].
  apply HC. rewrite <- L. eapply nth_error_Some_lt; eauto.
Qed.

(** Constant parameters never make the analysis fail by themselves. *)
Lemma analysis_constant_ok : forall dc sc p X Y n conf yo method specs, delta_input p X Y -> (0 < conf < 1)%R ->
  In method ["delta"; "all"]%string -> (forall y, yo = Some y -> y <= length Y) -> (forall name z, specs name = Some (BInt z) -> (-1 <= z)%Z) ->
  (forall i, i < p_num_vars p -> constant (col_of X i)) -> exists out, delta_analyze kde nq dc sc p X Y n conf yo method specs = Ok out.
Proof.
  intros dc sc p X Y n conf yo method specs HI Hc Hm Hy HZ HC. rewrite analyze_eq; auto; [|destruct Hm as [<-|[<-|[]]]; simpl; auto].
  cbv zeta. assert (EM : negb (String.eqb method "sobol") = true) by (destruct Hm as [<-|[<-|[]]]; auto).
  destruct (cells_of kde nq dc sc p X Y n conf (match yo with Some y => y | None => length Y end) method specs) as [cs|e] eqn:E; cbn [bind]; [eauto|].
  exfalso. unfold cells_of in E. rewrite EM in E.
  assert (EE : exists e, mapM (fun i => delta_param kde nq (dc i) (sc i) Y (col_of X i) true (negb (String.eqb method "delta")) n conf (match yo with Some y => y | None => length Y end)
                   (specs (nth i (p_names p) ""%string))) (seq 0 (p_num_vars p)) = Err e) by eauto.
  apply mapM_Err_iff in EE. destruct EE as (i & e' & Hi & Ee). apply in_seq in Hi. unfold delta_param in Ee.
  destruct (check_bininfo _ (minl (col_of X i)) (maxl (col_of X i))) as [en|e2] eqn:Eb; cbn [bind] in Ee.
  - cbn [map app run_all] in Ee. unfold run_mode at 1 in Ee. cbn [mode_eqb andb] in Ee. unfold bias_reduced at 1 in Ee.
    rewrite resample_constant in Ee by (apply HC; lia). cbn [bind finish] in Ee. discriminate.
  - unfold check_bininfo in Eb. destruct (specs (nth i (p_names p) ""%string)) as [[z|l| |]|] eqn:Es; try discriminate.
    + specialize (HZ _ _ Es). destruct (z + 1 <? 0)%Z eqn:Ez; [lia|discriminate].
    + destruct (some_below l _ || some_above l _); [discriminate Eb|]. destruct (negb (ascends l)); discriminate Eb.
Qed.

(** ** The distance estimator *)
Lemma trapezoid_nonneg : forall f g, StronglySorted Rle g -> Forall (fun v => 0 <= v)%R f -> (0 <= trapezoid f g)%R.
Proof.
  induction f as [|a f IH]; intros g HS HF; [simpl; lra|]. destruct f as [|b f]; [simpl; lra|]. destruct g as [|s [|t g]]; try (simpl; lra).
  inversion HF as [|? ? Ha HF']; subst. inversion HF' as [|? ? Hb _]; subst. inversion HS as [|? ? HS' HG]; subst. inversion HG; subst.
  specialize (IH (t :: g) HS' HF').
  change (trapezoid (a :: b :: f) (s :: t :: g)) with ((t - s) * (a + b) / 2 + trapezoid (b :: f) (t :: g))%R.
  assert (0 <= (t - s) * (a + b))%R by (apply Rmult_le_pos; lra). lra.
Qed.
Lemma trapezoid_abs : forall f f' g, StronglySorted Rle g -> length f = length g -> length f' = length g ->
  Forall (fun v => 0 <= v)%R f -> Forall (fun v => 0 <= v)%R f' ->
  (0 <= trapezoid (map2 (fun a b => Rabs (a - b)) f f') g <= trapezoid f g + trapezoid f' g)%R.
Proof.
  intros f f' g HS HL HL' HF HF'. split.
  - apply trapezoid_nonneg; auto. apply Forall_forall. intros v Hv. apply In_nth_error in Hv. destruct Hv as [i Hi].
    rewrite nth_error_map2 in Hi. destruct (nth_error f i), (nth_error f' i); inversion Hi. apply Rabs_pos.
  - revert f f' HL HL' HF HF'. induction HS as [|s g HS IH HG]; intros f f' HL HL' HF HF'.
    + destruct f, f'; try discriminate. simpl. lra.
    + destruct f as [|a f], f' as [|a' f']; try discriminate. simpl in HL, HL'.
      inversion HF as [|? ? Ha HF1]; subst. inversion HF' as [|? ? Ha' HF1']; subst.
      destruct g as [|t g]; destruct f as [|b f], f' as [|b' f']; try discriminate; [simpl; lra|].
      inversion HF1 as [|? ? Hb _]; subst. inversion HF1' as [|? ? Hb' _]; subst. inversion HG; subst.
      specialize (IH (b :: f) (b' :: f') ltac:(simpl in *; lia) ltac:(simpl in *; lia) HF1 HF1').
      cbn [map2] in *. 
      change (trapezoid (Rabs (a - a') :: Rabs (b - b') :: map2 (fun a0 b0 => Rabs (a0 - b0)) f f') (s :: t :: g)) with
        ((t - s) * (Rabs (a - a') + Rabs (b - b')) / 2 + trapezoid (Rabs (b - b') :: map2 (fun a0 b0 => Rabs (a0 - b0)) f f') (t :: g))%R.
      change (trapezoid (a :: b :: f) (s :: t :: g)) with ((t - s) * (a + b) / 2 + trapezoid (b :: f) (t :: g))%R.
      change (trapezoid (a' :: b' :: f') (s :: t :: g)) with ((t - s) * (a' + b') / 2 + trapezoid (b' :: f') (t :: g))%R.
      assert (Rabs (a - a') <= a + a')%R by (apply Rabs_le; lra). assert (Rabs (b - b') <= b + b')%R by (apply Rabs_le; lra). nra.
Qed.
Definition kde_ok (T : R) : Prop := forall d g f, kde d g = Ok f -> length f = length g /\ Forall (fun v => 0 <= v)%R f /\ (trapezoid f g <= T)%R.
Lemma INR_list_sum : forall l, INR (list_sum l) = Rsum (map INR l).
Proof. induction l as [|a l IH]; auto. change (list_sum (a :: l)) with (a + list_sum l). rewrite plus_INR, IH. auto. Qed.
(** ranks only up to [length X]; the grid may be meant for more points. *)
Lemma class_total_le : forall X y M, 1 <= M -> (Rsum (map (fun j => INR (length (class_of X (grid_m y M) j))) (seq 0 M)) <= INR (length X))%R.
Proof.
  intros X y M HM. rewrite <- (map_map (fun j => length (class_of X (grid_m y M) j)) INR). rewrite <- INR_list_sum. apply le_INR.
  assert (E : list_sum (map (fun j => length (class_of X (grid_m y M) j)) (seq 0 M)) = length (concat (map (class_of X (grid_m y M)) (seq 0 M)))).
  { generalize (seq 0 M) as l. induction l as [|j l IH]; simpl; auto. rewrite app_length. f_equal. auto. }
  rewrite E, <- (seq_length (length X) 0) at 1. apply NoDup_incl_length.
  - apply NoDup_concat.
    + apply Forall_forall. intros c Hc. apply in_map_iff in Hc. destruct Hc as (j & <- & _). apply NoDup_filter, seq_NoDup.
    + intros a b ca cb i Ha Hb Ia Ib. rewrite nth_error_map', nth_error_seq in Ha, Hb.
      destruct (a <? M) eqn:La; [|discriminate]. destruct (b <? M) eqn:Lb; [|discriminate]. apply Nat.ltb_lt in La, Lb. simpl in Ha, Hb.
      inversion Ha; inversion Hb; subst ca cb. apply class_member in Ia; auto. apply class_member in Ib; auto.
      destruct (Nat.lt_trichotomy a b) as [C|[C|C]]; auto; exfalso.
      * pose proof (div_mono (a + 1) b y M ltac:(lia) ltac:(lia)). lia.
      * pose proof (div_mono (b + 1) a y M ltac:(lia) ltac:(lia)). lia.
  - intros i Hi. apply in_concat in Hi. destruct Hi as (c & Hc & Hi). apply in_map_iff in Hc. destruct Hc as (j & <- & _).
    apply in_seq. pose proof (class_range X (grid_m y M) j) as F. rewrite Forall_forall in F. specialize (F i Hi). lia.
Qed.
Lemma calc_delta_bounds : forall T Y g X y M d, kde_ok T -> StronglySorted Rle g -> 1 <= M -> length X = length Y ->
  calc_delta kde Y g X (grid_m y M) = Ok d -> (0 <= d <= T)%R.
Proof.
  intros T Y g X y M d HK HS HM HX H. unfold calc_delta in H.
  destruct (kde Y g) as [fy|] eqn:Ef; cbn [bind] in H; [|discriminate]. destruct (HK _ _ _ Ef) as (Lf & Ff & Tf).
  rewrite grid_length in H. replace (M + 1 - 1) with M in H by lia.
  destruct (mapM (class_term kde fy Y g X (grid_m y M)) (seq 0 M)) as [ts|] eqn:Et; cbn [bind] in H; [|discriminate].
  replace (M =? 0) with false in H by (symmetry; apply Nat.eqb_neq; lia). inversion H; subst d. clear H.
  assert (T0 : (0 <= T)%R) by (pose proof (trapezoid_nonneg fy g HS Ff); lra).
  assert (B : forall j t, class_term kde fy Y g X (grid_m y M) j = Ok t -> (0 <= t <= INR (length (class_of X (grid_m y M) j)) / INR (length Y) * T)%R).
  { intros j t Hj. unfold class_term in Hj. set (ix := class_of X (grid_m y M) j) in *.
    assert (C0 : (0 <= INR (length ix) / INR (length Y) * T)%R).
    { destruct (length Y) eqn:LY.
      - simpl INR at 2. unfold Rdiv. rewrite Rinv_0. lra.
      - apply Rmult_le_pos; auto. apply Rdiv_nonneg; [apply pos_INR|apply lt_0_INR; lia]. }
    destruct ix as [|i0 ix0] eqn:Eix; [inversion Hj; subst; lra|]. rewrite <- Eix in *.
    destruct (mapM (get Y) ix) as [Yx|]; cbn [bind] in Hj; [|discriminate].
    destruct (Reqb (ptp Yx) 0); [inversion Hj; subst; lra|].
    destruct (kde Yx g) as [fyc|] eqn:Ec; cbn [bind] in Hj; [|discriminate]. inversion Hj; subst t. clear Hj.
    destruct (HK _ _ _ Ec) as (Lc & Fc & Tc). pose proof (trapezoid_abs fy fyc g HS Lf Lc Ff Fc) as A.
    assert (LY : 0 < length Y).
    { pose proof (class_range X (grid_m y M) j) as F. fold ix in F. rewrite Eix in F. inversion F; subst. lia. }
    assert (P : (0 < INR (length Y))%R) by (apply lt_0_INR; auto).
    set (u := trapezoid (map2 (fun a b => Rabs (a - b)) fy fyc) g) in *.
    assert (Q : (0 <= INR (length ix) / INR (length Y))%R) by (apply Rdiv_nonneg; [apply pos_INR|auto]).
    replace (INR (length ix) / (2 * INR (length Y)) * u)%R with (INR (length ix) / INR (length Y) * (u / 2))%R by (field; lra).
    split; [apply Rmult_le_pos; lra|]. apply Rmult_le_compat_l; lra. }
  assert (SB : (0 <= Rsum ts <= Rsum (map (fun j => INR (length (class_of X (grid_m y M) j)) / INR (length Y) * T)%R (seq 0 M)))%R).
  { apply mapM_Forall2 in Et. clear - Et B. induction Et as [|j t l ts Hj Et IH]; simpl; [lra|]. specialize (B j t Hj). lra. }
  split; [lra|]. eapply Rle_trans; [apply SB|].
  rewrite (Rsum_ext _ (fun j => INR (length (class_of X (grid_m y M) j)) / INR (length Y) * T)%R (fun j => (T / INR (length Y)) * INR (length (class_of X (grid_m y M) j)))%R)
    by (intros; unfold Rdiv; ring).
  rewrite Rsum_map_scal. pose proof (class_total_le X y M HM) as CT. rewrite HX in CT.
  destruct (length Y) eqn:LY.
  - simpl INR at 1. unfold Rdiv. rewrite Rinv_0. lra.
  - assert (P : (0 < INR (S n))%R) by (apply lt_0_INR; lia).
    apply Rle_trans with (T / INR (S n) * INR (S n))%R; [|right; field; lra].
    apply Rmult_le_compat_l; auto. apply Rdiv_nonneg; auto.
Qed.

(** Only the ranks of the parameter matter. *)
Lemma ordinal_increasing : forall g X i, increasing g -> i < length X -> ordinal (map g X) i = ordinal X i.
Proof.
  intros g X i G Hi. rewrite !ordinal_places by (rewrite ?map_length; auto). unfold place_set. rewrite map_length. f_equal.
  apply filter_ext_in. intros k Hk. apply in_seq in Hk.
  assert (E : forall a, a < length X -> nth a (map g X) 0%R = g (nth a X 0%R)).
  { intros a Ha. rewrite nth_indep with (d' := g 0%R) by (rewrite map_length; auto). apply map_nth. }
  apply eq_true_iff_eq. rewrite !beforeb_spec. unfold before. rewrite !E by lia. rewrite (increasing_lt g G). split; intros [H|[H1 H2]]; auto.
  - right. split; auto. apply (increasing_inj g G). auto.
  - right. split; auto. congruence.
Qed.
Lemma class_increasing : forall g X m j, increasing g -> class_of (map g X) m j = class_of X m j.
Proof.
  intros g X m j G. unfold class_of. rewrite map_length. apply filter_ext_in. intros i Hi. apply in_seq in Hi.
  rewrite ordinal_increasing by (auto; lia). auto.
Qed.
Lemma calc_delta_increasing : forall g Y gr X m, increasing g -> calc_delta kde Y gr (map g X) m = calc_delta kde Y gr X m.
Proof.
  intros g Y gr X m G. unfold calc_delta. destruct (kde Y gr); cbn [bind]; auto.
  rewrite (mapM_ext (class_term kde a Y gr (map g X) m) (class_term kde a Y gr X m)); auto.
  intros j _. unfold class_term. rewrite class_increasing by auto. auto.
Qed.
Lemma sobol_first_increasing : forall g Y X m, increasing g -> sobol_first Y (map g X) m = sobol_first Y X m.
Proof.
  intros g Y X m G. unfold sobol_first. destruct Y; auto. destruct (Reqb _ _); auto.
  erewrite mapM_ext; [reflexivity|]. intros j _. rewrite class_increasing by auto. auto.
Qed.
Lemma take_map : forall g ind X, take ind (map g X) = match take ind X with Ok l => Ok (map g l) | Err e => Err e end.
Proof.
  intros g ind X. unfold take. induction ind as [|i ind IH]; simpl; auto. unfold get at 1 3. rewrite nth_error_map'.
  destruct (nth_error X i); simpl; auto. rewrite IH. destruct (mapM (get X) ind); auto.
Qed.
Lemma constant_increasing : forall g X, increasing g -> (constant (map g X) <-> constant X).
Proof.
  intros g X G. unfold constant. split; intros H a b Ha Hb.
  - apply (increasing_inj g G). apply H; apply in_map; auto.
  - apply in_map_iff in Ha, Hb. destruct Ha as (a' & <- & Ha). destruct Hb as (b' & <- & Hb). f_equal. auto.
Qed.
Lemma resample_raw_increasing : forall g c X y e e' k k', increasing g -> resample c (map g X) y Raw e k = resample c X y Raw e' k'.
Proof.
  intros g c X y e e' k k' G. unfold resample. destruct X as [|x X]; auto.
  assert (E : Reqb (maxl (map g (x :: X))) (minl (map g (x :: X))) = Reqb (maxl (x :: X)) (minl (x :: X))).
  { apply eq_true_iff_eq. rewrite !constant_max_min by discriminate. apply constant_increasing; auto. }
  cbn [map] in *. rewrite E. cbn [length]. rewrite map_length. auto.
Qed.
Lemma raw_increasing : forall g c Y gr X m n conf y e e' k k', increasing g ->
  bias_reduced kde nq c Y gr (map g X) m n conf y Raw e k = bias_reduced kde nq c Y gr X m n conf y Raw e' k'.
Proof.
  intros g c Y gr X m n conf y e e' k k' G. unfold bias_reduced. rewrite (resample_raw_increasing g (c 0) X y e e' k k' G).
  destruct (resample (c 0) X y Raw e' k') as [ind|]; cbn [bind]; auto. destruct (take ind Y) as [Yi|]; cbn [bind]; auto.
  rewrite take_map. destruct (take ind X) as [Xi|]; cbn [bind]; auto. rewrite calc_delta_increasing by auto.
  destruct (calc_delta kde Yi gr Xi m) as [dh|]; cbn [bind]; auto.
  rewrite (mapM_ext (fun k0 => resample (c (S k0)) (map g X) y Raw e k) (fun k0 => resample (c (S k0)) X y Raw e' k')) by (intros; apply resample_raw_increasing; auto).
  destruct (mapM (fun k0 => resample (c (S k0)) X y Raw e' k') (seq 0 n)) as [rs|ex]; [cbn [bind]|destruct ex; auto].
  rewrite (mapM_ext (fun r => do Yr <- take r Y;; do Xr <- take r (map g X);; calc_delta kde Yr gr Xr m)
    (fun r => do Yr <- take r Y;; do Xr <- take r X;; calc_delta kde Yr gr Xr m)); auto.
  intros r _. destruct (take r Y); cbn [bind]; auto. rewrite take_map. destruct (take r X); cbn [bind]; auto. apply calc_delta_increasing. auto.
Qed.

(** Classes with constant output contribute nothing. *)
Lemma constant_classes_zero : forall Y g X y M fy, 1 <= M -> length X = length Y -> kde Y g = Ok fy ->
  (forall j, j < M -> constant (outputs Y (class_of X (grid_m y M) j))) -> calc_delta kde Y g X (grid_m y M) = Ok 0%R.
Proof.
  intros Y g X y M fy HM HX HK HC. unfold calc_delta. rewrite HK. cbn [bind]. rewrite grid_length. replace (M + 1 - 1) with M by lia.
  rewrite (mapM_all_ok _ _ _ (fun _ => 0%R)).
  - cbn [bind]. replace (M =? 0) with false by (symmetry; apply Nat.eqb_neq; lia). f_equal. rewrite Rsum_const. ring.
  - intros j Hj. apply in_seq in Hj. unfold class_term. set (ix := class_of X (grid_m y M) j).
    destruct ix as [|i0 ix0] eqn:Eix; auto. rewrite <- Eix. rewrite take_outputs by (rewrite <- HX; apply class_range). cbn [bind].
    assert (E : Reqb (ptp (outputs Y ix)) 0 = true); [|rewrite E; auto].
    unfold Reqb. destruct (Req_EM_T (ptp (outputs Y ix)) 0) as [|N]; auto. exfalso. apply N. apply ptp_zero_iff.
    + rewrite Eix. discriminate.
    + apply HC. lia.
Qed.
End Analysis.
