(** * Regional sensitivity analysis with levels in double precision. *)
From Coq Require Import Reals String List Arith ZArith Bool Lia Lra Psatz Permutation.
From Flocq Require Import Core.
From Verif Require Import Base Arrays ListFacts ModelGroups SpecGroups ProofsGroups ModelScale ProofsScale Stats Sums ModelFast ModelMorris ModelMorrisAnalyze
  SpecSobol ProofsSobol Quant ModelPawn SpecPawn ProofsPawn ProofsPawn2 ProofsPawn4 ModelRsa SpecRsa ProofsRsa ProofsRsa2 ProofsRsa4
  ModelDouble ProofsDouble ProofsDouble2 ProofsDouble5 ModelLevels SpecLevels ProofsLevels ProofsLevels2 ProofsLevels3.
Import ListNotations.
Local Open Scope nat_scope.

(** Below level 1 the quantile stays below a largest value that occurs once. *)
Lemma quantile_below : forall xs q x r, Permutation xs (x :: r) -> r <> [] -> Forall (fun z => (z < x)%R) r -> (0 <= q < 1)%R -> (quantile xs q < x)%R.
Proof.
  intros xs q x r HP HR HF Hq. assert (NE : xs <> []) by (intros ->; apply Permutation_nil in HP; discriminate).
  destruct (quantile_spec xs q NE ltac:(lra)) as (a & i & t & Ha & HPa & Hia & Ht & Ev & H0 & H1).
  assert (HPx : Permutation a (x :: r)) by (etransitivity; eauto).
  pose proof (Permutation_length HPa) as LA. pose proof (Permutation_length HPx) as LX. simpl in LX.
  assert (LR : 1 <= length r) by (destruct r; [congruence|simpl; lia]).
  assert (UB : forall k, k < length a -> (nth k a 0 <= x)%R).
  { intros k Hk. pose proof (Permutation_in _ HPx (nth_In a 0%R Hk)) as [<-|I]; [lra|]. rewrite Forall_forall in HF. left. auto. }
  assert (P0 : (0 < INR (length xs - 1))%R) by (apply lt_0_INR; lia).
  assert (I2 : i + 1 < length a).
  { assert (L : (INR i < INR (length xs - 1))%R) by nra. apply INR_lt in L. lia. }
  assert (Hlt : (nth i a 0 < x)%R).
  { destruct (Rle_lt_or_eq_dec _ _ (UB i Hia)) as [|E]; auto. exfalso.
    (* then the two greatest are both x *)
    assert (E2 : nth (i + 1) a 0%R = x) by (apply Rle_antisym; [apply UB; auto|rewrite <- E; apply Ha; lia]).
    assert (CO : count_occ Req_EM_T a x = 1).
    { rewrite (Permutation_count_occ Req_EM_T a (x :: r)) in HPx. rewrite (HPx x). simpl. destruct (Req_EM_T x x); [|congruence].
      f_equal. apply count_occ_not_In. intros I. rewrite Forall_forall in HF. specialize (HF _ I). lra. }
    assert (S2 : exists l1 l2, a = l1 ++ x :: x :: l2).
    { exists (firstn i a), (skipn (i + 2) a). rewrite <- (firstn_skipn i a) at 1. f_equal.
      assert (SK : forall k (l : list R), k < length l -> skipn k l = nth k l 0%R :: skipn (k + 1) l).
      { clear. induction k as [|k IH]; intros [|z l] H; simpl in *; try lia; auto. apply IH. lia. }
      rewrite (SK i) by lia. rewrite (SK (i + 1)) by lia. replace (i + 1 + 1) with (i + 2) by lia. rewrite E, E2. reflexivity. }
    destruct S2 as (l1 & l2 & ->). rewrite count_occ_app in CO. simpl in CO. destruct (Req_EM_T x x); [lia|congruence]. }
  destruct (Req_dec t 0) as [T0|TN]; [rewrite (H0 T0); auto|].
  destruct (H1 ltac:(lra)) as (_ & ->). pose proof (UB (i + 1) I2). nra.
Qed.

Definition lev (n k : nat) : R := if k <? n then edge n k else 1%R.

Section Rsa.
Variable n : nat.
Hypothesis N1 : 1 <= n.
Hypothesis NU : (Z.of_nat n <= 2 ^ 49)%Z.

Lemma lev_good : good_levels n (lev n) /\ lev n n = 1%R.
Proof using N1 NU.
  destruct (edge_good n N1 NU) as (G0 & G1 & G2 & G3). unfold lev. split; [|rewrite Nat.ltb_irrefl; auto].
  split; [destruct (Nat.ltb_spec 0 n); [auto|lia]|]. split.
  - intros i j H J. destruct (Nat.ltb_spec i n), (Nat.ltb_spec j n); try lia; [apply G1; auto|].
    pose proof (G1 i n ltac:(lia) (le_n n)). pose proof (G2 n (le_n n)). lra.
  - split; intros k Hk; destruct (Nat.ltb_spec k n); auto; [lra|]. assert (k = n) as -> by lia.
    unfold Rdiv. rewrite Rinv_r by (apply not_0_INR; lia). rewrite Rminus_diag_eq, Rabs_R0 by auto. apply Rlt_le, Rinv_0_lt_compat, pow_lt. lra.
Qed.

(** The levels that the bins use: [lev] if the number of edges is right, else the edges. *)
Definition used : nat -> R := if Rle_dec (fl (1 / fl (1 / INR n))) (INR n) then lev n else edge n.

Lemma used_nth : forall k, k <= n -> nth_error (rsa_levels n) k = Some (used k).
Proof using N1 NU.
  intros k Hk. unfold rsa_levels, used. rewrite rsa_edges_are by auto. destruct (Rle_dec _ _).
  - unfold lev. destruct (Nat.ltb_spec k n).
    + rewrite nth_error_app1 by (rewrite map_length, seq_length; auto). rewrite nth_error_map', nth_error_seq. destruct (Nat.ltb_spec k n); [auto|lia].
    + rewrite nth_error_app2 by (rewrite map_length, seq_length; auto). rewrite map_length, seq_length. replace (k - n) with 0 by lia. reflexivity.
  - rewrite nth_error_app1 by (rewrite map_length, seq_length; lia). rewrite nth_error_map', nth_error_seq. destruct (Nat.ltb_spec k (n + 1)); [auto|lia].
Qed.
Lemma used_range : forall k, k <= n -> (0 <= used k <= 1)%R.
Proof using N1 NU.
  intros k Hk. unfold used. destruct (Rle_dec _ _); [apply lev_good; auto|apply edge_good; auto].
Qed.
Lemma rsa_levels_ok : existsb (fun q => Rlt_bool q 0 || Rlt_bool 1 q) (rsa_levels n) = false.
Proof using N1 NU.
  apply not_true_is_false. intros E. apply existsb_exists in E. destruct E as (q & Hq & E).
  assert (R : (0 <= q <= 1)%R).
  { unfold rsa_levels in Hq. apply in_app_iff in Hq. destruct Hq as [Hq|[<-|[]]]; [|lra]. rewrite rsa_edges_are in Hq by auto.
    apply in_map_iff in Hq. destruct Hq as (k & <- & Hk). apply in_seq in Hk. apply edge_range; auto; [apply NU'; auto|]. destruct (Rle_dec _ _); lia. }
  apply orb_true_iff in E. destruct E as [E|E]; revert E; case Rlt_bool_spec; try discriminate; lra.
Qed.

Lemma column_fl_eq : forall Xi y target t m, (if String.eqb target "X" then Ok (Xi, y) else if String.eqb target "Y" then Ok (y, Xi) else Err UnboundLocalError) = Ok (t, m) ->
  t <> [] -> rsa_column_fl Xi y n target = mapM (fun s => rsa_cell y m (rsa_bin (fun k => quantile t (used k)) t s)) (seq 0 n).
Proof using N1 NU.
  intros Xi y target t m E N. unfold rsa_column_fl. rewrite E. cbn [bind]. rewrite rsa_levels_ok. destruct t as [|t0 tr] eqn:ET; [congruence|]. rewrite <- ET in *.
  cbv zeta. apply mapM_ext. intros s Hs. apply in_seq in Hs. unfold get. rewrite !nth_error_map', !used_nth by lia. cbn [option_map bind].
  f_equal. unfold rsa_bin. apply map_ext. intros x. rewrite Nat.eqb_refl. destruct (Nat.eqb_spec (s + 1) s); [lia|].
  destruct (Nat.eqb_spec s 0) as [->|]; reflexivity.
Qed.

Section Table.
  Variables (X : mat R) (y : list R) (target : string) (c : nat -> nat -> R) (t m : nat -> list R).
  Hypotheses (HI : rsa_input X y) (HR : forall d, d < cols X -> roles target X y d (t d) (m d))
    (Hc : forall d k, d < cols X -> k <= n -> quantile_at (t d) (used k) (c d k)).

  Lemma column_at : forall d, d < cols X -> (do Xi <- mapM (fun r => get r d) (rows X) ;; rsa_column_fl Xi y n target) =
    mapM (fun s => rsa_cell y (m d) (rsa_bin (c d) (t d) s)) (seq 0 n).
  Proof using HI HR Hc N1 NU.
    intros d Hd. rewrite col_get by (auto; apply HI). cbn [bind].
    destruct (roles_length X y target t m HI HR d Hd) as (_ & _ & N).
    rewrite (column_fl_eq _ _ _ (t d) (m d)); auto.
    - apply mapM_ext. intros s Hs. apply in_seq in Hs. f_equal. unfold rsa_bin. apply map_ext.
      intros x. assert (Q : forall k, k <= n -> quantile (t d) (used k) = c d k).
      { intros k Hk. symmetry. apply quantile_at_unique; auto. apply used_range; auto. }
      rewrite (Q 0), (Q s), (Q (s + 1)) by lia. reflexivity.
    - destruct (HR d Hd) as [(-> & -> & ->)|(-> & -> & ->)]; reflexivity.
  Qed.

  Lemma table_at : match rsa_fl X y n target with
    | Ok r => length r = cols X /\ forall d, d < cols X -> length (nth d r []) = n /\
        forall s, s < n -> bin_cell (c d) (t d) y (m d) s (Ok (nth s (nth d r []) None))
    | Err e => e = ValueError /\ exists d s, d < cols X /\ s < n /\ bin_cell (c d) (t d) y (m d) s (Err ValueError)
    end.
  Proof using HI HR Hc N1 NU.
    unfold rsa_fl. destruct (Nat.eqb_spec n 0); [lia|].
    rewrite (mapM_ext _ (fun d => mapM (fun s => rsa_cell y (m d) (rsa_bin (c d) (t d) s)) (seq 0 n))).
    2: { intros d Hd. apply in_seq in Hd. apply column_at. lia. }
    assert (CO : forall d s, d < cols X -> bin_cell (c d) (t d) y (m d) s (rsa_cell y (m d) (rsa_bin (c d) (t d) s))).
    { intros d s Hd. destruct (roles_length X y target t m HI HR d Hd) as (A & B & _). apply cell_ok; auto. }
    destruct (mapM _ _) as [r|e] eqn:E.
    - pose proof (mapM_Ok_length _ _ E) as LR. rewrite seq_length in LR. split; auto. intros d Hd.
      assert (Nd : nth_error (seq 0 (cols X)) d = Some d) by (rewrite nth_error_seq; destruct (Nat.ltb_spec d (cols X)); auto; lia).
      destruct (mapM_Ok_nth _ _ d E (x := d) Nd) as (cs & Ec & En). rewrite (nth_error_nth _ _ _ En).
      pose proof (mapM_Ok_length _ _ Ec) as LC. rewrite seq_length in LC. split; auto. intros s Hs.
      assert (Ns : nth_error (seq 0 n) s = Some s) by (rewrite nth_error_seq; destruct (Nat.ltb_spec s n); auto; lia).
      destruct (mapM_Ok_nth _ _ s Ec (x := s) Ns) as (v & Ev & Env). rewrite (nth_error_nth _ _ _ Env). rewrite <- Ev. apply CO. auto.
    - destruct (mapM_Err_in _ _ _ _ _ E) as (d & Hd & E2). apply in_seq in Hd.
      destruct (mapM_Err_in _ _ _ _ _ E2) as (s & Hs & E3). apply in_seq in Hs.
      pose proof (CO d s ltac:(lia)) as B. rewrite E3 in B. pose proof (bin_cell_Err _ _ _ _ _ _ B) as ->. split; auto.
      exists d, s. repeat split; auto; lia.
  Qed.
End Table.

Lemma rsa_fl_shape : forall X Y target r, rsa_fl X Y n target = Ok r -> length r = cols X /\ Forall (fun c => length c = n) r.
Proof using.
  clear N1 NU. intros X Y target r HR. unfold rsa_fl in HR. destruct (n =? 0); [discriminate|].
  pose proof (mapM_Ok_length _ _ HR) as L. rewrite seq_length in L. split; auto. apply Forall_forall. intros c Hc.
  apply In_nth_error in Hc. destruct Hc as (d & Hd). assert (d < cols X) by (rewrite <- L; apply nth_error_Some; congruence).
  destruct (mapM_Ok_nth _ _ d HR (x := d)) as (c' & E & E').
  { rewrite nth_error_seq. destruct (Nat.ltb_spec d (cols X)); auto; lia. }
  assert (c' = c) by congruence. subst c'. destruct (mapM _ (rows X)); cbn [bind] in E; [|discriminate]. unfold rsa_column_fl in E.
  destruct (if String.eqb target "X" then _ else _) as [[t m]|]; cbn [bind] in E; [|discriminate].
  destruct (existsb _ _); [discriminate|]. destruct t; [discriminate|]. cbv zeta in E.
  apply mapM_Ok_length in E. rewrite seq_length in E. auto.
Qed.

(** The bins between right levels partition the values. *)
Lemma bins_at : forall xs c, xs <> [] -> (forall k, k <= n -> quantile_at xs (lev n k) (c k)) -> forall x, In x xs -> exists! s, s < n /\ in_bin c s x.
Proof using N1 NU.
  intros xs c Hx Hc x Hi. destruct lev_good as ((G0 & G1 & G2 & _) & GN).
  assert (Q : forall k, k <= n -> c k = quantile xs (lev n k)) by (intros k Hk; apply quantile_at_unique; auto).
  assert (MO : forall k k', k <= k' -> k' <= n -> (c k <= c k')%R).
  { intros k k' H H'. destruct (Nat.eq_dec k k') as [->|]; [lra|]. rewrite !Q by lia. pose proof (G2 k ltac:(lia)). pose proof (G2 k' H').
    apply quantile_mono; auto; try lra. left. apply G1; lia. }
  assert (C0 : (c 0%nat <= x)%R) by (rewrite Q, G0, quantile_0 by (auto; lia); apply minl_spec; auto).
  assert (CN : (x <= c n)%R) by (rewrite Q, GN, quantile_1 by (auto; lia); apply maxl_spec; auto).
  destruct (bin_exists c x C0 n N1 CN) as (s & Hs & Hb).
  exists s. split; auto. intros s' [Hs' Hb']. destruct Hb as (A & B & C). destruct Hb' as (A' & B' & C').
  destruct (Nat.lt_trichotomy s s') as [L|[L|L]]; auto; exfalso.
  - pose proof (MO (s + 1) s' ltac:(lia) ltac:(lia)). specialize (B' ltac:(lia)). lra.
  - pose proof (MO (s' + 1) s ltac:(lia) ltac:(lia)). specialize (B ltac:(lia)). lra.
Qed.
End Rsa.

(** ** The result *)
Definition report_at (ns : list string) (b : list R) (target : string) (r : list (list fval)) : rsa_dict :=
  dict_set (dict_set (dict_set (fold_left (fun d kv => dict_set d (fst kv) (snd kv)) (combine ns (map Values (firstn (length ns) r))) [])
    "names" (Names ns)) "bins" (Bins b)) "target" (Target target).
Lemma report_at_ok : forall ns b target r, NoDup ns -> length ns <= length r -> reported_at (report_at ns b target r) ns b target r.
Proof.
  intros ns b target r ND L. unfold report_at. repeat split; try (rewrite !get_set; reflexivity).
  intros i x Hx Hr. pose proof (report_values ns 0 target r i x ND L Hx Hr) as V. unfold report in V. rewrite !get_set in *.
  assert (R : forall s, In s ["names"; "bins"; "target"]%string -> String.eqb s x = false).
  { intros s Hs. destruct (String.eqb_spec s x) as [->|]; auto. contradiction. }
  rewrite !R in * by (simpl; tauto). exact V.
Qed.

Lemma analyze_fl_ungrouped : forall p X Y bins target ls ns r, ungrouped p -> labels_of p ls -> first_appearance ls ns -> length ns <= cols X ->
  rsa_fl X Y bins target = Ok r -> exists d, rsa_analyze_fl p X Y bins target = Ok d /\ reported_at d ns (rsa_edges bins) target r.
Proof.
  intros p X Y bins target ls ns r HU HL HF HC HR. pose proof (names_eq p ls ns HL HF) as EN. destruct (rsa_fl_shape _ _ _ _ _ HR) as (LR & _).
  unfold rsa_analyze_fl. rewrite HR, (ungrouped_check p HU), EN. cbn [bind]. rewrite get_prefix by lia. cbn [bind]. eexists. split; [reflexivity|].
  apply (report_at_ok ns (rsa_edges bins) target r); [apply HF|lia].
Qed.

Lemma table_fl : forall d ns b target r bins, reported_at d ns b target r -> length ns <= length r -> Forall (fun c => length c = bins) r ->
  (length b = bins -> exists columns, rsa_table_fl d = Ok (b, columns) /\ map fst columns = ns /\
     forall i x, nth_error ns i = Some x -> ~ In x ["names"; "bins"; "target"]%string -> nth_error columns i = Some (x, Some (nth i r []))) /\
  (length b <> bins -> (exists x, In x ns /\ ~ In x ["names"; "bins"; "target"]%string) -> rsa_table_fl d = Err ValueError).
Proof.
  intros d ns b target r bins (RN & RB & RT & RV) HL HF.
  set (cell := fun n => (n, if existsb (String.eqb n) ["names"; "bins"; "target"]%string then None
                            else match dict_get d n with Some (Values v) => Some v | _ => None end)).
  assert (CV : forall i x, nth_error ns i = Some x -> ~ In x ["names"; "bins"; "target"]%string -> cell x = (x, Some (nth i r []))).
  { intros i x Hi Hx. unfold cell. rewrite (RV i x Hi Hx). destruct (existsb _ _) eqn:E; auto. exfalso. apply Hx.
    apply existsb_exists in E. destruct E as (z & Hz & Ez). apply String.eqb_eq in Ez. subst. auto. }
  assert (CR : forall x, In x ["names"; "bins"; "target"]%string -> cell x = (x, None)).
  { intros x Hx. unfold cell. assert (E : existsb (String.eqb x) ["names"; "bins"; "target"]%string = true) by (apply existsb_exists; exists x; split; auto; apply String.eqb_refl).
    rewrite E. auto. }
  assert (LN : forall i, i < length ns -> length (nth i r []) = bins).
  { intros i Hi. rewrite Forall_forall in HF. apply HF, nth_In. lia. }
  unfold rsa_table_fl, rsa_to_df. rewrite RN, RB. cbn [bind]. fold cell. split.
  - intros EB. assert (E : forallb (fun c => match snd c with Some v => length v =? length b | None => true end) (map cell ns) = true).
    { apply forallb_forall. intros c Hc. apply in_map_iff in Hc. destruct Hc as (x & <- & Hx).
      destruct (in_dec string_dec x ["names"; "bins"; "target"]%string) as [I|I]; [rewrite CR by auto; auto|].
      apply In_nth_error in Hx. destruct Hx as (i & Hi). rewrite (CV i x Hi I). cbn [snd]. apply Nat.eqb_eq. rewrite LN; auto. apply nth_error_Some. congruence. }
    exists (map cell ns). split; [rewrite E; reflexivity|]. split.
    + rewrite map_map. cbn [cell fst]. apply map_id.
    + intros i x Hi Hx. rewrite nth_error_map', Hi. cbn [option_map]. f_equal. apply CV; auto.
  - intros EB (x & Hx & Nx). destruct (forallb _ _) eqn:E; auto. exfalso. rewrite forallb_forall in E.
    specialize (E (cell x) (in_map cell ns x Hx)). apply In_nth_error in Hx. destruct Hx as (i & Hi). rewrite (CV i x Hi Nx) in E. cbn [snd] in E.
    apply Nat.eqb_eq in E. rewrite LN in E; [congruence|]. apply nth_error_Some. congruence.
Qed.

Section Report.
Variable n : nat.
Hypothesis N1 : 1 <= n.
Hypothesis NU : (Z.of_nat n <= 2 ^ 49)%Z.

Lemma edges_right : rsa_fits n -> rsa_edges n = map (lev n) (seq 0 n).
Proof using N1 NU.
  intros H. rewrite rsa_edges_are by auto. destruct (Rle_dec _ _); [|contradiction]. apply map_ext_in. intros k Hk. apply in_seq in Hk. unfold lev.
  destruct (Nat.ltb_spec k n); auto; lia.
Qed.
Lemma edges_wrong : ~ rsa_fits n -> length (rsa_edges n) = n + 1.
Proof using N1 NU.
  intros H. rewrite rsa_edges_are by auto. destruct (Rle_dec _ _); [contradiction|]. rewrite map_length, seq_length. auto.
Qed.
Lemma used_right : rsa_fits n -> used n = lev n.
Proof using. intros H. unfold used. destruct (Rle_dec _ _); auto. contradiction. Qed.
Lemma used_wrong : ~ rsa_fits n -> used n = edge n.
Proof using. intros H. unfold used. destruct (Rle_dec _ _); auto. contradiction. Qed.

Lemma rsa_report_right : forall p X Y target ls ns r, rsa_fits n -> ungrouped p -> labels_of p ls -> first_appearance ls ns -> length ns <= cols X ->
  rsa_fl X Y n target = Ok r -> exists d columns, rsa_analyze_fl p X Y n target = Ok d /\ reported_at d ns (map (lev n) (seq 0 n)) target r /\
    rsa_table_fl d = Ok (map (lev n) (seq 0 n), columns) /\ map fst columns = ns /\
    forall i x, nth_error ns i = Some x -> ~ In x ["names"; "bins"; "target"]%string -> nth_error columns i = Some (x, Some (nth i r [])).
Proof using N1 NU.
  intros p X Y target ls ns r HF HU HL HA HC HR. destruct (analyze_fl_ungrouped p X Y n target ls ns r HU HL HA HC HR) as (d & ED & RD).
  rewrite (edges_right HF) in RD. destruct (rsa_fl_shape _ _ _ _ _ HR) as (LR & FR).
  destruct (table_fl d ns _ target r n RD ltac:(lia) FR) as (T & _). destruct (T ltac:(rewrite map_length, seq_length; auto)) as (columns & E1 & E2 & E3).
  exists d, columns. auto.
Qed.
Lemma rsa_report_wrong : forall p X Y target ls ns r, ~ rsa_fits n -> ungrouped p -> labels_of p ls -> first_appearance ls ns -> length ns <= cols X ->
  rsa_fl X Y n target = Ok r -> exists d b, rsa_analyze_fl p X Y n target = Ok d /\ reported_at d ns b target r /\ length b = n + 1 /\
    ((exists x, In x ns /\ ~ In x ["names"; "bins"; "target"]%string) -> rsa_table_fl d = Err ValueError).
Proof using N1 NU.
  intros p X Y target ls ns r HF HU HL HA HC HR. destruct (analyze_fl_ungrouped p X Y n target ls ns r HU HL HA HC HR) as (d & ED & RD).
  destruct (rsa_fl_shape _ _ _ _ _ HR) as (LR & FR). exists d, (rsa_edges n). split; auto. split; auto. split; [apply edges_wrong; auto|].
  intros HX. destruct (table_fl d ns _ target r n RD ltac:(lia) FR) as (_ & T). apply T; auto. rewrite edges_wrong by auto. lia.
Qed.
End Report.

(** The last edge of 49 bins is below 1. *)
Lemma edge_49 : (edge 49 49 < 1)%R.
Proof.
  unfold edge. rewrite INR_IZR_INZ. change (Z.of_nat 49) with 49%Z.
  destruct (rnd (1, 49)%Z) as [[a b]|] eqn:R1; [|vm_compute in R1; discriminate]. pose proof (rnd_spec _ _ _ _ R1) as (A & B & ->).
  vm_compute in R1. injection R1 as <- <-.
  match goal with |- (fl (?u * (IZR ?v / IZR ?w)) < 1)%R => replace (u * (IZR v / IZR w))%R with (IZR (49 * v) / IZR w)%R by (rewrite mult_IZR; field; apply IZR_neq; lia) end.
  match goal with |- (fl (IZR ?v / IZR ?w) < 1)%R => destruct (rnd (v, w)) as [[c d]|] eqn:R2; [|vm_compute in R2; discriminate] end.
  pose proof (rnd_spec _ _ _ _ R2) as (C & D & ->). vm_compute in R2. injection R2 as <- <-. lra.
Qed.

Lemma largest_49 : forall xs c x r, Permutation xs (x :: r) -> r <> [] -> Forall (fun z => (z < x)%R) r ->
  (forall k, k <= 49 -> quantile_at xs (used 49 k) (c k)) -> forall s, s < 49 -> ~ in_bin c s x.
Proof.
  intros xs c x r HP HR HF Hc s Hs (_ & _ & H).
  assert (NF : ~ rsa_fits 49). { intros F. apply (rsa_fits_100 49 ltac:(lia)) in F. apply F. left. reflexivity. }
  rewrite (used_wrong 49 NF) in Hc. assert (NU : (Z.of_nat 49 <= 2 ^ 49)%Z) by (apply Zle_bool_imp_le; reflexivity).
  assert (NE : xs <> []) by (intros ->; apply Permutation_nil in HP; discriminate).
  destruct (edge_good 49 ltac:(lia) NU) as (_ & _ & G2 & _).
  pose proof (G2 (s + 1) ltac:(lia)) as RS. pose proof (edge_mono 49 ltac:(lia) ltac:(vm_compute; discriminate) (s + 1) 49 ltac:(lia)) as M. pose proof edge_49 as E.
  rewrite (quantile_at_unique xs (edge 49 (s + 1)) (c (s + 1)) NE RS (Hc (s + 1) ltac:(lia))) in H.
  pose proof (quantile_below xs (edge 49 (s + 1)) x r HP HR HF ltac:(lra)). lra.
Qed.

(** With a power of two of bins nothing is rounded. *)
Lemma rsa_power : forall k p X Y target, k <= 49 -> rsa_analyze_fl p X Y (2 ^ k) target = rsa_analyze p X Y (2 ^ k) target.
Proof.
  intros k p X Y target HK. assert (P : 1 <= 2 ^ k) by (apply Nat.neq_0_lt_0, Nat.pow_nonzero; lia).
  assert (PU : (Z.of_nat (2 ^ k) <= 2 ^ 49)%Z) by (rewrite Nat2Z.inj_pow; apply Z.pow_le_mono_r; lia).
  destruct (pow_fits k HK) as (_ & F).
  assert (LV : forall i, i <= 2 ^ k -> lev (2 ^ k) i = (INR i / INR (2 ^ k))%R).
  { intros i Hi. unfold lev. destruct (Nat.ltb_spec i (2 ^ k)); [apply pow_edge; auto|]. assert (i = 2 ^ k) as -> by lia. unfold Rdiv. rewrite Rinv_r; auto. apply not_0_INR. lia. }
  assert (E : rsa_fl X Y (2 ^ k) target = rsa X Y (2 ^ k) target).
  { unfold rsa_fl, rsa. destruct (Nat.eqb_spec (2 ^ k) 0); [lia|]. apply mapM_ext. intros d _. destruct (mapM _ (rows X)) as [Xi|]; auto. cbn [bind].
    destruct (if String.eqb target "X" then Ok (Xi, Y) else if String.eqb target "Y" then Ok (Y, Xi) else Err UnboundLocalError) as [[t m]|e] eqn:ET.
    - unfold rsa_column. rewrite ET. cbn [bind]. destruct t as [|t0 tr] eqn:EE.
      + unfold rsa_column_fl. rewrite ET. cbn [bind]. rewrite rsa_levels_ok by auto. reflexivity.
      + rewrite (column_fl_eq (2 ^ k) P PU Xi Y target (t0 :: tr) m) by (auto; discriminate). cbv zeta. apply mapM_ext. intros s Hs. apply in_seq in Hs.
        f_equal. unfold rsa_bin. apply map_ext. intros x. rewrite (used_right _ F), !LV by lia. reflexivity.
    - unfold rsa_column_fl, rsa_column. rewrite ET. reflexivity. }
  unfold rsa_analyze_fl, rsa_analyze. rewrite E. rewrite (edges_right (2 ^ k) P PU F).
  rewrite (map_ext_in (lev (2 ^ k)) (fun i => INR i / INR (2 ^ k))%R (seq 0 (2 ^ k))); [reflexivity|]. intros i Hi. apply in_seq in Hi. apply LV. lia.
Qed.
