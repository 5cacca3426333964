(** * Proofs about extended FAST. *)
From Coq Require Import Reals List Arith ZArith Bool Lia Lra.
From Verif Require Import Base ListFacts Arrays ModelGroups ModelScale Stats Sums SpecSobol ProofsSobol6 ModelFast SpecFast.
Import ListNotations.
Local Open Scope nat_scope.

(** ** Frequencies *)
Lemma frequencies_total : forall N M D,
  (exists wc, fast_frequencies N M D = Ok wc) <-> (4 * M ^ 2 < N /\ 1 <= M /\ 1 <= D).
Proof.
  intros N M D. unfold fast_frequencies.
  destruct (Nat.leb_spec N (4 * M ^ 2)); [split; [intros [? E]; discriminate|lia]|].
  destruct (Nat.eqb_spec M 0); [split; [intros [? E]; discriminate|lia]|].
  destruct (Nat.eqb_spec D 0); [split; [intros [? E]; discriminate|lia]|].
  split; eauto. lia.
Qed.

Lemma frequencies_spec : forall N M D w0 comp, fast_frequencies N M D = Ok (w0, comp) ->
  length comp = D - 1 /\ 2 * M * w0 < N /\ N <= 2 * M * (w0 + 1) /\
  exists m, 1 <= m /\ 2 * M * m <= w0 /\ w0 < 2 * M * (m + 1) /\
    (forall w, In w comp -> 1 <= w <= m /\ M * w <= w0 / 2) /\
    (D - 1 <= m -> NoDup comp) /\
    (m < D - 1 -> forall w, 1 <= w <= m -> In w comp).
Proof.
  intros N M D w0 comp H. assert (T : exists wc, fast_frequencies N M D = Ok wc) by eauto.
  apply frequencies_total in T. destruct T as (HN & HM & HD).
  unfold fast_frequencies in H.
  destruct (Nat.leb_spec N (4 * M ^ 2)); [lia|]. destruct (Nat.eqb_spec M 0); [lia|].
  destruct (Nat.eqb_spec D 0); [lia|]. injection H as Hw0 Hc.
  change (M + (M + 0)) with (2 * M) in Hw0, Hc.
  assert (HM2 : M ^ 2 = M * M) by (simpl; lia). rewrite HM2 in *.
  assert (A1 : 2 * M * w0 <= N - 1 /\ N - 1 < 2 * M * (w0 + 1)).
  { pose proof (Nat.div_mod (N - 1) (2 * M) ltac:(lia)) as Q1.
    pose proof (Nat.mod_upper_bound (N - 1) (2 * M) ltac:(lia)) as Q2.
    rewrite Hw0 in Q1. lia. }
  set (m := w0 / (2 * M)).
  assert (A2 : 2 * M * m <= w0 /\ w0 < 2 * M * (m + 1)).
  { pose proof (Nat.div_mod w0 (2 * M) ltac:(lia)) as Q1.
    pose proof (Nat.mod_upper_bound w0 (2 * M) ltac:(lia)) as Q2. fold m in Q1. lia. }
  assert (Hw : 2 * M <= w0) by nia.
  assert (Hm : 1 <= m) by nia.
  rewrite Hw0 in Hc. fold m in Hc.
  assert (R : forall w, In w comp -> 1 <= w <= m).
  { intros w Hin. rewrite <- Hc in Hin. destruct (Nat.leb_spec (D - 1) m).
    - unfold floor_linspace in Hin. apply in_map_iff in Hin. destruct Hin as (t & <- & Ht). apply in_seq in Ht.
      split; [lia|]. destruct (Nat.eq_dec (D - 1) 1) as [E|E].
      + rewrite E. replace t with 0 by lia. simpl. lia.
      + assert (t * (m - 1) / (D - 1 - 1) <= m - 1); [|lia]. apply Nat.div_le_upper_bound; [lia|]. nia.
    - apply in_map_iff in Hin. destruct Hin as (t & <- & Ht).
      pose proof (Nat.mod_upper_bound t m ltac:(lia)). lia. }
  split. { rewrite <- Hc. destruct (D - 1 <=? m); unfold floor_linspace; rewrite map_length, seq_length; auto. }
  split; [lia|]. split; [lia|]. exists m. split; auto. split; [lia|]. split; [lia|]. split; [|split].
  - intros w Hin. pose proof (R w Hin). split; auto.
    apply Nat.div_le_lower_bound; [lia|]. nia.
  - intros HDm. rewrite <- Hc. destruct (Nat.leb_spec (D - 1) m); [|lia]. unfold floor_linspace.
    assert (S : forall t t', t < t' -> t' < D - 1 -> t * (m - 1) / (D - 1 - 1) < t' * (m - 1) / (D - 1 - 1)).
    { intros t t' Ht Ht'. set (k := D - 1 - 1) in *.
      apply Nat.lt_le_trans with (S (t * (m - 1) / k)); [lia|].
      apply Nat.div_le_lower_bound; [lia|].
      pose proof (Nat.mul_div_le (t * (m - 1)) k ltac:(lia)). nia. }
    apply map_NoDup_in; [|apply seq_NoDup].
    intros t t' Ht Ht' E. apply in_seq in Ht, Ht'.
    destruct (Nat.lt_trichotomy t t') as [L|[L|L]]; auto.
    + specialize (S t t' L ltac:(lia)). lia.
    + specialize (S t' t L ltac:(lia)). lia.
  - intros HDm w Hin. rewrite <- Hc. destruct (Nat.leb_spec (D - 1) m); [lia|].
    apply in_map_iff. exists (w - 1). split; [|apply in_seq; lia].
    rewrite Nat.mod_small by lia. lia.
Qed.

(** ** Frequencies of a block *)
Lemma fold_update_spec : forall (js : list nat) (cs : list nat) w, NoDup js -> length js = length cs ->
  (forall j, In j js -> j < length w) ->
  (forall t j c, nth_error js t = Some j -> nth_error cs t = Some c ->
     nth_error (fold_left (fun w jc => update w (fst jc) (snd jc)) (combine js cs) w) j = Some c) /\
  (forall j, ~ In j js ->
     nth_error (fold_left (fun w jc => update w (fst jc) (snd jc)) (combine js cs) w) j = nth_error w j).
Proof.
  induction js as [|a js IH]; intros cs w ND HL Hb; destruct cs as [|c cs]; try discriminate.
  - split; auto. intros [|t]; discriminate.
  - inversion ND; subst. cbn [combine fold_left fst snd]. injection HL as HL.
    destruct (IH cs (update w a c) H2 HL) as [I1 I2].
    { intros j Hj. rewrite length_update. apply Hb. simpl; auto. }
    split.
    + intros [|t] j c0 Hj Hc; simpl in Hj, Hc.
      * injection Hj as <-. injection Hc as <-. rewrite I2 by auto. rewrite nth_error_update.
        rewrite Nat.eqb_refl. rewrite (proj2 (Nat.ltb_lt _ _)) by (apply Hb; simpl; auto). reflexivity.
      * eauto.
    + intros j Hj. rewrite I2 by (intros H; apply Hj; simpl; auto). rewrite nth_error_update.
      replace (j =? a) with false; auto. symmetry. apply Nat.eqb_neq. intros ->. apply Hj. simpl; auto.
Qed.

Lemma block_frequencies_length : forall D w0 comp prev i, length (block_frequencies D w0 comp prev i) = length prev.
Proof.
  intros. unfold block_frequencies. generalize (combine (seq 0 i ++ seq (i + 1) (D - (i + 1))) comp) as l.
  intros l. assert (G : forall w, length (fold_left (fun w jc => update w (fst jc) (snd jc)) l w) = length w).
  { induction l as [|x l IH]; intros w; simpl; auto. rewrite IH. apply length_update. }
  rewrite G. apply length_update.
Qed.

Lemma block_frequencies_spec : forall D w0 comp prev i, length prev = D -> length comp = D - 1 -> i < D ->
  forall j, j < D -> frequency_of w0 comp i j (nth j (block_frequencies D w0 comp prev i) 0).
Proof.
  intros D w0 comp prev i HP HC Hi j Hj. unfold block_frequencies.
  set (js := seq 0 i ++ seq (i + 1) (D - (i + 1))).
  assert (Lj : length js = D - 1) by (unfold js; rewrite app_length, !seq_length; lia).
  assert (NDj : NoDup js).
  { unfold js. apply NoDup_app_intro; try apply seq_NoDup. intros x H1 H2. apply in_seq in H1, H2. lia. }
  destruct (fold_update_spec js comp (update prev i w0) NDj ltac:(lia)) as [F1 F2].
  { intros x Hx. rewrite length_update. unfold js in Hx. apply in_app_or in Hx.
    destruct Hx as [Hx|Hx]; apply in_seq in Hx; lia. }
  destruct (Nat.lt_trichotomy j i) as [L|[->|L]].
  - right. left. split; auto. destruct (nth_error_lt_Some comp (i:=j)) as [c Ec]; [lia|].
    rewrite Ec. symmetry. f_equal. apply nth_error_nth. apply F1 with j; auto.
    unfold js. rewrite nth_error_app1 by (rewrite seq_length; auto).
    rewrite nth_error_seq. rewrite (proj2 (Nat.ltb_lt _ _)); auto.
  - left. split; auto. apply nth_error_nth. rewrite F2.
    + rewrite nth_error_update, Nat.eqb_refl, (proj2 (Nat.ltb_lt _ _)) by lia. reflexivity.
    + unfold js. intros Hx. apply in_app_or in Hx. destruct Hx as [Hx|Hx]; apply in_seq in Hx; lia.
  - right. right. split; auto. destruct (nth_error_lt_Some comp (i:=j - 1)) as [c Ec]; [lia|].
    rewrite Ec. symmetry. f_equal. apply nth_error_nth. apply F1 with (j - 1); auto.
    unfold js. rewrite nth_error_app2 by (rewrite seq_length; lia). rewrite seq_length.
    rewrite nth_error_seq. rewrite (proj2 (Nat.ltb_lt _ _)) by lia. f_equal. lia.
Qed.

(** ** The curve *)
Lemma curve_range : forall w N k phi, (0 <= search_curve w N k phi <= 1)%R.
Proof.
  intros. unfold search_curve. pose proof (asin_bound (sin (INR w * (2 * PI / INR N * INR k) + phi))) as B.
  set (a := asin _) in *. pose proof PI_RGT_0.
  assert (E : (1 / PI * a = a / PI)%R) by (field; lra). rewrite E.
  assert (-(1 / 2) <= a / PI <= 1 / 2)%R; [|lra].
  split; apply Rmult_le_reg_r with PI; auto; unfold Rdiv; rewrite ?Rmult_assoc, Rinv_l by lra; lra.
Qed.

Lemma curve_spec : forall w N k phi,
  on_curve (INR w * (2 * PI / INR N * INR k) + phi)%R (search_curve w N k phi).
Proof.
  intros. split; [apply curve_range|]. unfold search_curve. set (a := (_ + phi)%R).
  pose proof PI_RGT_0.
  replace (PI * (1 / 2 + 1 / PI * asin (sin a) - 1 / 2))%R with (asin (sin a)) by (field; lra).
  apply sin_asin. apply SIN_bound.
Qed.

(** ** The sample *)
Lemma fast_blocks_spec : forall N D w0 comp u n a prev, length prev = D -> length comp = D - 1 -> a + n <= D ->
  length (fast_blocks N D w0 comp u prev (seq a n)) = n * N /\
  Forall (fun r => length r = D) (fast_blocks N D w0 comp u prev (seq a n)) /\
  forall i k j, i < n -> k < N -> j < D ->
    exists w x, frequency_of w0 comp (a + i) j w /\
      entry (fast_blocks N D w0 comp u prev (seq a n)) (i * N + k) j = Some x /\
      on_curve (INR w * (2 * PI / INR N * INR k) + 2 * PI * u (a + i)%nat)%R x.
Proof.
  intros N D w0 comp u. induction n as [|n IH]; intros a prev HP HC Ha; cbn [seq fast_blocks].
  - split; [auto|]. split; [constructor|]. intros; lia.
  - set (w := block_frequencies D w0 comp prev a).
    destruct (IH (S a) w) as (I1 & I2 & I3); auto; try lia.
    { unfold w. rewrite block_frequencies_length. auto. }
    set (blk := map _ (seq 0 N)).
    assert (Lb : length blk = N) by (unfold blk; rewrite map_length, seq_length; auto).
    split; [rewrite app_length, Lb, I1; lia|]. split.
    { apply Forall_app. split; auto. apply Forall_forall. intros r Hr. unfold blk in Hr.
      apply in_map_iff in Hr. destruct Hr as (k & <- & _). rewrite map_length, seq_length. auto. }
    intros i k j Hi Hk Hj. destruct i as [|i].
    + exists (nth j w 0), (search_curve (nth j w 0) N k (2 * PI * u a)%R).
      rewrite Nat.add_0_r. split; [unfold w; apply block_frequencies_spec; auto; lia|].
      split; [|apply curve_spec].
      unfold entry. simpl (0 * N + k). rewrite nth_error_app1 by lia. unfold blk.
      rewrite nth_error_map_seq, (proj2 (Nat.ltb_lt _ _) Hk).
      rewrite nth_error_map_seq, (proj2 (Nat.ltb_lt _ _) Hj). auto.
    + destruct (I3 i k j) as (w' & x & F & E & O); auto; [lia|].
      replace (a + S i) with (S a + i) by lia. exists w', x. split; auto. split; auto.
      unfold entry in *. rewrite nth_error_app2 by lia. rewrite Lb.
      replace (S i * N + k - N) with (i * N + k) by lia. auto.
Qed.

Lemma fast_unit_spec : forall N M D u, 4 * M ^ 2 < N -> 1 <= M -> 1 <= D ->
  exists w0 comp rs, fast_frequencies N M D = Ok (w0, comp) /\ fast_unit N M D u = Ok rs /\
  length rs = N * D /\ Forall (fun r => length r = D) rs /\
  forall i k j, i < D -> k < N -> j < D ->
    exists w x, frequency_of w0 comp i j w /\ entry rs (i * N + k) j = Some x /\
      on_curve (INR w * (2 * PI / INR N * INR k) + 2 * PI * u i)%R x.
Proof.
  intros N M D u HN HM HD.
  destruct (proj2 (frequencies_total N M D)) as [[w0 comp] E]; auto.
  destruct (frequencies_spec _ _ _ _ _ E) as (LC & _).
  exists w0, comp, (fast_blocks N D w0 comp u (repeat 0 D) (seq 0 D)).
  split; auto. split; [unfold fast_unit; rewrite E; reflexivity|].
  destruct (fast_blocks_spec N D w0 comp u D 0 (repeat 0 D)) as (F1 & F2 & F3); auto using repeat_length.
  split; [lia|]. split; auto.
Qed.

Lemma fast_refused : forall N M D u, ~ (4 * M ^ 2 < N /\ 1 <= M /\ 1 <= D) ->
  exists e, fast_unit N M D u = Err e /\ (N <= 4 * M ^ 2 -> e = ValueError).
Proof.
  intros N M D u H. unfold fast_unit, fast_frequencies.
  destruct (Nat.leb_spec N (4 * M ^ 2)); [exists ValueError; auto|].
  destruct (Nat.eqb_spec M 0); [eexists; split; [reflexivity|lia]|].
  destruct (Nat.eqb_spec D 0); [eexists; split; [reflexivity|lia]|].
  exfalso. lia.
Qed.

Lemma fast_public : forall nq tq p N M u,
  4 * M ^ 2 < N -> 1 <= M -> p_dists p = None -> 0 < p_num_vars p ->
  length (p_bounds p) = p_num_vars p -> good_box (p_bounds p) ->
  exists p' m w0 comp, fast_sample nq tq p N M u = (p', Ok (InPlace m)) /\
    fast_frequencies N M (p_num_vars p) = Ok (w0, comp) /\
    length (rows m) = N * p_num_vars p /\ Forall (fun r => length r = p_num_vars p) (rows m) /\
    forall i k j lo up, i < p_num_vars p -> k < N -> nth_error (p_bounds p) j = Some [lo; up] ->
      exists w x, frequency_of w0 comp i j w /\
        on_curve (INR w * (2 * PI / INR N * INR k) + 2 * PI * u i)%R x /\
        entry (rows m) (i * N + k) j = Some (lo + x * (up - lo))%R /\ (lo <= lo + x * (up - lo) <= up)%R.
Proof.
  intros nq tq p N M u HN HM Hd Hn HBl HG.
  destruct (fast_unit_spec N M (p_num_vars p) u HN HM Hn) as (w0 & comp & rs & E1 & E2 & L & W & Hrs).
  destruct (scale_ok_box (mkMat (p_num_vars p) rs) (p_bounds p) Hn HBl HG) as (v & Es & Lv & Hv).
  simpl in Es, Lv.
  eexists. exists (mkMat (p_num_vars p) (map (to_physical v) rs)), w0, comp.
  split. { unfold fast_sample, scale_samples. rewrite E2, Hd, Es. reflexivity. }
  split; auto. simpl. split; [rewrite map_length; auto|]. split.
  { apply Forall_forall. intros r Hr. apply in_map_iff in Hr. destruct Hr as (r0 & <- & Hr0).
    rewrite Forall_forall in W. rewrite to_physical_length; rewrite (W r0 Hr0); auto. }
  intros i k j lo up Hi Hk Hj.
  assert (Hjn : j < p_num_vars p) by (rewrite <- HBl; apply nth_error_Some; congruence).
  destruct (Hrs i k j Hi Hk Hjn) as (w & x & F & Ex & O). exists w, x. split; auto. split; auto.
  assert (Hlu : (lo < up)%R).
  { unfold good_box in HG. rewrite Forall_forall in HG.
    destruct (HG _ (nth_error_In _ _ Hj)) as (l & u' & El & Hlt). injection El as -> ->. auto. }
  split.
  - unfold entry in *. rewrite nth_error_map'. destruct (nth_error rs (i * N + k)); [|discriminate].
    simpl. rewrite to_physical_nth, Ex. apply Hv in Hj. rewrite Hj. auto.
  - destruct O as [[O1 O2] _]. nra.
Qed.
