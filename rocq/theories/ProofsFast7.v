(** * Extended FAST on sums of cosine series: sampling, evaluating and analysing. *)
From Coq Require Import Reals String List Arith ZArith Bool Lia Lra Permutation.
From Verif Require Import Base Arrays ListFacts ModelGroups ModelScale Stats Sums SpecSobol ModelFast SpecFast SpecIntegral SpecFast2 ProofsIntegral ProofsTestFunctions4
  ProofsFast ProofsFast2 ProofsFast3 ProofsFast4 ProofsFast5 ProofsFast6.
Import ListNotations.
Local Open Scope nat_scope.

Lemma proper_good : forall b, proper b -> good_box (bounds_of b).
Proof.
  intros b P. unfold good_box, bounds_of. rewrite Forall_forall. intros x Hx. apply in_map_iff in Hx. destruct Hx as (i & <- & I).
  unfold proper in P. rewrite Forall_forall in P. exists (fst i), (snd i). split; [reflexivity|apply P; assumption].
Qed.

Lemma fast_blocks_of : forall nq tq p b N M u (f : list R -> R) bnd draws,
  4 * M ^ 2 < N -> 1 <= M -> p_dists p = None -> 0 < length b -> p_num_vars p = length b -> p_bounds p = bounds_of b -> proper b ->
  (forall i, i < length b -> good_draws N (draws i)) ->
  exists p' m res w0 comp, fast_sample nq tq p N M u = (p', Ok (InPlace m)) /\ fast_frequencies N M (length b) = Ok (w0, comp) /\
    fast_analyze (length b) (map f (rows m)) M bnd draws = Ok res /\ length res = length b /\
    forall i r, nth_error res i = Some r -> i < length b /\ orders_ok (map f (block_of m N i)) M (f_S1 r) (f_ST r) /\ length (block_of m N i) = N /\
      forall k row, nth_error (block_of m N i) k = Some row -> length row = length b /\
        forall j lo up, nth_error b j = Some (lo, up) -> exists w x, frequency_of w0 comp i j w /\
          on_curve (INR w * (2 * PI / INR N * INR k) + 2 * PI * u i)%R x /\ nth_error row j = Some (lo + x * (up - lo))%R.
Proof.
  intros nq tq p b N M u f bnd draws HN HM Hd HD EV EB P Hdr.
  destruct (fast_end_to_end nq tq p N M u f bnd draws HN HM Hd) as (p' & m & res & w0 & comp & E1 & E2 & E3 & L & H).
  - lia.
  - rewrite EB, EV. unfold bounds_of. apply map_length.
  - rewrite EB. apply proper_good. assumption.
  - rewrite EV. assumption.
  - rewrite EV in *. exists p', m, res, w0, comp. repeat (split; [assumption|]).
    intros i r Hr. assert (Hi : i < length b) by (rewrite <- L; apply nth_error_Some; congruence). split; [assumption|].
    destruct (H i r Hr) as (block & LB & O & HB).
    assert (EBl : block = block_of m N i).
    { apply nth_error_ext'. intros k. unfold block_of. rewrite nth_error_map.
      destruct (nth_error block k) as [row|] eqn:E.
      - assert (Hk : k < N) by (rewrite <- LB; apply nth_error_Some; congruence).
        rewrite (nth_error_nth' (seq 0 N) 0) by (rewrite seq_length; assumption). rewrite seq_nth by assumption. cbn [option_map Nat.add].
        destruct (HB k row E) as (_ & ER & _). rewrite (nth_error_nth _ _ _ ER). reflexivity.
      - apply nth_error_None in E. assert (Z : nth_error (seq 0 N) k = None) by (apply nth_error_None; rewrite seq_length; lia). rewrite Z. reflexivity. }
    rewrite <- EBl. split; [assumption|]. split; [assumption|].
    intros k row Hk. destruct (HB k row Hk) as (LR & _ & HJ). split; [assumption|].
    intros j lo up Hj. apply HJ. rewrite EB. unfold bounds_of. rewrite nth_error_map, Hj. reflexivity.
Qed.

Section All.
  Variables (nq : R -> R) (tq : R -> R -> R -> R) (p : problem) (b : box) (N M : nat) (u : nat -> R) (coefs : list (list R)) (bnd : R) (draws : nat -> list (list nat)).
  Let f := cosine_model b coefs.
  Hypotheses (HN : 4 * M ^ 2 < N) (HM : 1 <= M) (Hd : p_dists p = None) (HD : 0 < length b) (EV : p_num_vars p = length b) (EB : p_bounds p = bounds_of b)
    (P : proper b) (LC : length coefs = length b) (HK : Forall (fun a => length a <= M + 1) coefs) (Hdr : forall i, i < length b -> good_draws N (draws i)).

  Lemma fast_series : exists p' m res w0 comp, fast_sample nq tq p N M u = (p', Ok (InPlace m)) /\ fast_frequencies N M (length b) = Ok (w0, comp) /\
    fast_analyze (length b) (map f (rows m)) M bnd draws = Ok res /\ length res = length b /\
    forall i r, nth_error res i = Some r -> i < length b /\
      (let v := series_variance (nth i coefs []) in
       let W := var (map (fun row => f row - cosine_series (nth i b (0, 0)) (nth i coefs []) (nth i row 0))%R (block_of m N i)) in
       (v + W = 0 /\ f_S1 r = None /\ f_ST r = None)%R \/ (v + W <> 0 /\ f_S1 r = Some (v / (v + W)) /\ f_ST r = Some (v / (v + W)))%R) /\
      (forall K, K <= M -> Forall (fun a => length a <= K + 1) coefs -> separate K comp ->
         var (map (fun row => f row - cosine_series (nth i b (0, 0)) (nth i coefs []) (nth i row 0))%R (block_of m N i))
         = Rsum (map (fun j => series_variance (nth j coefs [])) (rest (length b) i))) /\
      map (fun row => f row - cosine_series (nth i b (0, 0)) (nth i coefs []) (nth i row 0))%R (block_of m N i)
      = outputs N (Rsum (map (fun j => nth 0 (nth j coefs []) 0%R) (rest (length b) i)))
          (flat_map (fun j => waves (freq_at w0 comp i j) (2 * PI * u i + PI / 2) (nth j coefs [])) (rest (length b) i)).
  Proof.
    destruct (fast_blocks_of nq tq p b N M u f bnd draws HN HM Hd HD EV EB P Hdr) as (p' & m & res & w0 & comp & E1 & E2 & E3 & L & H).
    exists p', m, res, w0, comp. repeat (split; [assumption|]). intros i r Hr. destruct (H i r Hr) as (Hi & O & LB & HB). split; [assumption|]. split; [|split].
    - apply (block_orders b coefs N M w0 comp i (2 * PI * u i)%R (block_of m N i)); assumption.
    - intros K KM KC Sep. apply (block_rest b coefs N M w0 comp i (2 * PI * u i)%R (block_of m N i)) with (K := K); assumption.
    - eapply (rest_outputs b coefs N M w0 comp i (2 * PI * u i)%R (block_of m N i)); eassumption.
  Qed.

  Lemma fast_additive : exists p' m res, fast_sample nq tq p N M u = (p', Ok (InPlace m)) /\
    fast_analyze (length b) (map f (rows m)) M bnd draws = Ok res /\ length res = length b /\
    forall i r bi a, nth_error res i = Some r -> nth_error b i = Some bi -> nth_error coefs i = Some a ->
      exists v, first_effect b f i v /\ total_effect b f i v /\
        let W := var (map (fun row => f row - cosine_series bi a (nth i row 0))%R (block_of m N i)) in
        (v + W = 0 /\ f_S1 r = None /\ f_ST r = None)%R \/ (v + W <> 0 /\ f_S1 r = Some (v / (v + W)) /\ f_ST r = Some (v / (v + W)))%R.
  Proof.
    destruct fast_series as (p' & m & res & w0 & comp & E1 & E2 & E3 & L & H). exists p', m, res. repeat (split; [assumption|]).
    intros i r bi a Hr Hb Ha. destruct (H i r Hr) as (Hi & O & _). rewrite (nth_error_nth _ _ _ Hb), (nth_error_nth _ _ _ Ha) in O.
    exists (series_variance a). destruct (model_effects b coefs i a P LC Ha) as [F T]. split; [assumption|]. split; [assumption|]. exact O.
  Qed.

  Lemma fast_exact : forall K, K <= M -> Forall (fun a => length a <= K + 1) coefs ->
    (forall w0 comp, fast_frequencies N M (length b) = Ok (w0, comp) -> separate K comp) ->
    exists p' m res V, fast_sample nq tq p N M u = (p', Ok (InPlace m)) /\
    fast_analyze (length b) (map f (rows m)) M bnd draws = Ok res /\ length res = length b /\ variance b f V /\
    forall i r, nth_error res i = Some r -> exists v, first_effect b f i v /\ total_effect b f i v /\
      ((V = 0 /\ f_S1 r = None /\ f_ST r = None) \/ (V <> 0 /\ f_S1 r = Some (v / V) /\ f_ST r = Some (v / V)))%R.
  Proof.
    intros K KM KC Sep. destruct fast_series as (p' & m & res & w0 & comp & E1 & E2 & E3 & L & H).
    exists p', m, res, (Rsum (map series_variance coefs)). repeat (split; [assumption|]). split; [apply model_variance; assumption|].
    intros i r Hr. destruct (H i r Hr) as (Hi & O & HW & _). specialize (HW K KM KC (Sep w0 comp E2)). cbv zeta in O. rewrite HW in O.
    assert (ES : Rsum (map series_variance coefs) = (series_variance (nth i coefs []) + Rsum (map (fun j => series_variance (nth j coefs [])) (rest (length b) i)))%R).
    { rewrite <- LC. apply variances_split. lia. }
    rewrite <- ES in O. exists (series_variance (nth i coefs [])).
    destruct (model_effects b coefs i (nth i coefs []) P LC) as [F T]; [apply nth_error_nth'; lia|]. split; [assumption|]. split; [assumption|]. exact O.
  Qed.
End All.

(** Enough samples keep the frequencies apart. *)
Lemma enough_separate : forall N M D w0 comp, 4 * M ^ 2 * (D - 1) < N -> fast_frequencies N M D = Ok (w0, comp) -> separate 1 comp.
Proof.
  intros N M D w0 comp HN E. destruct (frequencies_spec N M D w0 comp E) as (L & B1 & B2 & m & M1 & M2 & M3 & HC & ND & _).
  assert (Dm : D - 1 <= m). { simpl in HN. assert (2 * M * (D - 1) < w0 + 1) by nia. nia. }
  specialize (ND Dm). intros s t v w h k Ne Hs Ht Hh Hk Eq. assert (h = 1) by lia. assert (k = 1) by lia. subst h k.
  assert (v = w) by lia. subst w. rewrite NoDup_nth_error in ND. apply Ne. apply ND; [apply nth_error_Some; congruence|congruence].
Qed.

(** Too few: two parameters get the same frequency. *)
Lemma flat_map_nil : forall (W : nat -> list wave) l, (forall j, In j l -> W j = []) -> flat_map W l = [].
Proof. intros W l H. induction l as [|j l IH]; [reflexivity|]. cbn. rewrite (H j (or_introl eq_refl)), IH; [reflexivity|]. intros k K. apply H. right. assumption. Qed.

Lemma nth_map_seq : forall A (g : nat -> A) D j d, j < D -> nth j (map g (seq 0 D)) d = g j.
Proof.
  intros A g D j d H. rewrite (nth_indep _ d (g 0)) by (rewrite map_length, seq_length; assumption). rewrite map_nth, seq_nth by assumption. reflexivity.
Qed.

Definition collide (m D : nat) : list (list R) := map (fun j => if (j =? 0) || (j =? m) || (j =? D - 1) then [0; 1]%R else []) (seq 0 D).
Lemma collide_nth : forall m D j, j < D -> nth j (collide m D) [] = if (j =? 0) || (j =? m) || (j =? D - 1) then [0; 1]%R else [].
Proof.
  intros m D j H. unfold collide. apply nth_map_seq. assumption.
Qed.

Lemma few_samples : forall N M D, 4 * M ^ 2 < N -> 1 <= M -> N <= 4 * M ^ 2 * (D - 1) ->
  exists coefs i, length coefs = D /\ Forall (fun a => length a <= 2) coefs /\ i < D /\
    forall nq tq p b u bnd draws, p_dists p = None -> length b = D -> p_num_vars p = D -> p_bounds p = bounds_of b -> proper b ->
      (forall i, i < D -> good_draws N (draws i)) ->
    exists p' m res r, fast_sample nq tq p N M u = (p', Ok (InPlace m)) /\
      fast_analyze D (map (cosine_model b coefs) (rows m)) M bnd draws = Ok res /\ nth_error res i = Some r /\
      f_S1 r = Some (1 / 5)%R /\ variance b (cosine_model b coefs) (3 / 2)%R /\ first_effect b (cosine_model b coefs) i (1 / 2)%R.
Proof.
  intros N M D HN HM HF.
  destruct (fast_frequencies N M D) as [[w0 comp]|e] eqn:E.
  2:{ destruct (proj2 (frequencies_total N M D)) as [wc Ewc]; [split; [assumption|split; [assumption|]]; destruct D; [simpl in HF; nia|lia]|congruence]. }
  pose proof E as E0. unfold fast_frequencies in E0.
  destruct (N <=? 4 * M ^ 2); [discriminate|]. destruct (M =? 0); [discriminate|]. destruct (D =? 0) eqn:D0; [discriminate|].
  injection E0 as W0 C0. change (M + (M + 0)) with (2 * M) in W0, C0. apply Nat.eqb_neq in D0.
  set (m := w0 / (2 * M)).
  assert (DM : forall a c, 0 < c -> c * (a / c) <= a < c * (a / c + 1)).
  { intros a c Hc. split; [apply Nat.mul_div_le; lia|]. rewrite Nat.add_1_r. apply Nat.mul_succ_div_gt. lia. }
  assert (B := DM (N - 1) (2 * M) ltac:(lia)). rewrite W0 in B.
  assert (Bm := DM w0 (2 * M) ltac:(lia)). fold m in Bm. clear DM.
  assert (Hm : m < D - 1). { simpl in HF. nia. }
  assert (Hm1 : 1 <= m). { simpl in HN. assert (2 * M <= w0) by nia. nia. }
  rewrite W0 in C0. fold m in C0. destruct (Nat.leb_spec (D - 1) m) as [Bad|_]; [lia|].
  assert (LCo : length (collide m D) = D) by (unfold collide; rewrite map_length, seq_length; reflexivity).
  assert (Small : Forall (fun a : list R => length a <= 2) (collide m D)).
  { apply Forall_forall. intros a Ha. unfold collide in Ha. apply in_map_iff in Ha. destruct Ha as (j & <- & _). destruct (_ || _); simpl; lia. }
  exists (collide m D), (D - 1). split; [assumption|]. split; [assumption|]. split; [lia|].
  intros nq tq p b u bnd draws Hd LB EV EB P Hdr.
  assert (HK : Forall (fun a : list R => length a <= M + 1) (collide m D)) by (eapply Forall_impl; [|exact Small]; cbn beta; intros; lia).
  destruct (fast_series nq tq p b N M u (collide m D) bnd draws HN HM Hd ltac:(lia) ltac:(lia) EB P ltac:(lia) HK ltac:(rewrite LB; assumption))
    as (p' & mt & res & w0' & comp' & E1 & E2 & E3 & L & H).
  rewrite LB in *. rewrite E in E2. injection E2 as <- <-.
  destruct (nth_error res (D - 1)) as [r|] eqn:Er; [|apply nth_error_None in Er; lia].
  exists p', mt, res, r. split; [assumption|]. split; [assumption|]. split; [exact Er|].
  destruct (H (D - 1) r Er) as (_ & O & _ & EO). cbv zeta in O. rewrite EO in O.
  assert (SV : series_variance (nth (D - 1) (collide m D) []) = (1 / 2)%R).
  { rewrite collide_nth by lia. rewrite Nat.eqb_refl, orb_true_r. unfold series_variance, Rsum. simpl. field. }
  set (psi := (2 * PI * u (D - 1)%nat + PI / 2)%R) in *.
  assert (EW : flat_map (fun j => waves (freq_at w0 comp (D - 1) j) psi (nth j (collide m D) [])) (rest D (D - 1)) = [mkWave 1 1 psi; mkWave 1 1 psi]).
  { assert (W1 : forall j, (j = 0 \/ j = m) -> waves (freq_at w0 comp (D - 1) j) psi (nth j (collide m D) []) = [mkWave 1 1 psi]).
    { intros j Hj. rewrite collide_nth by lia. assert (T : (j =? 0) || (j =? m) = true) by (destruct Hj as [->| ->]; [reflexivity|rewrite Nat.eqb_refl; apply orb_true_r]).
      rewrite T. cbn [orb]. unfold waves. cbn [length Nat.sub seq map nth]. f_equal.
      assert (F1 : freq_at w0 comp (D - 1) j = 1).
      { unfold freq_at. destruct (Nat.eqb_spec j (D - 1)); [lia|]. destruct (Nat.ltb_spec j (D - 1)); [|lia].
        rewrite <- C0, nth_map_seq by lia. destruct Hj as [->| ->]; [rewrite Nat.mod_0_l by lia|rewrite Nat.mod_same by lia]; reflexivity. }
      rewrite F1. simpl (INR 1). rewrite Rmult_1_l. reflexivity. }
    assert (W2 : forall j, j < D - 1 -> j <> 0 -> j <> m -> waves (freq_at w0 comp (D - 1) j) psi (nth j (collide m D) []) = []).
    { intros j J1 J2 J3. rewrite collide_nth by lia. destruct (Nat.eqb_spec j 0), (Nat.eqb_spec j m), (Nat.eqb_spec j (D - 1)); try lia. reflexivity. }
    assert (ER : rest D (D - 1) = 0 :: seq 1 (m - 1) ++ m :: seq (m + 1) (D - 1 - (m + 1))).
    { unfold rest. replace (D - (D - 1 + 1)) with 0 by lia. cbn [seq]. rewrite app_nil_r.
      replace (D - 1) with (1 + ((m - 1) + (1 + (D - 1 - (m + 1))))) at 1 by lia. rewrite !seq_app. cbn [seq app Nat.add]. f_equal. f_equal.
      replace (S (m - 1)) with m by lia. f_equal. f_equal. lia. }
    rewrite ER. cbn [flat_map]. rewrite W1 by (left; reflexivity). rewrite flat_map_app. cbn [flat_map]. rewrite W1 by (right; reflexivity).
    rewrite !flat_map_nil; [reflexivity| |]; intros j Hj; apply in_seq in Hj; apply W2; lia. }
  rewrite EW in O.
  assert (Lg : legal N [mkWave 1 1 psi; mkWave 1 1 psi]).
  { assert (2 < N) by (simpl in HN; nia). repeat constructor; simpl; lia. }
  rewrite (outputs_var N _ _ ltac:(lia) Lg) in O. unfold band in O.
  rewrite (Rsum_ext _ _ (fun q => if 1 =? q then 1 else 0)%R) in O.
  2:{ intros q Hq. apply visible_in in Hq. rewrite outputs_power by (try assumption; lia). unfold cpart, spart, Rsum. cbn [map fold_right freq amp phase].
      destruct (Nat.eqb_spec 1 q); [|field]. pose proof (sin2_cos2 psi) as T. unfold Rsqr in T. nra. }
  rewrite Rsum_pick in O by (try apply visible_nodup; apply visible_in; simpl in HN; nia).
  rewrite SV in O. split; [|split].
  - destruct O as [(Z & _)|(_ & S1 & _)]; [lra|]. rewrite S1. f_equal. field.
  - replace (3 / 2)%R with (Rsum (map series_variance (collide m D))); [apply model_variance; [assumption|lia]|].
    rewrite (variances_split (collide m D) (D - 1)) by lia. rewrite SV, LCo.
    assert (ER : rest D (D - 1) = 0 :: seq 1 (m - 1) ++ m :: seq (m + 1) (D - 1 - (m + 1))).
    { unfold rest. replace (D - (D - 1 + 1)) with 0 by lia. cbn [seq]. rewrite app_nil_r.
      replace (D - 1) with (1 + ((m - 1) + (1 + (D - 1 - (m + 1))))) at 1 by lia. rewrite !seq_app. cbn [seq app Nat.add]. f_equal. f_equal.
      replace (S (m - 1)) with m by lia. f_equal. f_equal. lia. }
    assert (V1 : forall j, j < D -> (j = 0 \/ j = m) -> series_variance (nth j (collide m D) []) = (1 / 2)%R).
    { intros j HD' Hj. rewrite collide_nth by lia. assert (T : (j =? 0) || (j =? m) = true) by (destruct Hj as [->| ->]; [reflexivity|rewrite Nat.eqb_refl; apply orb_true_r]).
      rewrite T. cbn [orb]. unfold series_variance, Rsum. simpl. field. }
    assert (V2 : forall l, (forall j, In j l -> j < D - 1 /\ j <> 0 /\ j <> m) -> Rsum (map (fun j => series_variance (nth j (collide m D) [])) l) = 0%R).
    { intros l Hl. rewrite (Rsum_ext _ _ (fun _ => 0%R)), Rsum_const; [ring|]. intros j Hj. destruct (Hl j Hj) as (J1 & J2 & J3).
      rewrite collide_nth by lia. destruct (Nat.eqb_spec j 0), (Nat.eqb_spec j m), (Nat.eqb_spec j (D - 1)); try lia. unfold series_variance, Rsum. simpl. field. }
    rewrite ER. cbn [map]. rewrite map_app. cbn [map]. change (Rsum (?z :: ?l)) with (z + Rsum l)%R at 1. rewrite Rsum_app. change (Rsum (series_variance (nth m (collide m D) []) :: ?l)) with (series_variance (nth m (collide m D) []) + Rsum l)%R.
    rewrite (V1 0), (V1 m), !V2; try lia; try lra; intros j Hj; apply in_seq in Hj; lia.
  - rewrite <- SV. apply model_effects; [assumption|lia|]. apply nth_error_nth'. lia.
Qed.
