(** * Extended FAST on sums of cosine series. *)
From Coq Require Import Reals String List Arith ZArith Bool Lia Lra Permutation.
From Verif Require Import Base Arrays ListFacts ModelGroups ModelScale Stats Sums SpecSobol ModelFast SpecFast SpecIntegral SpecFast2 ProofsIntegral ProofsTestFunctions4
  ProofsFast ProofsFast2 ProofsFast3 ProofsFast4 ProofsFast5.
Import ListNotations.
Local Open Scope nat_scope.

(** ** The effects of the model *)

Lemma model_additive : forall b coefs x, cosine_model b coefs x = additive (map (fun p => cosine_series (fst p) (snd p)) (combine b coefs)) x.
Proof. induction b as [|i b IH]; intros [|a coefs] [|v x]; try reflexivity. cbn. rewrite IH. reflexivity. Qed.

Definition mvs_of (coefs : list (list R)) : list (R * R) := map (fun a => (nth 0 a 0%R, series_variance a)) coefs.

Lemma model_moments : forall b coefs, proper b -> length coefs = length b ->
  Forall2 (fun ig mv => moments (fst ig) (snd ig) mv) (combine b (map (fun p => cosine_series (fst p) (snd p)) (combine b coefs))) (mvs_of coefs).
Proof.
  induction b as [|i b IH]; intros [|a coefs] P L; try discriminate; [constructor|]. inversion P; subst. cbn [combine map mvs_of]. constructor.
  - cbn [fst snd]. apply series_moments. assumption.
  - apply IH; [assumption|]. cbn [length] in L. lia.
Qed.

Lemma gs_length : forall (b : box) (coefs : list (list R)), length coefs = length b ->
  length (map (fun p => cosine_series (fst p) (snd p)) (combine b coefs)) = length b.
Proof. intros b coefs L. rewrite map_length, combine_length. lia. Qed.

Lemma model_variance : forall b coefs, proper b -> length coefs = length b ->
  variance b (cosine_model b coefs) (Rsum (map series_variance coefs)).
Proof.
  intros b coefs P L.
  assert (V := additive_variance b _ _ P (gs_length b coefs L) (model_moments b coefs P L)).
  unfold mvs_of in V. rewrite map_map in V. cbn [snd] in V.
  eapply variance_ext; [assumption| |exact V]. intros x _. symmetry. apply model_additive.
Qed.

Lemma model_effects : forall b coefs i a, proper b -> length coefs = length b -> nth_error coefs i = Some a ->
  first_effect b (cosine_model b coefs) i (series_variance a) /\ total_effect b (cosine_model b coefs) i (series_variance a).
Proof.
  intros b coefs i a P L E.
  destruct (additive_effects b _ _ i (nth 0 a 0%R, series_variance a) P (gs_length b coefs L) (model_moments b coefs P L)) as (F & T).
  { unfold mvs_of. rewrite nth_error_map, E. reflexivity. }
  split.
  - eapply first_effect_ext; [assumption| |exact F]. intros x _. symmetry. apply model_additive.
  - eapply total_effect_ext; [assumption| |exact T]. intros x _. symmetry. apply model_additive.
Qed.

Lemma model_sum : forall b coefs x, length coefs = length b -> length x = length b ->
  cosine_model b coefs x = Rsum (map (fun j => cosine_series (nth j b (0, 0)%R) (nth j coefs []) (nth j x 0%R)) (seq 0 (length b))).
Proof.
  induction b as [|i b IH]; intros [|a coefs] [|v x] L1 L2; try discriminate; [reflexivity|].
  cbn [cosine_model length seq map nth]. rewrite <- seq_shift, map_map. cbn [length] in L1, L2. rewrite IH by lia. reflexivity.
Qed.

(** ** One block *)

Definition rest (D i : nat) : list nat := seq 0 i ++ seq (i + 1) (D - (i + 1)).
Lemma rest_perm : forall D i, i < D -> Permutation (seq 0 D) (i :: rest D i).
Proof.
  intros D i H. unfold rest. replace (seq 0 D) with (seq 0 i ++ i :: seq (i + 1) (D - (i + 1))).
  - apply Permutation_sym, Permutation_middle.
  - replace D with (i + (1 + (D - (i + 1)))) at 2 by lia. rewrite seq_app. f_equal. cbn [seq Nat.add]. f_equal. f_equal. lia.
Qed.
Lemma rest_in : forall D i j, In j (rest D i) <-> (j < i \/ (i < j /\ j < D)).
Proof. intros D i j. unfold rest. rewrite in_app_iff, !in_seq. lia. Qed.
Lemma rest_nodup : forall D i, i < D -> NoDup (rest D i).
Proof.
  intros D i H. pose proof (seq_NoDup D 0) as N. apply (Permutation_NoDup (rest_perm D i H)) in N. inversion N. assumption.
Qed.

Definition freq_at (w0 : nat) (comp : list nat) (i j : nat) : nat := if j =? i then w0 else if j <? i then nth j comp 0 else nth (j - 1) comp 0.
Lemma frequency_freq : forall w0 comp i j w, frequency_of w0 comp i j w -> w = freq_at w0 comp i j.
Proof.
  intros w0 comp i j w F. unfold freq_at. destruct F as [[-> ->]|[[L E]|[L E]]].
  - rewrite Nat.eqb_refl. reflexivity.
  - destruct (Nat.eqb_spec j i); [lia|]. destruct (Nat.ltb_spec j i); [|lia]. symmetry. apply nth_error_nth. assumption.
  - destruct (Nat.eqb_spec j i); [lia|]. destruct (Nat.ltb_spec j i); [lia|]. symmetry. apply nth_error_nth. assumption.
Qed.

Lemma signal_flat : forall n (c : nat -> R) (W : nat -> list wave) t l,
  Rsum (map (fun j => signal n (c j) (W j) t) l) = signal n (Rsum (map c l)) (flat_map W l) t.
Proof.
  intros n c W t l. unfold signal. induction l as [|j l IH]; [unfold Rsum; simpl; ring|].
  cbn [map flat_map]. rewrite map_app, Rsum_app. change (Rsum (?z :: ?m)) with (z + Rsum m)%R. rewrite IH. ring.
Qed.

Lemma var_const : forall n c c' ls, 0 < n -> legal n ls -> var (outputs n c ls) = var (outputs n c' ls).
Proof.
  intros n c c' ls Hn HL. rewrite !outputs_var by assumption. f_equal. unfold band. apply Rsum_ext. intros q Hq. apply visible_in in Hq.
  rewrite !outputs_power by (try assumption; lia). reflexivity.
Qed.

Lemma flat_nodup : forall (g : nat -> list nat) l, NoDup l -> (forall j, In j l -> NoDup (g j)) ->
  (forall j j' q, In j l -> In j' l -> j <> j' -> In q (g j) -> ~ In q (g j')) -> NoDup (flat_map g l).
Proof.
  intros g l. induction l as [|a l IH]; intros N G D; [constructor|]. inversion N as [|? ? NI N']; subst. cbn [flat_map].
  assert (A : forall (x y : list nat), NoDup x -> NoDup y -> (forall q, In q x -> ~ In q y) -> NoDup (x ++ y)).
  { induction x as [|q x I]; intros y X Y Z; [assumption|]. inversion X; subst. cbn. constructor.
    - intros C. apply in_app_or in C. destruct C as [C|C]; [contradiction|]. apply (Z q (or_introl eq_refl) C).
    - apply I; auto. intros r R. apply Z. right. assumption. }
  apply A.
  - apply G. left. reflexivity.
  - apply IH; auto.
    + intros j J. apply G. right. assumption.
    + intros j j' q J J'. apply D; right; assumption.
  - intros q Q C. apply in_flat_map in C. destruct C as (j & J & R). apply (D a j q); auto; [left; reflexivity|right; assumption|].
    intros ->. contradiction.
Qed.

Lemma map_flat_map : forall (f : wave -> nat) (W : nat -> list wave) l, map f (flat_map W l) = flat_map (fun j => map f (W j)) l.
Proof. intros f W l. induction l as [|j l IH]; [reflexivity|]. cbn. rewrite map_app, IH. reflexivity. Qed.

Lemma Rsum_flat_map : forall (g : wave -> R) (W : nat -> list wave) l, Rsum (map g (flat_map W l)) = Rsum (map (fun j => Rsum (map g (W j))) l).
Proof. intros g W l. induction l as [|j l IH]; [reflexivity|]. cbn [flat_map map]. rewrite map_app, Rsum_app, IH. reflexivity. Qed.

Section Block.
  Variables (b : box) (coefs : list (list R)) (N M : nat) (w0 : nat) (comp : list nat) (i : nat) (phi : R) (block : list (list R)).
  Let D := length b.
  Let f := cosine_model b coefs.
  Hypotheses (P : proper b) (LC : length coefs = D) (HM : 1 <= M) (HN : 4 * M ^ 2 < N).
  Hypothesis HK : Forall (fun a => length a <= M + 1) coefs.
  Hypothesis EF : fast_frequencies N M D = Ok (w0, comp).
  Hypothesis Hi : i < D.
  Hypothesis LB : length block = N.
  Hypothesis HB : forall k row, nth_error block k = Some row -> length row = D /\
    forall j lo up, nth_error b j = Some (lo, up) -> exists w x, frequency_of w0 comp i j w /\
      on_curve (INR w * (2 * PI / INR N * INR k) + phi)%R x /\ nth_error row j = Some (lo + x * (up - lo))%R.

  Let wv (j : nat) : list wave := waves (freq_at w0 comp i j) (phi + PI / 2) (nth j coefs []).
  Let cst (j : nat) : R := nth 0 (nth j coefs []) 0%R.
  Let c := Rsum (map cst (i :: rest D i)).

  Lemma N_big : 0 < N.
  Proof. lia. Qed.

  Lemma part_signal : forall k row j, nth_error block k = Some row -> j < D ->
    cosine_series (nth j b (0, 0)%R) (nth j coefs []) (nth j row 0%R) = signal N (cst j) (wv j) k.
  Proof.
    intros k row j Hk Hj. destruct (HB k row Hk) as [LR H].
    destruct (nth_error b j) as [[lo up]|] eqn:E; [|apply nth_error_None in E; unfold D in *; lia].
    destruct (H j lo up E) as (w & x & F & O & R0). rewrite (nth_error_nth _ _ _ E), (nth_error_nth _ _ _ R0).
    rewrite (frequency_freq _ _ _ _ _ F) in O. pose proof (proper_nth b j _ P E) as Lt. cbn [fst snd] in Lt.
    apply (series_waves N (lo, up) _ lo up x k (freq_at w0 comp i j) phi); auto. apply N_big.
  Qed.

  Lemma value_signal : forall k row, nth_error block k = Some row -> f row = signal N c (wv i ++ flat_map wv (rest D i)) k.
  Proof.
    intros k row Hk. destruct (HB k row Hk) as [LR _]. unfold f. rewrite model_sum by (unfold D in *; lia). fold D.
    rewrite (Rsum_perm _ _ (Permutation_map _ (rest_perm D i Hi))).
    change (wv i ++ flat_map wv (rest D i)) with (flat_map wv (i :: rest D i)). unfold c. rewrite <- signal_flat.
    apply Rsum_ext. intros j Hj. apply (part_signal k row j Hk).
    assert (In j (seq 0 D)) by (apply (Permutation_in _ (Permutation_sym (rest_perm D i Hi))); assumption). apply in_seq in H. lia.
  Qed.

  Lemma block_outputs : map f block = outputs N c (wv i ++ flat_map wv (rest D i)).
  Proof.
    apply nth_error_ext'. intros k. unfold outputs. rewrite !nth_error_map.
    destruct (nth_error block k) as [row|] eqn:E; cbn [option_map].
    - rewrite (value_signal k row E). assert (Hk : k < N) by (rewrite <- LB; apply nth_error_Some; congruence).
      rewrite (nth_error_nth' _ 0) by (rewrite seq_length; assumption). rewrite seq_nth by assumption. reflexivity.
    - apply nth_error_None in E. assert (Z : nth_error (seq 0 N) k = None) by (apply nth_error_None; rewrite seq_length; lia). rewrite Z. reflexivity.
  Qed.

  Lemma rest_outputs : map (fun row => f row - cosine_series (nth i b (0, 0)) (nth i coefs []) (nth i row 0))%R block
    = outputs N (Rsum (map cst (rest D i))) (flat_map wv (rest D i)).
  Proof.
    apply nth_error_ext'. intros k. unfold outputs. rewrite !nth_error_map.
    destruct (nth_error block k) as [row|] eqn:E; cbn [option_map].
    - rewrite (value_signal k row E), (part_signal k row i E Hi). assert (Hk : k < N) by (rewrite <- LB; apply nth_error_Some; congruence).
      rewrite (nth_error_nth' _ 0) by (rewrite seq_length; assumption). rewrite seq_nth by assumption. cbn [option_map]. f_equal.
      unfold signal, c. cbn [map Nat.add]. rewrite map_app, Rsum_app. change (Rsum (?z :: ?m)) with (z + Rsum m)%R. ring.
    - apply nth_error_None in E. assert (Z : nth_error (seq 0 N) k = None) by (apply nth_error_None; rewrite seq_length; lia). rewrite Z. reflexivity.
  Qed.

  Lemma coefs_nth : forall j, length (nth j coefs []) <= M + 1.
  Proof.
    intros j. destruct (nth_in_or_default j coefs []) as [I|E]; [|rewrite E; simpl; lia]. rewrite Forall_forall in HK. apply HK. assumption.
  Qed.

  Lemma w0_is : w0 = (N - 1) / (2 * M).
  Proof.
    unfold fast_frequencies in EF. destruct (N <=? 4 * M ^ 2); [discriminate|]. destruct (M =? 0); [discriminate|]. destruct (D =? 0); [discriminate|]. congruence.
  Qed.

  Lemma freq_rest : forall j, In j (rest D i) -> exists t, nth_error comp t = Some (freq_at w0 comp i j) /\ t = (if j <? i then j else j - 1).
  Proof.
    intros j Hj. apply rest_in in Hj. destruct (frequencies_spec N M D w0 comp EF) as (LCo & _).
    unfold freq_at. destruct (Nat.eqb_spec j i); [lia|]. destruct (Nat.ltb_spec j i).
    - exists j. split; [|reflexivity]. apply nth_error_nth'. lia.
    - exists (j - 1). split; [|reflexivity]. apply nth_error_nth'. lia.
  Qed.

  Lemma block_facts : 1 <= w0 /\ 2 * (M * w0) < N /\ (forall x, In x (wv i) -> exists k, 1 <= k <= M /\ freq x = k * w0) /\
    NoDup (map freq (wv i)) /\ (forall x, In x (flat_map wv (rest D i)) -> 1 <= freq x <= w0 / 2).
  Proof.
    destruct (frequencies_spec N M D w0 comp EF) as (LCo & B1 & B2 & m & M1 & M2 & M3 & HC & _).
    assert (W1 : 1 <= w0) by nia. split; [assumption|]. split; [nia|].
    assert (Fi : freq_at w0 comp i i = w0) by (unfold freq_at; rewrite Nat.eqb_refl; reflexivity).
    split; [|split].
    - intros x Hx. unfold wv in Hx. rewrite Fi in Hx. destruct (waves_in _ _ _ _ Hx) as (k & K & F). exists k. split; [|assumption]. pose proof (coefs_nth i). lia.
    - unfold wv. rewrite Fi. apply waves_nodup. assumption.
    - intros x Hx. apply in_flat_map in Hx. destruct Hx as (j & Hj & Hx). destruct (freq_rest j Hj) as (t & E & _).
      destruct (HC _ (nth_error_In _ _ E)) as [C1 C2]. unfold wv in Hx. destruct (waves_in _ _ _ _ Hx) as (k & K & F). pose proof (coefs_nth j). rewrite F.
      split; [nia|]. apply Nat.le_trans with (M * freq_at w0 comp i j); [|assumption]. apply Nat.mul_le_mono_r. lia.
  Qed.

  Lemma block_orders : forall S1 ST, orders_ok (map f block) M S1 ST ->
    let v := series_variance (nth i coefs []) in
    let W := var (map (fun row => f row - cosine_series (nth i b (0, 0)) (nth i coefs []) (nth i row 0))%R block) in
    (v + W = 0 /\ S1 = None /\ ST = None)%R \/ (v + W <> 0 /\ S1 = Some (v / (v + W)) /\ ST = Some (v / (v + W)))%R.
  Proof.
    intros S1 ST O v W. rewrite block_outputs in O. destruct block_facts as (W1 & W2 & F1 & F2 & F3).
    pose proof (orders_split N M w0 c (wv i) (flat_map wv (rest D i)) N_big HM W1 W2 F1 F2 F3 S1 ST w0_is O) as R. cbv zeta in R.
    replace (Rsum (map (fun l => (amp l ^ 2)%R) (wv i)) / 2)%R with v in R by (unfold v, series_variance, wv; rewrite waves_amp; reflexivity).
    rewrite (var_const N c (Rsum (map cst (rest D i)))) in R.
    - rewrite <- rest_outputs in R. exact R.
    - apply N_big.
    - exact (r_legal N M w0 _ N_big HM W1 W2 F3).
  Qed.

  Lemma block_rest : forall K, K <= M -> Forall (fun a => length a <= K + 1) coefs -> separate K comp ->
    var (map (fun row => f row - cosine_series (nth i b (0, 0)) (nth i coefs []) (nth i row 0))%R block)
    = Rsum (map (fun j => series_variance (nth j coefs [])) (rest D i)).
  Proof.
    intros K HKM HKc Sep. rewrite rest_outputs. destruct block_facts as (W1 & W2 & F1 & F2 & F3).
    destruct (frequencies_spec N M D w0 comp EF) as (LCo & B1 & B2 & m & M1 & M2 & M3 & HC & _).
    rewrite (rest_var N M w0 _ (flat_map wv (rest D i)) N_big HM W1 W2 F3).
    - rewrite Rsum_flat_map. unfold Rdiv. rewrite Rmult_comm, <- Rsum_map_scal. apply Rsum_ext. intros j _. unfold wv. rewrite waves_amp. unfold series_variance. field.
    - rewrite map_flat_map. apply flat_nodup.
      + apply rest_nodup. assumption.
      + intros j Hj. destruct (freq_rest j Hj) as (t & E & _). destruct (HC _ (nth_error_In _ _ E)) as [C1 _]. apply waves_nodup. lia.
      + intros j j' q Hj Hj' Ne Q Q'. destruct (freq_rest j Hj) as (t & E & Et). destruct (freq_rest j' Hj') as (t' & E' & Et').
        assert (LK : forall s, length (nth s coefs []) <= K + 1).
        { intros s. destruct (nth_in_or_default s coefs []) as [I|Z]; [|rewrite Z; simpl; lia]. rewrite Forall_forall in HKc. apply HKc. assumption. }
        apply in_map_iff in Q. destruct Q as (x & Ex & Hx). apply in_map_iff in Q'. destruct Q' as (x' & Ex' & Hx').
        destruct (waves_in _ _ _ _ Hx) as (k & Kk & F). destruct (waves_in _ _ _ _ Hx') as (k' & Kk' & F').
        pose proof (LK j). pose proof (LK j').
        apply (Sep t t' _ _ k k') with (2 := E) (3 := E'); try lia.
        apply rest_in in Hj. apply rest_in in Hj'. destruct (Nat.ltb_spec j i), (Nat.ltb_spec j' i); lia.
  Qed.
End Block.

Lemma variances_split : forall (coefs : list (list R)) i, i < length coefs ->
  Rsum (map series_variance coefs) = (series_variance (nth i coefs []) + Rsum (map (fun j => series_variance (nth j coefs [])) (rest (length coefs) i)))%R.
Proof.
  intros coefs i Hi. rewrite (sum_list_map _ [] series_variance coefs). unfold sum.
  rewrite (Rsum_perm _ _ (Permutation_map _ (rest_perm (length coefs) i Hi))). reflexivity.
Qed.
