(** * C85: what extended FAST computes of additive models. *)
From Coq Require Import Reals String List Arith ZArith Lia Lra.
From Verif Require Import Base Arrays ModelGroups ModelScale Stats SpecSobol ModelFast SpecFast SpecIntegral SpecFast2 ProofsIntegral ProofsFast4 ProofsFast5 ProofsFast6 ProofsFast7.
Import ListNotations.
Local Open Scope nat_scope.

Lemma proper_iff : forall b, proper_box b -> proper b.
Proof.
  intros b H. unfold proper. apply Forall_forall. intros [lo hi] I. destruct (In_nth_error _ _ I) as [i E]. apply (H i lo hi E).
Qed.

(** C85: sampled, evaluated and analysed, a sum of cosine series with at most M harmonics per parameter gets S1 = ST for
    every parameter; both are the parameter's own variance over itself plus the variance that the rest of the model shows
    along the parameter's block (nan when both vanish). *)
Theorem C85_additive : forall nq tq p b N M u coefs bnd draws,
  4 * M ^ 2 < N -> 1 <= M -> p_dists p = None -> 0 < length b -> p_num_vars p = length b -> p_bounds p = bounds_of b -> proper_box b ->
  length coefs = length b -> Forall (fun a => length a <= M + 1) coefs -> (forall i, i < length b -> good_draws N (draws i)) ->
  let f := cosine_model b coefs in
  exists p' m res, fast_sample nq tq p N M u = (p', Ok (InPlace m)) /\
    fast_analyze (length b) (map f (rows m)) M bnd draws = Ok res /\ length res = length b /\
    forall i r bi a, nth_error res i = Some r -> nth_error b i = Some bi -> nth_error coefs i = Some a ->
      exists v, first_effect b f i v /\ total_effect b f i v /\
        let W := var (map (fun row => f row - cosine_series bi a (nth i row 0))%R (block_of m N i)) in
        (v + W = 0 /\ f_S1 r = None /\ f_ST r = None)%R \/ (v + W <> 0 /\ f_S1 r = Some (v / (v + W)) /\ f_ST r = Some (v / (v + W)))%R.
Proof. intros. apply fast_additive; try assumption. apply proper_iff. assumption. Qed.
Print Assumptions C85_additive.

(** C85: when the complementary frequencies share none of the harmonics in use, S1 and ST are exactly the model's
    variance-based indices. *)
Theorem C85_exact : forall nq tq p b N M u coefs bnd draws K,
  4 * M ^ 2 < N -> 1 <= M -> p_dists p = None -> 0 < length b -> p_num_vars p = length b -> p_bounds p = bounds_of b -> proper_box b ->
  length coefs = length b -> K <= M -> Forall (fun a => length a <= K + 1) coefs -> (forall i, i < length b -> good_draws N (draws i)) ->
  (forall w0 comp, fast_frequencies N M (length b) = Ok (w0, comp) -> separate K comp) ->
  let f := cosine_model b coefs in
  exists p' m res V, fast_sample nq tq p N M u = (p', Ok (InPlace m)) /\
    fast_analyze (length b) (map f (rows m)) M bnd draws = Ok res /\ length res = length b /\ variance b f V /\
    forall i r, nth_error res i = Some r -> exists v, first_effect b f i v /\ total_effect b f i v /\
      ((V = 0 /\ f_S1 r = None /\ f_ST r = None) \/ (V <> 0 /\ f_S1 r = Some (v / V) /\ f_ST r = Some (v / V)))%R.
Proof.
  intros nq tq p b N M u coefs bnd draws K HN HM Hd HD EV EB P LC KM KC Hdr Sep. apply fast_exact with (K := K); try assumption; [apply proper_iff; assumption|].
  eapply Forall_impl; [|exact KC]. cbn beta. intros. lia.
Qed.
Print Assumptions C85_exact.

(** C85: for one harmonic per parameter, more than 4 M^2 (D-1) samples per block are enough. *)
Theorem C85_first_harmonic : forall nq tq p b N M u coefs bnd draws,
  4 * M ^ 2 < N -> 4 * M ^ 2 * (length b - 1) < N -> 1 <= M -> p_dists p = None -> 0 < length b -> p_num_vars p = length b -> p_bounds p = bounds_of b -> proper_box b ->
  length coefs = length b -> Forall (fun a => length a <= 2) coefs -> (forall i, i < length b -> good_draws N (draws i)) ->
  let f := cosine_model b coefs in
  exists p' m res V, fast_sample nq tq p N M u = (p', Ok (InPlace m)) /\
    fast_analyze (length b) (map f (rows m)) M bnd draws = Ok res /\ length res = length b /\ variance b f V /\
    forall i r, nth_error res i = Some r -> exists v, first_effect b f i v /\ total_effect b f i v /\
      ((V = 0 /\ f_S1 r = None /\ f_ST r = None) \/ (V <> 0 /\ f_S1 r = Some (v / V) /\ f_ST r = Some (v / V)))%R.
Proof.
  intros nq tq p b N M u coefs bnd draws HN HN2 HM Hd HD EV EB P LC KC Hdr. apply C85_exact with (K := 1); try assumption.
  intros w0 comp E. eapply enough_separate; eassumption.
Qed.
Print Assumptions C85_first_harmonic.

(** C85: with fewer, sampler and analyser still run, and there is a model of one harmonic per parameter in which a parameter
    with a third of the variance gets S1 = 1/5. *)
Theorem C85_few_samples_refuted : forall N M D, 4 * M ^ 2 < N -> 1 <= M -> N <= 4 * M ^ 2 * (D - 1) ->
  exists coefs i, length coefs = D /\ Forall (fun a => length a <= 2) coefs /\ i < D /\
    forall nq tq p b u bnd draws, p_dists p = None -> length b = D -> p_num_vars p = D -> p_bounds p = bounds_of b -> proper_box b ->
      (forall i, i < D -> good_draws N (draws i)) ->
    exists p' m res r, fast_sample nq tq p N M u = (p', Ok (InPlace m)) /\
      fast_analyze D (map (cosine_model b coefs) (rows m)) M bnd draws = Ok res /\ nth_error res i = Some r /\
      f_S1 r = Some (1 / 5)%R /\ variance b (cosine_model b coefs) (3 / 2)%R /\ first_effect b (cosine_model b coefs) i (1 / 2)%R.
Proof.
  intros N M D HN HM HF. destruct (few_samples N M D HN HM HF) as (coefs & i & A & B & C & H). exists coefs, i. repeat (split; [assumption|]).
  intros. apply H; try assumption. apply proper_iff. assumption.
Qed.
Print Assumptions C85_few_samples_refuted.

(** Nine samples per block do for three parameters with M = 1, five do not. *)
Example C85_example : 4 * 1 ^ 2 * (3 - 1) < 9 /\ 5 <= 4 * 1 ^ 2 * (3 - 1) /\ fast_frequencies 9 1 3 = Ok (4, [1; 2]) /\ fast_frequencies 5 1 3 = Ok (2, [1; 1]) /\
  proper_box [(0, 1); (0, 1); (-1, 1)]%R /\ separate 1 [1; 2] /\ good_draws 9 [[0; 1; 2; 3; 4]] /\
  (cosine_model [(0, 1); (-1, 1)] [[0; 1]; [3; 0; 2]] [0; 0] = 1 + (3 - 2))%R.
Proof.
  split; [apply Nat.ltb_lt; reflexivity|]. split; [apply Nat.leb_le; reflexivity|]. split; [reflexivity|]. split; [reflexivity|]. split.
  { intros [|[|[|i]]] lo hi H; cbn in H; try (injection H as <- <-; lra). destruct i; discriminate. }
  split.
  { intros s t v w h k Ne Hs Ht Hh Hk. assert (h = 1) by lia. assert (k = 1) by lia. subst.
    destruct s as [|[|s]], t as [|[|t]]; cbn in Hs, Ht; try congruence; try (destruct s; discriminate); try (destruct t; discriminate); injection Hs as <-; injection Ht as <-; lia. }
  split.
  { unfold good_draws. intros idx [<-|[]]. split; [reflexivity|]. simpl. intros i Hi. lia. }
  unfold cosine_model, cosine_series, Rsum. cbn [length seq map nth fold_right fst snd]. simpl INR.
  replace (0 * (PI * ((0 - 0) / (1 - 0))))%R with 0%R by field. replace (1 * (PI * ((0 - 0) / (1 - 0))))%R with 0%R by field.
  replace (0 * (PI * ((0 - -1) / (1 - -1))))%R with 0%R by field. replace ((1 + 1) * (PI * ((0 - -1) / (1 - -1))))%R with PI by field.
  rewrite cos_0, cos_PI. ring.
Qed.
