(** * Morris: the local strategy with approximate distances and scores. *)
From Coq Require Import Reals String List Arith ZArith Bool Lia Lra Psatz Permutation Sorted.
From Flocq Require Import Core.
From Verif Require Import Base Arrays ListFacts ModelGroups ModelScale ProofsScale Stats Sums SpecGroups SpecSobol SpecFF
  ProofsGroups ModelMorris SpecMorris ModelDouble ModelDouble4 ModelSingle SpecSingle ModelLocalSingle
  ProofsSingle ProofsSingle2 ProofsSingle3 ProofsMorris1 ProofsMorris3 ProofsMorris4 ProofsMorris5 ProofsMorris9 ProofsLocal.
Import ListNotations.
Local Open Scope nat_scope.

Section Approx.
Variable argsort : list R -> list nat.
Hypothesis AS : valid_argsort argsort.
Variable X : list (list R).
Variables g N D k : nat.
Hypothesis HX : trajectories_of N (g + 1) D X.
Hypothesis Hk : 2 <= k < N.
Variable score : list R -> R.
Variable M : list (list R).
Variable q : R.
Hypothesis Hq : (0 <= q <= 1)%R.
Hypothesis HM : length M = N.
Hypothesis Hsq : forall r, In r M -> length r = length M.
Hypothesis Hat : forall a b, a < N -> b < N -> within q (dd X g a b) (dm_at M a b).
Hypothesis Hscore : forall c, 2 <= length c <= k -> (forall x, In x c -> x < N) ->
  exists v, sum_distances score M c = Ok v /\ within q (sqrt (sq X g c)) v.

Notation d := (dd X g).
Notation s2 := (sq X g).

Lemma best_near : forall l, l <> [] -> (forall c, In c l -> 2 <= length c <= k /\ forall x, In x c -> x < N) ->
  exists ds c, mapM (sum_distances score M) l = Ok ds /\ get_max_sum_ind argsort l ds = Ok c /\ In c l /\
    forall c', In c' l -> (q ^ 4 * s2 c' <= s2 c)%R.
Proof.
  intros l Hl H.
  destruct (proj2 (mapM_Ok_iff (sum_distances score M) l)) as [ds E].
  { intros c Hc. destruct (H c Hc) as [L R]. destruct (Hscore c L R) as (v & Ev & _). eauto. }
  pose proof (mapM_Ok_length _ _ E) as HL.
  destruct (argsort_max argsort AS ds) as (i & Ei & Hi & Hm).
  { intros ->. destruct l; [congruence|discriminate]. }
  destruct (nth_error_lt_Some l (i:=i)) as [c Hc]; [lia|].
  exists ds, c. split; auto. split; [|split].
  - unfold get_max_sum_ind. rewrite HL, Nat.eqb_refl. cbn [negb]. rewrite Ei. unfold get. rewrite Hc. auto.
  - eapply nth_error_In; eauto.
  - intros c' Hc'. assert (Hin : In c l) by (eapply nth_error_In; eauto). pose proof Hc' as Hin'.
    apply in_nth_error in Hc'. destruct Hc' as [j Hj].
    assert (Q : forall p w, nth_error l p = Some w -> within q (sqrt (s2 w)) (nth p ds 0%R)).
    { intros p w Hp. destruct (mapM_Ok_nth _ _ p E Hp) as (y & Hy & Hn).
      destruct (H w) as [L R]; [eapply nth_error_In; eauto|]. destruct (Hscore w L R) as (v & Ev & W).
      rewrite Ev in Hy. injection Hy as <-. rewrite (nth_error_nth _ _ _ Hn). auto. }
    assert (Hjl : j < length ds) by (rewrite HL; eapply nth_error_Some_lt; eauto).
    specialize (Hm j Hjl). destruct (Q _ _ Hj) as [W1 _]. destruct (Q _ _ Hc) as [_ W2].
    assert (T : (q ^ 2 * sqrt (s2 c') <= sqrt (s2 c))%R).
    { apply Rle_trans with (q * nth i ds 0)%R; auto. replace (q ^ 2 * sqrt (s2 c'))%R with (q * (q * sqrt (s2 c')))%R by ring.
      apply Rmult_le_compat_l; lra. }
    pose proof (sqrt_pos (s2 c')) as P1. pose proof (sq_nonneg' X g c) as N1. pose proof (sq_nonneg' X g c') as N2.
    pose proof (sqrt_sqrt _ N1) as S1. pose proof (sqrt_sqrt _ N2) as S2.
    assert (T2 : (0 <= q ^ 2 * sqrt (s2 c'))%R) by (apply Rmult_le_pos; [apply pow_le; lra|auto]).
    rewrite <- S1, <- S2. replace (q ^ 4 * (sqrt (s2 c') * sqrt (s2 c')))%R with ((q ^ 2 * sqrt (s2 c')) * (q ^ 2 * sqrt (s2 c')))%R by ring.
    apply Rmult_le_compat; auto.
Qed.

Notation r := (q ^ 4)%R.
Lemma r_01 : (0 <= r <= 1)%R.
Proof. split; [apply pow_le; lra|]. rewrite <- (pow1 4). apply pow_incr. lra. Qed.

(** A chain grown from a pair. *)
Definition nearly (m : R) (len : nat) (c : list nat) : Prop :=
  length c = len /\ (forall x, In x c -> x < N) /\ (r ^ (len - 2) * (INR len * m ^ 2) <= 2 * s2 c)%R /\
  exists a b t, c = a :: b :: t /\ d a b = m.

Lemma candidate : forall m len c c', 2 <= len -> nearly m len c -> In c' (add_indices N c) ->
  length c' = S len /\ (forall x, In x c' -> x < N) /\ (r ^ (len - 2) * (INR (S len) * m ^ 2) <= 2 * s2 c')%R /\
  exists a b t, c' = a :: b :: t /\ d a b = m.
Proof.
  intros m len c c' L2 (L & H & Hs & a & b & t & E & Hab) Hin. unfold add_indices in Hin. apply in_flat_map in Hin.
  destruct Hin as (i & Hi & Hc). apply in_seq in Hi. destruct (existsb (Nat.eqb i) c); [destruct Hc|].
  destruct Hc as [<-|[]]. split; [rewrite app_length; simpl; lia|]. split.
  { intros x Hx. apply in_app_iff in Hx. destruct Hx as [Hx|[<-|[]]]; auto. lia. }
  split.
  - rewrite sq_snoc, S_INR.
    assert (Q : (m ^ 2 <= 2 * Rsum (map (fun y => d y i ^ 2) c))%R).
    { rewrite E. cbn [map]. rewrite !Rsum_cons. pose proof (row_nonneg X g i t) as Hr.
      assert (T : (m <= d a i + d b i)%R).
      { rewrite <- Hab, (dd_sym X g b i). apply (dd_triangle X g N D HX); try lia; apply H; rewrite E; simpl; auto. }
      assert (0 <= m)%R by (rewrite <- Hab; apply dd_nonneg).
      pose proof (dd_nonneg X g a i). pose proof (dd_nonneg X g b i).
      assert (m ^ 2 <= (d a i + d b i) ^ 2)%R by (apply pow_incr; auto).
      pose proof (sq_nonneg (d a i - d b i)). nra. }
    assert (P : (0 <= r ^ (len - 2) <= 1)%R).
    { split; [apply pow_le, r_01|]. rewrite <- (pow1 (len - 2)). apply pow_incr, r_01. }
    pose proof (sq_nonneg m). nra.
  - exists a, b, (t ++ [i]). rewrite E. auto.
Qed.

Lemma nearly_chain : forall m fuel c len, 2 <= len -> len + fuel <= k -> nearly m len c ->
  exists c', extend_set score argsort M fuel c = Ok c' /\ nearly m (len + fuel) c'.
Proof.
  intros m. induction fuel; intros c len H2 Hl Hc.
  - exists c. rewrite Nat.add_0_r. auto.
  - cbn [extend_set]. rewrite HM.
    assert (Hcand : forall c', In c' (add_indices N c) -> 2 <= length c' <= k /\ forall x, In x c' -> x < N).
    { intros c' Hc'. destruct (candidate _ _ _ _ H2 Hc Hc') as (-> & H & _). split; [lia|auto]. }
    destruct (best_near (add_indices N c)) as (ds & b & E1 & E2 & Hb & _); auto.
    + apply add_indices_nonempty. destruct Hc as [-> _]. lia.
    + rewrite E1. cbn [bind]. rewrite E2. cbn [bind].
      destruct (candidate _ _ _ _ H2 Hc Hb) as (L & H & Hs & Hpair).
      destruct (IHfuel b (S len)) as (c' & E & G); [lia|lia| |].
      * split; auto. split; auto. split; auto.
        eapply Rle_trans; [|exact Hs]. apply Rmult_le_compat_r.
        { apply Rmult_le_pos; [apply pos_INR|apply sq_nonneg]. }
        replace (S len - 2) with (S (len - 2)) by lia. cbn [pow].
        assert (P : (0 <= r ^ (len - 2))%R) by apply pow_le, r_01.
        apply Rle_trans with (1 * r ^ (len - 2))%R; [apply Rmult_le_compat_r; auto; apply r_01|rewrite Rmult_1_l; apply Rle_refl].
      * exists c'. split; auto. replace (len + S fuel) with (S len + fuel) by lia. auto.
Qed.

Lemma nearly_first : exists m c, (forall a b, a < N -> b < N -> (r * d a b <= m)%R) /\ (0 <= m)%R /\
  local_round score argsort M k 1 = Ok c /\ nearly m k c.
Proof.
  unfold local_round. rewrite HM.
  assert (Hrow : forall n, n < N -> exists t, last_n 1 (argsort (nth n M [])) = [t] /\ t < N /\
    forall y, y < N -> (q ^ 2 * d n y <= d n t)%R).
  { intros n Hn.
    assert (Hl : length (nth n M []) = N).
    { rewrite <- HM. apply Hsq. apply nth_In. rewrite HM. auto. }
    destruct (argsort_max argsort AS (nth n M [])) as (t & E & Ht & Hm).
    { intros Z. rewrite Z in Hl. simpl in Hl. lia. }
    rewrite Hl in Ht, Hm. exists t. split; auto. split; auto. intros y Hy.
    destruct (Hat n y Hn Hy) as [W1 _]. destruct (Hat n t Hn Ht) as [_ W2]. specialize (Hm y Hy).
    change (nth y (nth n M []) 0 <= nth t (nth n M []) 0)%R with (dm_at M n y <= dm_at M n t)%R in Hm.
    apply Rle_trans with (q * dm_at M n t)%R; auto. replace (q ^ 2 * d n y)%R with (q * (q * d n y))%R by ring.
    apply Rmult_le_compat_l; lra. }
  set (cand := map _ (seq 0 N)).
  assert (Hc : forall c, In c cand -> exists n t, c = [t; n] /\ n < N /\ t < N).
  { intros c Hc. apply in_map_iff in Hc. destruct Hc as (n & <- & Hn). apply in_seq in Hn.
    destruct (Hrow n) as (t & -> & Ht & Hm); [lia|]. exists n, t. repeat split; auto. lia. }
  assert (Hsq2 : forall a b, s2 [a; b] = (d a b ^ 2)%R) by (intros; unfold sq; simpl; ring).
  destruct (best_near cand) as (ds & best & E1 & E2 & Hb & Hm).
  - intros Z. apply (f_equal (@length _)) in Z. unfold cand in Z. rewrite map_length, seq_length in Z. simpl in Z. lia.
  - intros c Hcc. destruct (Hc c Hcc) as (n & t & -> & Hn & Ht). split; [simpl; lia|].
    intros x [<-|[<-|[]]]; auto.
  - destruct (Hc _ Hb) as (n & t & E & Hn & Ht). subst best.
    assert (Hmax : forall a b, a < N -> b < N -> (r * d a b <= d t n)%R).
    { intros a b Ha Hb'. destruct (Hrow a Ha) as (ta & Ea & Hta & Hma). specialize (Hma b Hb').
      assert (Hin : In [ta; a] cand).
      { apply in_map_iff. exists a. rewrite Ea. split; auto. apply in_seq. lia. }
      specialize (Hm _ Hin). rewrite !Hsq2, (dd_sym X g ta a) in Hm.
      assert (T : (q ^ 2 * d a ta <= d t n)%R).
      { apply Rsqr_incr_0; [|apply Rmult_le_pos; [apply pow_le; lra|apply dd_nonneg]|apply dd_nonneg].
        unfold Rsqr. replace (q ^ 2 * d a ta * (q ^ 2 * d a ta))%R with (q ^ 4 * d a ta ^ 2)%R by ring.
        replace (d t n * d t n)%R with (d t n ^ 2)%R by ring. auto. }
      apply Rle_trans with (q ^ 2 * d a ta)%R; auto. replace (r * d a b)%R with (q ^ 2 * (q ^ 2 * d a b))%R by ring.
      apply Rmult_le_compat_l; auto. apply pow_le. lra. }
    rewrite E1. cbn [bind]. rewrite E2. cbn [bind].
    destruct (nearly_chain (d t n) (k - 1 - 1) [t; n] 2) as (c & E & G); [lia|lia| |].
    { split; auto. split; [intros x [<-|[<-|[]]]; auto|]. split; [rewrite Hsq2; simpl; lra|].
      exists t, n, []. auto. }
    exists (d t n), c. split; auto. split; [apply dd_nonneg|]. split; auto. replace k with (2 + (k - 1 - 1)) by lia. auto.
Qed.

Lemma sq_scaled : forall w m c, (0 <= w)%R -> (forall a b, In a c -> In b c -> (w * d a b <= m)%R) -> (0 <= m)%R ->
  (w ^ 2 * (2 * s2 c) <= INR (length c) * (INR (length c) - 1) * m ^ 2)%R.
Proof.
  intros w m c Hw. induction c as [|x c IH]; intros H Hm.
  - unfold sq. simpl. lra.
  - rewrite sq_cons. cbn [length]. rewrite S_INR.
    assert (I : (w ^ 2 * (2 * s2 c) <= INR (length c) * (INR (length c) - 1) * m ^ 2)%R)
      by (apply IH; auto; intros; apply H; simpl; auto).
    assert (Q : (w ^ 2 * Rsum (map (fun y => d x y ^ 2) c) <= INR (length c) * m ^ 2)%R).
    { rewrite <- Rsum_scal_map, <- Rsum_const. apply Rsum_le. intros y Hy. rewrite <- Rpow_mult_distr. apply pow_incr.
      split; [apply Rmult_le_pos; auto; apply dd_nonneg|]. apply H; simpl; auto. }
    replace ((INR (length c) + 1) * (INR (length c) + 1 - 1) * m ^ 2)%R
      with (2 * (INR (length c) * m ^ 2) + INR (length c) * (INR (length c) - 1) * m ^ 2)%R by ring. lra.
Qed.

Lemma search_near : exists c, local_search score argsort M k = Ok c /\ length c = k /\ (forall x, In x c -> x < N) /\
  forall c', selection N k c' -> (r ^ (k + 1) * s2 c' <= INR (k - 1) * s2 c)%R.
Proof.
  destruct nearly_first as (m & c1 & Hm & Hm0 & E1 & L1 & H1 & Hs1 & _).
  unfold local_search.
  assert (Hround : forall i, 1 <= i < k -> exists c, local_round score argsort M k i = Ok c /\ good False N k c).
  { intros i Hi. rewrite <- HM. apply local_round_ok; auto; try tauto. rewrite HM. lia. }
  destruct (proj2 (mapM_Ok_iff (local_round score argsort M k) (seq 1 (k - 1)))) as [tot Et].
  { intros i Hi. apply in_seq in Hi. destruct (Hround i) as (c & E & _); [lia|eauto]. }
  rewrite Et. cbn [bind].
  assert (Hlen : length tot = k - 1) by (rewrite (mapM_Ok_length _ _ Et), seq_length; auto).
  assert (Hg : forall c, In c tot -> good False N k c).
  { intros c Hc. apply in_nth_error in Hc. destruct Hc as [t Ht].
    assert (Htl : t < k - 1) by (rewrite <- Hlen; eapply nth_error_Some_lt; eauto).
    assert (Hs : nth_error (seq 1 (k - 1)) t = Some (1 + t)).
    { rewrite nth_error_seq. apply Nat.ltb_lt in Htl. rewrite Htl. auto. }
    destruct (mapM_Ok_nth _ _ t Et (x:=1 + t) Hs) as (y & Hy & Hn).
    rewrite Ht in Hn. injection Hn as <-. destruct (Hround (1 + t)) as (c' & E & G); [lia|].
    rewrite E in Hy. injection Hy as <-. auto. }
  assert (Hin1 : In c1 tot).
  { assert (Hs : nth_error (seq 1 (k - 1)) 0 = Some 1).
    { rewrite nth_error_seq. destruct (Nat.ltb_spec 0 (k - 1)); auto. lia. }
    destruct (mapM_Ok_nth _ _ 0 Et (x:=1) Hs) as (y & Hy & Hn). rewrite E1 in Hy. injection Hy as <-.
    eapply nth_error_In; eauto. }
  destruct (best_near tot) as (ds & b & E2 & E3 & Hb & Hbest).
  - intros ->. destruct Hin1.
  - intros c Hc. destruct (Hg c Hc) as (-> & H & _). split; [lia|auto].
  - rewrite E2. cbn [bind]. rewrite E3. cbn [bind]. exists (sorted b). split; auto.
    destruct (Hg b Hb) as (Lb & Rb & _).
    split; [rewrite (Permutation_length (sorted_perm b)); auto|].
    split; [intros x Hx; apply Rb; apply (Permutation_in _ (sorted_perm b)); auto|].
    intros c' (L' & H' & _). rewrite (sq_perm _ _ _ _ (sorted_perm b)).
    specialize (Hbest c1 Hin1). pose proof r_01 as R01.
    pose proof (sq_scaled r m c' (proj1 R01) (fun a b Ha Hb => Hm a b (H' a Ha) (H' b Hb)) Hm0) as Hu. rewrite L' in Hu.
    rewrite minus_INR by lia. simpl (INR 1).
    assert (K1 : (1 <= INR k)%R) by (apply (le_INR 1); lia).
    assert (P : (0 <= r ^ (k - 1))%R) by apply pow_le, R01.
    assert (B : (r ^ (k - 1) * (INR k * m ^ 2) <= 2 * s2 b)%R).
    { replace (k - 1) with (S (k - 2)) by lia. cbn [pow]. apply Rle_trans with (r * (2 * s2 c1))%R.
      - rewrite Rmult_assoc. apply Rmult_le_compat_l; [lra|auto].
      - replace (r * (2 * s2 c1))%R with (2 * (r * s2 c1))%R by ring. lra. }
    replace (k + 1) with (2 + (k - 1)) by lia. rewrite pow_add.
    apply Rmult_le_reg_l with 2%R; [lra|].
    replace (2 * (r ^ 2 * r ^ (k - 1) * s2 c'))%R with (r ^ (k - 1) * (r ^ 2 * (2 * s2 c')))%R by ring.
    apply Rle_trans with (r ^ (k - 1) * (INR k * (INR k - 1) * m ^ 2))%R; [apply Rmult_le_compat_l; auto|].
    replace (r ^ (k - 1) * (INR k * (INR k - 1) * m ^ 2))%R with ((INR k - 1) * (r ^ (k - 1) * (INR k * m ^ 2)))%R by ring.
    replace (2 * ((INR k - 1) * s2 b))%R with ((INR k - 1) * (2 * s2 b))%R by ring.
    apply Rmult_le_compat_l; auto. lra.
Qed.
End Approx.
