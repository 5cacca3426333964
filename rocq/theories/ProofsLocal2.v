(** * Morris, local strategy: pairs, and what fails for triples. *)
From Coq Require Import Reals String List Arith ZArith Bool Lia Lra Psatz Permutation Sorted.
From Verif Require Import Base Arrays ListFacts ModelGroups ModelScale ProofsScale Stats Sums SpecGroups SpecSobol SpecFF
  ProofsGroups ModelMorris SpecMorris ProofsMorris1 ProofsMorris3 ProofsMorris4 ProofsMorris5 ProofsMorris9 ProofsLocal.
Import ListNotations.
Local Open Scope nat_scope.

(** ** Two trajectories: both scores select the same pair *)
Lemma pair_scores : forall M a b, (forall a b, 0 <= dm_at M a b)%R ->
  sum_distances root_sum_squares M [a; b] = sum_distances Rsum M [a; b].
Proof.
  intros M a b H. unfold sum_distances. cbn [combinations map app nth]. f_equal.
  unfold root_sum_squares, Rsum. cbn [map fold_right]. rewrite !Rplus_0_r.
  rewrite <- Rsqr_pow2. apply sqrt_Rsqr. auto.
Qed.

Lemma mapM_ext_in : forall A B (f h : A -> result B) l, (forall x, In x l -> f x = h x) -> mapM f l = mapM h l.
Proof.
  induction l; intros H; auto. cbn [mapM]. rewrite (H a) by (simpl; auto). rewrite IHl by (intros; apply H; simpl; auto).
  auto.
Qed.

Theorem pair_same : forall rnd argsort X g N D, valid_argsort argsort -> (forall x, 0 <= x -> 0 <= rnd x)%R ->
  trajectories_of N (g + 1) D X -> 2 < N ->
  local_optimisation rnd root_sum_squares argsort X g N 2 = local_optimisation rnd Rsum argsort X g N 2.
Proof.
  intros rnd argsort X g N D HA Hr HX HN. unfold local_optimisation. rewrite (check_input_ok X g N D HX) by lia. cbn [bind].
  set (M := distance_matrix rnd X g N true).
  assert (HM : length M = N) by apply tab_length.
  assert (Hd : forall a b, (0 <= dm_at M a b)%R).
  { intros a b. destruct (Nat.lt_ge_cases a N) as [Ha|Ha].
    - destruct (Nat.lt_ge_cases b N) as [Hb|Hb].
      + unfold M, distance_matrix. rewrite dm_at_tab by auto.
        assert (Q : forall m l, (0 <= compute_distance rnd m l)%R).
        { intros m l. unfold compute_distance. destruct (list_all2 _ m l); [lra|]. apply Hr. apply cross_nonneg. }
        destruct (b <? a); auto. destruct ((a <? b) && true); auto. lra.
      + unfold dm_at. rewrite nth_overflow; [lra|].
        rewrite (distance_matrix_square rnd X g N true); fold M; [lia|]. apply nth_In. lia.
    - unfold dm_at. rewrite (nth_overflow M) by lia. destruct b; simpl; lra. }
  assert (Hsame : forall l, (forall c, In c l -> length c = 2) ->
    mapM (sum_distances root_sum_squares M) l = mapM (sum_distances Rsum M) l).
  { intros l Hl. apply mapM_ext_in. intros c Hc. specialize (Hl c Hc).
    destruct c as [|a [|b [|]]]; try discriminate. apply pair_scores; auto. }
  assert (Hrow : forall n, n < N -> exists t, last_n 1 (argsort (nth n M [])) = [t]).
  { intros n Hn. destruct (argsort_last argsort HA (nth n M [])) as (t & E & _); eauto.
    intros Z. assert (Q : length (nth n M []) = length M) by (apply distance_matrix_square; apply nth_In; fold M; lia).
    rewrite Z in Q. simpl in Q. lia. }
  assert (Hround : local_round root_sum_squares argsort M 2 1 = local_round Rsum argsort M 2 1).
  { unfold local_round. rewrite Hsame; auto. intros c Hc. apply in_map_iff in Hc. destruct Hc as (n & <- & Hn).
    apply in_seq in Hn. destruct (Hrow n) as [t ->]; [lia|]. auto. }
  unfold local_search. change (seq 1 (2 - 1)) with [1]. cbn [mapM]. rewrite Hround.
  destruct (local_round Rsum argsort M 2 1) as [c|] eqn:E; auto. cbn [bind]. rewrite Hsame; auto.
  intros c' [<-|[]].
  destruct (local_round_ok Rsum argsort HA False M 2 1) as (c' & E' & L & _).
  - apply distance_matrix_square.
  - intros [].
  - lia.
  - lia.
  - congruence.
Qed.

Theorem pair_optimal : forall argsort X g N D, valid_argsort argsort -> trajectories_of N (g + 1) D X -> 2 < N ->
  exists c s, local_optimisation (fun x => x) root_sum_squares argsort X g N 2 = Ok c /\
    is_spread (fun x => x) root_sum_squares X (g + 1) c s /\
    forall c' s', selection N 2 c' -> is_spread (fun x => x) root_sum_squares X (g + 1) c' s' -> (s' <= s)%R.
Proof.
  intros argsort X g N D HA HX HN.
  destruct (local_ratio argsort X g N 2 D HA HX) as (c & s & E & Hs & H); [lia|].
  exists c, s. split; auto. split; auto. intros c' s' Hc' Hs'. specialize (H c' s' Hc' Hs').
  simpl in H. rewrite sqrt_1 in H. lra.
Qed.

(** ** Three trajectories, for a score that is a function [f] of the set *)
Lemma last_n_max : forall argsort l i y z, valid_argsort argsort -> In y (last_n i (argsort l)) ->
  ~ In z (last_n i (argsort l)) -> z < length l -> (nth z l 0 <= nth y l 0)%R.
Proof.
  intros argsort l i y z AS Hy Hz Hl. destruct (AS l) as [HP HS]. unfold last_n in *.
  set (n := length (argsort l) - i) in *.
  assert (Hin : In z (argsort l)) by (apply (Permutation_in _ (Permutation_sym HP)); apply in_seq; lia).
  rewrite <- (firstn_skipn n (argsort l)) in Hin. apply in_app_iff in Hin. destruct Hin as [Hin|Hin]; [|tauto].
  apply in_nth_error in Hin. destruct Hin as [p Hp]. apply in_nth_error in Hy. destruct Hy as [q Hq].
  pose proof (nth_error_Some_lt _ _ Hp) as Hpl. rewrite firstn_length in Hpl.
  apply (HS p (length (firstn n (argsort l)) + q)).
  - rewrite firstn_length. lia.
  - rewrite <- (firstn_skipn n (argsort l)). rewrite nth_error_app1; auto. rewrite firstn_length; lia.
  - rewrite <- (firstn_skipn n (argsort l)) at 1. rewrite nth_error_app2 by lia.
    rewrite Nat.add_comm, Nat.add_sub. auto.
Qed.

Section Three.
Variable argsort : list R -> list nat.
Hypothesis AS : valid_argsort argsort.
Variable X : list (list R).
Variables g N D : nat.
Hypothesis HX : trajectories_of N (g + 1) D X.
Hypothesis HN : 3 < N.
Variable score : list R -> R.
Variable f : list nat -> R.
Let M := distance_matrix (fun x => x) X g N true.
Hypothesis Hf : forall c, 2 <= length c -> (forall x, In x c -> x < N) -> sum_distances score M c = Ok (f c).
Hypothesis Hf2 : forall a b, f [a; b] = dd X g a b.

Lemma best_max_f : forall l, l <> [] -> (forall c, In c l -> 2 <= length c /\ forall x, In x c -> x < N) ->
  exists ds c, mapM (sum_distances score M) l = Ok ds /\ get_max_sum_ind argsort l ds = Ok c /\ In c l /\
    forall c', In c' l -> (f c' <= f c)%R.
Proof.
  intros l Hl H.
  assert (E : mapM (sum_distances score M) l = Ok (map f l)).
  { clear Hl. induction l as [|a l IH]; auto. cbn [mapM map]. destruct (H a (or_introl eq_refl)).
    rewrite Hf by auto. cbn [bind]. rewrite IH by (intros; apply H; simpl; auto). reflexivity. }
  exists (map f l).
  destruct (argsort_max argsort AS (map f l)) as (i & Ei & Hi & Hm).
  { destruct l; [congruence|discriminate]. }
  rewrite map_length in Hi, Hm. destruct (nth_error_lt_Some l (i:=i) Hi) as [c Hc].
  exists c. split; auto. split; [|split].
  - unfold get_max_sum_ind. rewrite map_length, Nat.eqb_refl. cbn [negb]. rewrite Ei. unfold get. rewrite Hc. auto.
  - eapply nth_error_In; eauto.
  - intros c' Hc'. apply in_nth_error in Hc'. destruct Hc' as [j Hj].
    assert (Q : forall p v, nth_error l p = Some v -> nth p (map f l) 0%R = f v).
    { intros p v Hp. apply nth_error_nth. rewrite nth_error_map', Hp. auto. }
    specialize (Hm j (nth_error_Some_lt _ _ Hj)). rewrite (Q _ _ Hj), (Q _ _ Hc) in Hm. auto.
Qed.

Lemma three : exists t n x b, t < N /\ n < N /\ x < N /\ x <> t /\ x <> n /\
  (forall a b, a < N -> b < N -> (dd X g a b <= dd X g t n)%R) /\
  (forall y, y < N -> y <> t -> y <> n -> (f [t; n; y] <= f [t; n; x])%R) /\
  local_search score argsort M 3 = Ok (sorted b) /\ length b = 3 /\ (forall y, In y b -> y < N) /\
  (f [t; n; x] <= f b)%R /\
  (b = [t; n; x] \/ exists n' p q, b = [p; q; n'] /\ n' < N /\ p <> q /\
     forall z, z < N -> z <> p -> z <> q -> (dd X g n' z <= dd X g n' p)%R /\ (dd X g n' z <= dd X g n' q)%R).
Proof.
  assert (HM : length M = N) by apply tab_length.
  assert (Hl : forall n, n < N -> length (nth n M []) = N).
  { intros n Hn. rewrite <- HM. apply distance_matrix_square. apply nth_In. fold M. lia. }
  (* the first round *)
  assert (R1 : exists t n x, t < N /\ n < N /\ x < N /\ x <> t /\ x <> n /\
    (forall a b, a < N -> b < N -> (dd X g a b <= dd X g t n)%R) /\
    (forall y, y < N -> y <> t -> y <> n -> (f [t; n; y] <= f [t; n; x])%R) /\
    local_round score argsort M 3 1 = Ok [t; n; x]).
  { unfold local_round. rewrite HM.
    assert (Hrow : forall n, n < N -> exists t, last_n 1 (argsort (nth n M [])) = [t] /\ t < N /\
      forall y, y < N -> (dd X g n y <= dd X g n t)%R).
    { intros n Hn. specialize (Hl n Hn). destruct (argsort_max argsort AS (nth n M [])) as (t & E & Ht & Hm).
      { intros Z. rewrite Z in Hl. simpl in Hl. lia. }
      rewrite Hl in Ht, Hm. exists t. split; auto. split; auto. intros y Hy.
      rewrite <- !(M_at X g N) by auto. apply Hm; auto. }
    set (cand := map _ (seq 0 N)).
    assert (Hc : forall c, In c cand -> exists n t, c = [t; n] /\ n < N /\ t < N).
    { intros c Hc. apply in_map_iff in Hc. destruct Hc as (n & <- & Hn). apply in_seq in Hn.
      destruct (Hrow n) as (t & -> & Ht & Hm); [lia|]. exists n, t. repeat split; auto. lia. }
    destruct (best_max_f cand) as (ds & best & E1 & E2 & Hb & Hm).
    - intros Z. apply (f_equal (@length _)) in Z. unfold cand in Z. rewrite map_length, seq_length in Z. simpl in Z. lia.
    - intros c Hcc. destruct (Hc c Hcc) as (n & t & -> & Hn & Ht). split; auto. intros x [<-|[<-|[]]]; auto.
    - destruct (Hc _ Hb) as (n & t & E & Hn & Ht). subst best.
      assert (Hmax : forall a b, a < N -> b < N -> (dd X g a b <= dd X g t n)%R).
      { intros a b Ha Hb'. destruct (Hrow a Ha) as (ta & Ea & Hta & Hma).
        eapply Rle_trans; [apply Hma; auto|].
        assert (Hin : In [ta; a] cand).
        { apply in_map_iff. exists a. rewrite Ea. split; auto. apply in_seq. lia. }
        specialize (Hm _ Hin). rewrite !Hf2, (dd_sym X g ta a) in Hm. auto. }
      rewrite E1. cbn [bind]. rewrite E2. cbn [bind]. cbn [Nat.sub extend_set]. rewrite HM.
      assert (Hadd : forall c, In c (add_indices N [t; n]) <-> exists y, c = [t; n; y] /\ y < N /\ y <> t /\ y <> n).
      { intros c. unfold add_indices. rewrite in_flat_map. split.
        - intros (y & Hy & Hcy). apply in_seq in Hy. destruct (existsb (Nat.eqb y) [t; n]) eqn:Ex; [destruct Hcy|].
          destruct Hcy as [<-|[]]. exists y. cbn [existsb] in Ex.
          apply orb_false_iff in Ex. destruct Ex as [X1 X2]. apply orb_false_iff in X2. destruct X2 as [X2 _].
          apply Nat.eqb_neq in X1, X2. repeat split; auto. lia.
        - intros (y & -> & Hy & H1 & H2). exists y. split; [apply in_seq; lia|].
          cbn [existsb]. apply Nat.eqb_neq in H1, H2. rewrite H1, H2. simpl. auto. }
      destruct (best_max_f (add_indices N [t; n])) as (ds' & b & E3 & E4 & Hb' & Hm').
      + apply add_indices_nonempty. simpl. lia.
      + intros c Hcc. apply Hadd in Hcc. destruct Hcc as (y & -> & Hy & _). split; [simpl; lia|].
        intros z [<-|[<-|[<-|[]]]]; auto.
      + rewrite E3. cbn [bind]. rewrite E4. cbn [bind]. apply Hadd in Hb'. destruct Hb' as (x & -> & Hx & X1 & X2).
        exists t, n, x. repeat split; auto. intros y Hy Y1 Y2. apply Hm'. apply Hadd. eauto. }
  (* the second round *)
  assert (R2 : exists b n' p q, local_round score argsort M 3 2 = Ok b /\ b = [p; q; n'] /\ n' < N /\ p < N /\ q < N /\ p <> q /\
     forall z, z < N -> z <> p -> z <> q -> (dd X g n' z <= dd X g n' p)%R /\ (dd X g n' z <= dd X g n' q)%R).
  { unfold local_round. rewrite HM. set (cand := map _ (seq 0 N)).
    assert (Hc : forall c, In c cand -> exists n' p q, c = [p; q; n'] /\ n' < N /\ p < N /\ q < N /\ p <> q /\
       forall z, z < N -> z <> p -> z <> q -> (dd X g n' z <= dd X g n' p)%R /\ (dd X g n' z <= dd X g n' q)%R).
    { intros c Hc. apply in_map_iff in Hc. destruct Hc as (n & <- & Hn). apply in_seq in Hn.
      destruct (AS (nth n M [])) as [HP _]. rewrite Hl in HP by lia.
      pose proof (Permutation_length HP) as HL. rewrite seq_length in HL.
      assert (L2 : length (last_n 2 (argsort (nth n M []))) = 2) by (unfold last_n; rewrite skipn_length; lia).
      destruct (last_n 2 (argsort (nth n M []))) as [|q [|p [|]]] eqn:El; try discriminate.
      assert (Hr : forall w, In w (last_n 2 (argsort (nth n M []))) -> w < N).
      { intros w Hw. unfold last_n in Hw. assert (In w (argsort (nth n M []))).
        { rewrite <- (firstn_skipn (length (argsort (nth n M [])) - 2)). apply in_app_iff. auto. }
        apply (Permutation_in _ HP) in H. apply in_seq in H. lia. }
      rewrite El in Hr. exists n, p, q. split; auto. split; [lia|]. split; [apply Hr; simpl; auto|].
      split; [apply Hr; simpl; auto|]. split.
      { intros ->. assert (ND : NoDup (argsort (nth n M []))).
        { apply (Permutation_NoDup (Permutation_sym HP)). apply seq_NoDup. }
        rewrite <- (firstn_skipn (length (argsort (nth n M [])) - 2)) in ND. fold (last_n 2 (argsort (nth n M []))) in ND.
        rewrite El in ND. assert (NDr : forall l1 l2 : list nat, NoDup (l1 ++ l2) -> NoDup l2).
        { induction l1; simpl; intros l2 Z; auto. inversion Z; auto. }
        apply NDr in ND. inversion ND as [|? ? Hq _]. apply Hq. simpl. auto. }
      intros z Hz Zp Zq.
      assert (Hnz : ~ In z (last_n 2 (argsort (nth n M [])))).
      { rewrite El. intros [<-|[<-|[]]]; auto. }
      rewrite <- !(M_at X g N) by (auto; try lia; apply Hr; simpl; auto).
      split; apply (last_n_max argsort (nth n M []) 2); auto; try (rewrite Hl; auto; lia); rewrite El; simpl; auto. }
    destruct (best_max_f cand) as (ds & best & E1 & E2 & Hb & Hm).
    - intros Z. apply (f_equal (@length _)) in Z. unfold cand in Z. rewrite map_length, seq_length in Z. simpl in Z. lia.
    - intros c Hcc. destruct (Hc c Hcc) as (n & p & q & -> & Hn & Hp & Hq & _ & _). split; [simpl; lia|].
      intros z [<-|[<-|[<-|[]]]]; auto.
    - rewrite E1. cbn [bind]. rewrite E2. cbn [bind Nat.sub extend_set].
      destruct (Hc _ Hb) as (n & p & q & E & H). exists best, n, p, q. split; auto. }
  destruct R1 as (t & n & x & Ht & Hn & Hx & X1 & X2 & Hmax & Hext & E1).
  destruct R2 as (b2 & n' & p & q & E2 & Eb & Hn' & Hp & Hq & Hpq & Hfar).
  unfold local_search. change (seq 1 (3 - 1)) with [1; 2]. cbn [mapM]. rewrite E1. cbn [bind]. rewrite E2. cbn [bind].
  destruct (best_max_f [[t; n; x]; b2]) as (ds & b & E3 & E4 & Hb & Hm).
  - discriminate.
  - intros c [<-|[<-|[]]]; (split; [try rewrite Eb; simpl; lia|]).
    + intros z [<-|[<-|[<-|[]]]]; auto.
    + rewrite Eb. intros z [<-|[<-|[<-|[]]]]; auto.
  - rewrite E3. cbn [bind]. rewrite E4. cbn [bind]. exists t, n, x, b.
    assert (Hbb : length b = 3 /\ forall y, In y b -> y < N).
    { destruct Hb as [<-|[<-|[]]]; (split; [try rewrite Eb; auto|]).
      - intros z [<-|[<-|[<-|[]]]]; auto.
      - rewrite Eb. intros z [<-|[<-|[<-|[]]]]; auto. }
    repeat split; auto; try apply Hbb.
    + apply Hm. simpl. auto.
    + destruct Hb as [<-|[<-|[]]]; auto. right. exists n', p, q. auto.
Qed.
End Three.
