(** * Morris: how far the local strategy falls short of the best selection. *)
From Coq Require Import Reals String List Arith ZArith Bool Lia Lra Psatz Permutation Sorted.
From Verif Require Import Base Arrays ListFacts ModelGroups ModelScale ProofsScale Stats Sums SpecGroups SpecSobol SpecFF
  ProofsGroups ModelMorris SpecMorris ProofsMorris1 ProofsMorris3 ProofsMorris4 ProofsMorris5 ProofsMorris9.
Import ListNotations.
Local Open Scope nat_scope.

(** ** The Euclidean distance is a metric *)
Lemma minkowski2 : forall x y P Q, (0 <= x -> 0 <= y -> 0 <= P -> 0 <= Q ->
  sqrt ((x + y) ^ 2 + (P + Q) ^ 2) <= sqrt (x ^ 2 + P ^ 2) + sqrt (y ^ 2 + Q ^ 2))%R.
Proof.
  intros x y P Q Hx Hy HP HQ. set (s := sqrt (x ^ 2 + P ^ 2)). set (t := sqrt (y ^ 2 + Q ^ 2)).
  assert (Hs : (0 <= s)%R) by apply sqrt_pos. assert (Ht : (0 <= t)%R) by apply sqrt_pos.
  assert (Es : (s * s = x ^ 2 + P ^ 2)%R) by (apply sqrt_sqrt; nra).
  assert (Et : (t * t = y ^ 2 + Q ^ 2)%R) by (apply sqrt_sqrt; nra).
  assert (H : (x * y + P * Q <= s * t)%R).
  { apply Rsqr_incr_0_var; [|nra]. unfold Rsqr.
    replace (s * t * (s * t))%R with ((s * s) * (t * t))%R by ring. rewrite Es, Et.
    assert (0 <= (x * Q - P * y) ^ 2)%R by apply sq_nonneg. nra. }
  rewrite <- (sqrt_square (s + t)) by lra. apply sqrt_le_1_alt. nra.
Qed.

Lemma euclid_cons : forall a x b y, euclid (a :: x) (b :: y) = sqrt (Rabs (a - b) ^ 2 + euclid x y ^ 2).
Proof.
  intros. unfold euclid. f_equal. cbn [map2 fold_right].
  change (Rsum ((a - b) ^ 2 :: map2 (fun a b => (a - b) ^ 2) x y))%R
    with ((a - b) ^ 2 + Rsum (map2 (fun a b => (a - b) ^ 2) x y))%R.
  rewrite pow2_abs. f_equal. symmetry. apply pow2_sqrt.
  apply Rsum_nonneg. intros z Hz. rewrite map2_combine in Hz. apply in_map_iff in Hz.
  destruct Hz as (ab & <- & _). apply sq_nonneg.
Qed.

Lemma euclid_triangle : forall x y z, length x = length y -> length y = length z ->
  (euclid x z <= euclid x y + euclid y z)%R.
Proof.
  induction x as [|a x IH]; intros [|b y] [|c z] H1 H2; try discriminate.
  - pose proof (point_distance_nonneg [] []). lra.
  - rewrite !euclid_cons. eapply Rle_trans.
    2: { apply minkowski2; try apply Rabs_pos; apply point_distance_nonneg. }
    apply sqrt_le_1_alt. simpl in H1, H2. injection H1 as H1. injection H2 as H2.
    specialize (IH y z H1 H2). pose proof (point_distance_nonneg x z). pose proof (Rabs_pos (a - c)).
    assert (T : (Rabs (a - c) <= Rabs (a - b) + Rabs (b - c))%R).
    { replace (a - c)%R with ((a - b) + (b - c))%R by ring. apply Rabs_triang. }
    apply Rplus_le_compat; apply pow_incr; auto.
Qed.

Lemma euclid_sym : forall x y, euclid x y = euclid y x.
Proof.
  intros. unfold euclid. f_equal. f_equal. revert y. induction x; destruct y; simpl; auto.
  f_equal; [ring|auto].
Qed.

(** ** The distance of trajectories is a metric (up to equal trajectories) *)
Definition cross (A B : list (list R)) : R := Rsum (map (fun x => Rsum (map (fun y => euclid x y) B)) A).
Lemma cross_nonneg : forall A B, (0 <= cross A B)%R.
Proof.
  intros. apply Rsum_nonneg. intros z Hz. apply in_map_iff in Hz. destruct Hz as (x & <- & _).
  apply Rsum_nonneg. intros z Hz. apply in_map_iff in Hz. destruct Hz as (y & <- & _). apply point_distance_nonneg.
Qed.
Lemma Rsum_cons : forall x l, Rsum (x :: l) = (x + Rsum l)%R.
Proof. reflexivity. Qed.
Lemma Rsum_map_zero : forall A (l : list A), Rsum (map (fun _ => 0%R) l) = 0%R.
Proof. intros. rewrite Rsum_const. ring. Qed.
Lemma cross_swap : forall (f : list R -> list R -> R) A B,
  Rsum (map (fun x => Rsum (map (fun y => f x y) B)) A) = Rsum (map (fun y => Rsum (map (fun x => f x y) A)) B).
Proof.
  intros f A B. induction A as [|a A IH].
  - simpl. rewrite Rsum_map_zero. auto.
  - transitivity (Rsum (map (fun y => f a y + Rsum (map (fun x => f x y) A))%R B)); [|reflexivity].
    rewrite Rsum_map_plus, <- IH. reflexivity.
Qed.
Lemma cross_sym : forall A B, cross A B = cross B A.
Proof.
  intros. unfold cross. rewrite cross_swap. f_equal. apply map_ext. intros y. f_equal. apply map_ext. intros x.
  apply euclid_sym.
Qed.
Lemma Rsum_scal_map : forall A c (f : A -> R) l, Rsum (map (fun x => c * f x)%R l) = (c * Rsum (map f l))%R.
Proof. intros. rewrite <- Rsum_scal, map_map. reflexivity. Qed.

Lemma cross_triangle : forall D A B C, length A = length B -> length B = length C -> A <> [] ->
  Forall (fun r => length r = D) A -> Forall (fun r => length r = D) B -> Forall (fun r => length r = D) C ->
  (cross A C <= cross A B + cross B C)%R.
Proof.
  intros D A B C H1 H2 Hne HA HB HC. rewrite Forall_forall in HA, HB, HC.
  set (n := INR (length B)).
  assert (Hn : (0 < n)%R). { apply lt_0_INR. rewrite <- H1. destruct A; [congruence|simpl; lia]. }
  assert (P1 : forall x z, In x A -> In z C ->
    (n * euclid x z <= Rsum (map (fun y => euclid x y) B) + Rsum (map (fun y => euclid y z) B))%R).
  { intros x z Hx Hz. unfold n. rewrite <- Rsum_const, <- Rsum_map_plus. apply Rsum_le. intros y Hy.
    apply euclid_triangle; [rewrite HA, HB | rewrite HB, HC]; auto. }
  assert (P2 : forall x, In x A ->
    (n * Rsum (map (fun z => euclid x z) C) <= n * Rsum (map (fun y => euclid x y) B) + cross B C)%R).
  { intros x Hx. rewrite <- Rsum_scal_map. unfold cross. rewrite (cross_swap (fun y z => euclid y z) B C).
    unfold n at 2. rewrite H2, <- Rsum_const, <- Rsum_map_plus. apply Rsum_le. intros z Hz. apply P1; auto. }
  apply Rmult_le_reg_l with n; auto.
  unfold cross at 1. rewrite <- Rsum_scal_map. eapply Rle_trans; [apply Rsum_le, P2|].
  rewrite Rsum_map_plus with (f := fun x => (n * Rsum (map (fun y => euclid x y) B))%R).
  rewrite Rsum_scal_map, Rsum_const, H1. fold n. unfold cross. lra.
Qed.

Lemma list_eq_iff : forall m l : list (list R), list_all2 (list_all2 Reqb) m l = true <-> m = l.
Proof. apply list_all2_eq. apply list_all2_eq. intros. apply Reqb_true. Qed.

Definition apart (A B : list (list R)) : R := compute_distance (fun x => x) A B.
Lemma apart_cases : forall A B, (A = B /\ apart A B = 0%R) \/ (A <> B /\ apart A B = cross A B).
Proof.
  intros. unfold apart, compute_distance. pose proof (list_eq_iff A B) as E.
  destruct (list_all2 _ A B); [left | right]; split; auto.
  - apply E; auto.
  - intros H. apply E in H. discriminate.
Qed.
Lemma apart_nonneg : forall A B, (0 <= apart A B)%R.
Proof. intros. destruct (apart_cases A B) as [[_ ->]|[_ ->]]; [lra|apply cross_nonneg]. Qed.
Lemma apart_sym : forall A B, apart A B = apart B A.
Proof.
  intros. destruct (apart_cases A B) as [[E ->]|[E ->]], (apart_cases B A) as [[E' ->]|[E' ->]]; try congruence.
  apply cross_sym.
Qed.
Lemma apart_triangle : forall D A B C, length A = length B -> length B = length C -> A <> [] ->
  Forall (fun r => length r = D) A -> Forall (fun r => length r = D) B -> Forall (fun r => length r = D) C ->
  (apart A C <= apart A B + apart B C)%R.
Proof.
  intros D A B C H1 H2 Hne HA HB HC.
  destruct (apart_cases A C) as [[E ->]|[E ->]].
  - pose proof (apart_nonneg A B). pose proof (apart_nonneg B C). lra.
  - destruct (apart_cases A B) as [[E1 ->]|[E1 ->]], (apart_cases B C) as [[E2 ->]|[E2 ->]]; try congruence.
    + subst B. lra.
    + subst C. lra.
    + apply cross_triangle with D; auto.
Qed.

(** ** Scores *)
Section Ratio.
Variable argsort : list R -> list nat.
Hypothesis AS : valid_argsort argsort.
Variable X : list (list R).
Variables g N D : nat.
Hypothesis HX : trajectories_of N (g + 1) D X.

Definition dd (a b : nat) : R := apart (block X (g + 1) a) (block X (g + 1) b).
Lemma dd_nonneg : forall a b, (0 <= dd a b)%R. Proof. intros. apply apart_nonneg. Qed.
Lemma dd_sym : forall a b, dd a b = dd b a. Proof. intros. apply apart_sym. Qed.
Lemma dd_same : forall a, dd a a = 0%R.
Proof. intros. unfold dd. destruct (apart_cases (block X (g + 1) a) (block X (g + 1) a)) as [[_ H]|[H _]]; congruence. Qed.
Lemma dd_triangle : forall a b c, a < N -> b < N -> c < N -> (dd a c <= dd a b + dd b c)%R.
Proof.
  intros a b c Ha Hb Hc. destruct HX as (HL & HF & HD & Hs).
  assert (HB : forall j, Forall (fun r => length r = D) (block X (g + 1) j)).
  { intros j. rewrite Forall_forall in *. intros r Hr. apply HF. eapply block_incl; eauto. }
  assert (Hl : forall j, j < N -> length (block X (g + 1) j) = g + 1).
  { intros j Hj. apply block_length with N; auto. }
  apply apart_triangle with D; auto; try (rewrite !Hl; auto).
  intros E. specialize (Hl a Ha). rewrite E in Hl. simpl in Hl. lia.
Qed.

Let M := distance_matrix (fun x => x) X g N true.
Lemma M_length : length M = N. Proof. apply tab_length. Qed.
Lemma M_at : forall a b, a < N -> b < N -> dm_at M a b = dd a b.
Proof.
  intros a b Ha Hb. unfold M, distance_matrix. rewrite dm_at_tab by auto. rewrite !traj_block.
  destruct (Nat.ltb_spec b a); [apply dd_sym|]. destruct (Nat.ltb_spec a b); [reflexivity|].
  assert (a = b) by lia. subst. cbn [andb]. rewrite dd_same. auto.
Qed.

Definition sq (c : list nat) : R := Rsum (map (fun ab => dd (fst ab) (snd ab) ^ 2)%R (pairs c)).
Lemma sq_cons : forall x c, sq (x :: c) = (Rsum (map (fun y => dd x y ^ 2)%R c) + sq c)%R.
Proof. intros. unfold sq. cbn [pairs]. rewrite map_app, Rsum_app, map_map. reflexivity. Qed.
Lemma sq_nonneg' : forall c, (0 <= sq c)%R.
Proof. intros. apply Rsum_nonneg. intros z Hz. apply in_map_iff in Hz. destruct Hz as (x & <- & _). apply sq_nonneg. Qed.
Lemma row_nonneg : forall x c, (0 <= Rsum (map (fun y => dd y x ^ 2) c))%R.
Proof. intros. apply Rsum_nonneg. intros z Hz. apply in_map_iff in Hz. destruct Hz as (y & <- & _). apply sq_nonneg. Qed.
Lemma sq_snoc : forall c x, sq (c ++ [x]) = (sq c + Rsum (map (fun y => dd y x ^ 2)%R c))%R.
Proof.
  induction c as [|a c IH]; intros x.
  - simpl. unfold sq. simpl. lra.
  - cbn [app map]. rewrite !sq_cons, IH, map_app, Rsum_app, Rsum_cons. cbn [map]. rewrite Rsum_cons. unfold Rsum at 2.
    cbn [fold_right]. lra.
Qed.
Lemma sq_perm : forall c c', Permutation c c' -> sq c = sq c'.
Proof.
  induction 1; auto.
  - rewrite !sq_cons, IHPermutation. f_equal. apply Rsum_perm. apply Permutation_map; auto.
  - rewrite !sq_cons. cbn [map]. rewrite !Rsum_cons, (dd_sym x y). lra.
  - congruence.
Qed.
Lemma sq_bound : forall m c, (forall a b, In a c -> In b c -> (dd a b <= m)%R) -> (0 <= m)%R ->
  (2 * sq c <= INR (length c) * (INR (length c) - 1) * m ^ 2)%R.
Proof.
  intros m. induction c as [|x c IH]; intros H Hm.
  - unfold sq. simpl. lra.
  - rewrite sq_cons. cbn [length]. rewrite S_INR.
    assert (I : (2 * sq c <= INR (length c) * (INR (length c) - 1) * m ^ 2)%R)
      by (apply IH; auto; intros; apply H; simpl; auto).
    assert (Q : (Rsum (map (fun y => dd x y ^ 2) c) <= INR (length c) * m ^ 2)%R).
    { rewrite <- Rsum_const. apply Rsum_le. intros y Hy. apply pow_incr. split; [apply dd_nonneg|].
      apply H; simpl; auto. }
    replace ((INR (length c) + 1) * (INR (length c) + 1 - 1) * m ^ 2)%R
      with (2 * (INR (length c) * m ^ 2) + INR (length c) * (INR (length c) - 1) * m ^ 2)%R by ring. lra.
Qed.

Lemma score_sq : forall c, 2 <= length c -> (forall x, In x c -> x < N) ->
  sum_distances root_sum_squares M c = Ok (sqrt (sq c)).
Proof.
  intros c L H. unfold sum_distances. rewrite combinations_2.
  assert (E : root_sum_squares (map (fun yz => dm_at M (nth 0 yz 0) (nth 1 yz 0)) (map (fun ab => [fst ab; snd ab]) (pairs c)))
    = sqrt (sq c)).
  { unfold root_sum_squares, sq. f_equal. f_equal. rewrite !map_map. apply map_ext_in. intros [a b] Hab. cbn [nth fst snd].
    assert (P : forall l, In (a, b) (pairs l) -> In a l /\ In b l).
    { clear. induction l as [|x l IH]; simpl; [tauto|]. intros Q. apply in_app_iff in Q. destruct Q as [Q|Q].
      - apply in_map_iff in Q. destruct Q as (y & E & Hy). injection E as <- <-. auto.
      - apply IH in Q. tauto. }
    destruct (P _ Hab). rewrite M_at; auto. }
  rewrite <- E. destruct c as [|a [|b c]]; simpl in L; try lia. reflexivity.
Qed.

Lemma argsort_max : forall l, l <> [] -> exists i, last_n 1 (argsort l) = [i] /\ i < length l /\
  forall j, j < length l -> (nth j l 0 <= nth i l 0)%R.
Proof.
  intros l Hl. destruct (argsort_last argsort AS l Hl) as (i & E & Hi). exists i. split; auto. split; auto.
  destruct (AS l) as [HP HS]. pose proof (Permutation_length HP) as HL. rewrite seq_length in HL.
  intros j Hj.
  assert (Hin : In j (argsort l)).
  { apply (Permutation_in _ (Permutation_sym HP)). apply in_seq. lia. }
  apply in_nth_error in Hin. destruct Hin as [p Hp].
  assert (Hlast : nth_error (argsort l) (length l - 1) = Some i).
  { unfold last_n in E. rewrite HL in E. rewrite <- (firstn_skipn (length l - 1) (argsort l)), E.
    rewrite nth_error_app2; rewrite firstn_length, HL; [|lia].
    replace (length l - 1 - Nat.min (length l - 1) (length l)) with 0 by lia. auto. }
  assert (p < length l) by (rewrite <- HL; eapply nth_error_Some_lt; eauto).
  destruct (Nat.eq_dec p (length l - 1)) as [->|Hne].
  - rewrite Hlast in Hp. injection Hp as <-. lra.
  - apply (HS p (length l - 1)); auto. lia.
Qed.

Lemma best_max : forall l, l <> [] -> (forall c, In c l -> 2 <= length c /\ forall x, In x c -> x < N) ->
  exists ds c, mapM (sum_distances root_sum_squares M) l = Ok ds /\ get_max_sum_ind argsort l ds = Ok c /\ In c l /\
    forall c', In c' l -> (sq c' <= sq c)%R.
Proof.
  intros l Hl H.
  assert (E : mapM (sum_distances root_sum_squares M) l = Ok (map (fun c => sqrt (sq c)) l)).
  { clear Hl. induction l as [|a l IH]; auto. cbn [mapM map]. destruct (H a (or_introl eq_refl)).
    rewrite score_sq by auto. cbn [bind]. rewrite IH by (intros; apply H; simpl; auto). reflexivity. }
  exists (map (fun c => sqrt (sq c)) l).
  destruct (argsort_max (map (fun c => sqrt (sq c)) l)) as (i & Ei & Hi & Hm).
  { destruct l; [congruence|discriminate]. }
  rewrite map_length in Hi, Hm. destruct (nth_error_lt_Some l (i:=i) Hi) as [c Hc].
  exists c. split; auto. split; [|split].
  - unfold get_max_sum_ind. rewrite map_length, Nat.eqb_refl. cbn [negb]. rewrite Ei. unfold get. rewrite Hc. auto.
  - eapply nth_error_In; eauto.
  - intros c' Hc'. apply in_nth_error in Hc'. destruct Hc' as [j Hj].
    assert (Q : forall p v, nth_error l p = Some v -> nth p (map (fun c => sqrt (sq c)) l) 0%R = sqrt (sq v)).
    { intros p v Hp. apply nth_error_nth. rewrite nth_error_map', Hp. auto. }
    specialize (Hm j (nth_error_Some_lt _ _ Hj)). rewrite (Q _ _ Hj), (Q _ _ Hc) in Hm.
    apply sqrt_le_0; auto using sq_nonneg'.
Qed.

(** The chain grown from the farthest pair. *)
Definition grown (m : R) (len : nat) (c : list nat) : Prop :=
  length c = len /\ (forall x, In x c -> x < N) /\ (INR len * m ^ 2 <= 2 * sq c)%R /\
  exists a b r, c = a :: b :: r /\ dd a b = m.

Lemma grown_step : forall m len c c', grown m len c -> In c' (add_indices N c) -> grown m (S len) c'.
Proof.
  intros m len c c' (L & H & Hs & a & b & r & E & Hab) Hin. unfold add_indices in Hin. apply in_flat_map in Hin.
  destruct Hin as (i & Hi & Hc). apply in_seq in Hi. destruct (existsb (Nat.eqb i) c); [destruct Hc|].
  destruct Hc as [<-|[]]. split; [rewrite app_length; simpl; lia|]. split.
  { intros x Hx. apply in_app_iff in Hx. destruct Hx as [Hx|[<-|[]]]; auto. lia. }
  split.
  - rewrite sq_snoc, S_INR.
    assert (Q : (m ^ 2 <= 2 * Rsum (map (fun y => dd y i ^ 2) c))%R).
    { rewrite E. cbn [map]. rewrite !Rsum_cons.
      pose proof (row_nonneg i r) as Hr.
      assert (T : (m <= dd a i + dd b i)%R).
      { rewrite <- Hab, (dd_sym b i). apply dd_triangle; try lia; apply H; rewrite E; simpl; auto. }
      assert (0 <= m)%R by (rewrite <- Hab; apply dd_nonneg).
      pose proof (dd_nonneg a i). pose proof (dd_nonneg b i).
      assert (m ^ 2 <= (dd a i + dd b i) ^ 2)%R by (apply pow_incr; auto).
      pose proof (sq_nonneg (dd a i - dd b i)). nra. }
    lra.
  - exists a, b, (r ++ [i]). rewrite E. auto.
Qed.

Lemma grown_chain : forall m fuel c len, 2 <= len -> len + fuel <= N -> grown m len c ->
  exists c', extend_set root_sum_squares argsort M fuel c = Ok c' /\ grown m (len + fuel) c'.
Proof.
  intros m. induction fuel; intros c len H2 Hl Hc.
  - exists c. rewrite Nat.add_0_r. auto.
  - cbn [extend_set]. rewrite M_length.
    destruct (best_max (add_indices N c)) as (ds & b & E1 & E2 & Hb & _).
    + apply add_indices_nonempty. destruct Hc as [-> _]. lia.
    + intros c' Hc'. destruct (grown_step _ _ _ _ Hc Hc') as (-> & H & _). split; [lia|auto].
    + rewrite E1. cbn [bind]. rewrite E2. cbn [bind].
      destruct (IHfuel b (S len)) as (c' & E & G); [lia|lia|eapply grown_step; eauto|].
      exists c'. split; auto. replace (len + S fuel) with (S len + fuel) by lia. auto.
Qed.

Lemma first_round : forall k, 2 <= k < N -> exists m c, (forall a b, a < N -> b < N -> (dd a b <= m)%R) /\
  local_round root_sum_squares argsort M k 1 = Ok c /\ grown m k c.
Proof.
  intros k Hk. unfold local_round. rewrite M_length.
  assert (Hrow : forall n, n < N -> exists t, last_n 1 (argsort (nth n M [])) = [t] /\ t < N /\
    forall y, y < N -> (dd n y <= dd n t)%R).
  { intros n Hn.
    assert (Hl : length (nth n M []) = N).
    { rewrite <- M_length. apply distance_matrix_square. apply nth_In. fold M. rewrite M_length. auto. }
    destruct (argsort_max (nth n M [])) as (t & E & Ht & Hm).
    { intros Z. rewrite Z in Hl. simpl in Hl. lia. }
    rewrite Hl in Ht, Hm. exists t. split; auto. split; auto. intros y Hy.
    rewrite <- !M_at by auto. apply Hm; auto. }
  set (cand := map _ (seq 0 N)).
  assert (Hc : forall c, In c cand -> exists n t, c = [t; n] /\ n < N /\ t < N /\ forall y, y < N -> (dd n y <= dd n t)%R).
  { intros c Hc. apply in_map_iff in Hc. destruct Hc as (n & <- & Hn). apply in_seq in Hn.
    destruct (Hrow n) as (t & -> & Ht & Hm); [lia|]. exists n, t. repeat split; auto. lia. }
  assert (Hsq2 : forall a b, sq [a; b] = (dd a b ^ 2)%R) by (intros; unfold sq; simpl; ring).
  destruct (best_max cand) as (ds & best & E1 & E2 & Hb & Hm).
  - unfold cand. destruct N; [lia|]. discriminate.
  - intros c Hcc. destruct (Hc c Hcc) as (n & t & -> & Hn & Ht & _). split; auto.
    intros x [<-|[<-|[]]]; auto.
  - destruct (Hc _ Hb) as (n & t & E & Hn & Ht & _). subst best.
    assert (Hmax : forall a b, a < N -> b < N -> (dd a b <= dd t n)%R).
    { intros a b Ha Hb'. destruct (Hrow a Ha) as (ta & Ea & Hta & Hma).
      eapply Rle_trans; [apply Hma; auto|].
      assert (Hin : In [ta; a] cand).
      { apply in_map_iff. exists a. rewrite Ea. split; auto. apply in_seq. lia. }
      specialize (Hm _ Hin). rewrite !Hsq2, (dd_sym ta a) in Hm.
      apply Rsqr_incr_0; try apply dd_nonneg. rewrite !Rsqr_pow2. auto. }
    rewrite E1. cbn [bind]. rewrite E2. cbn [bind].
    destruct (grown_chain (dd t n) (k - 1 - 1) [t; n] 2) as (c & E & G); [lia|lia| |].
    { split; auto. split; [intros x [<-|[<-|[]]]; auto|]. split; [rewrite Hsq2; simpl; lra|].
      exists t, n, []. auto. }
    exists (dd t n), c. split; auto. split; auto. replace k with (2 + (k - 1 - 1)) by lia. auto.
Qed.

Lemma search_ratio : forall k, 2 <= k < N -> exists c, local_search root_sum_squares argsort M k = Ok c /\
  forall c', selection N k c' -> (sq c' <= INR (k - 1) * sq c)%R.
Proof.
  intros k Hk. destruct (first_round k Hk) as (m & c1 & Hm & E1 & L1 & H1 & Hs1 & _).
  unfold local_search.
  assert (Hsq : forall r, In r M -> length r = length M) by apply distance_matrix_square.
  assert (Hround : forall i, 1 <= i < k -> exists c, local_round root_sum_squares argsort M k i = Ok c /\ good False N k c).
  { intros i Hi. rewrite <- M_length. apply local_round_ok; auto; try tauto. rewrite M_length. lia. }
  destruct (proj2 (mapM_Ok_iff (local_round root_sum_squares argsort M k) (seq 1 (k - 1)))) as [tot Et].
  { intros i Hi. apply in_seq in Hi. destruct (Hround i) as (c & E & _); [lia|eauto]. }
  rewrite Et. cbn [bind].
  assert (Hlen : length tot = k - 1) by (rewrite (mapM_Ok_length _ _ Et), seq_length; auto).
  assert (Hg : forall c, In c tot -> good False N k c).
  { intros c Hc. apply in_nth_error in Hc. destruct Hc as [t Ht].
    assert (Htl : t < k - 1) by (rewrite <- Hlen; eapply nth_error_Some_lt; eauto).
    assert (Hs : nth_error (seq 1 (k - 1)) t = Some (1 + t)).
    { rewrite nth_error_seq. apply Nat.ltb_lt in Htl. rewrite Htl. auto. }
    destruct (mapM_Ok_nth _ _ t Et (x:=1 + t) Hs) as (y & Hy & Hn).
    rewrite Ht in Hn. injection Hn as <-. destruct (Hround (1 + t)) as (c' & E & G); [lia|].
    rewrite E in Hy. injection Hy as <-. auto. }
  assert (Hin1 : In c1 tot).
  { assert (Hs : nth_error (seq 1 (k - 1)) 0 = Some 1).
    { rewrite nth_error_seq. destruct (Nat.ltb_spec 0 (k - 1)); auto. lia. }
    destruct (mapM_Ok_nth _ _ 0 Et (x:=1) Hs) as (y & Hy & Hn). rewrite E1 in Hy. injection Hy as <-.
    eapply nth_error_In; eauto. }
  destruct (best_max tot) as (ds & b & E2 & E3 & Hb & Hbest).
  - intros ->. destruct Hin1.
  - intros c Hc. destruct (Hg c Hc) as (-> & H & _). split; [lia|auto].
  - rewrite E2. cbn [bind]. rewrite E3. cbn [bind]. exists (sorted b). split; auto.
    intros c' (L' & H' & _). rewrite (sq_perm _ _ (sorted_perm b)).
    specialize (Hbest c1 Hin1).
    assert (Hm0 : (0 <= m)%R) by (eapply Rle_trans; [apply (dd_nonneg 0 0)|apply Hm; lia]).
    pose proof (sq_bound m c' (fun a b Ha Hb => Hm a b (H' a Ha) (H' b Hb)) Hm0) as Hu. rewrite L' in Hu.
    rewrite minus_INR by lia. simpl (INR 1).
    assert (1 <= INR k)%R by (apply (le_INR 1); lia).
    assert (INR k * m ^ 2 <= 2 * sq b)%R by lra. nra.
Qed.

Lemma spread_sq : forall c, is_spread (fun x => x) root_sum_squares X (g + 1) c (sqrt (sq c)).
Proof.
  intros c. exists (map (fun ab => dd (fst ab) (snd ab)) (pairs c)). split.
  - induction (pairs c); constructor; auto. apply compute_distance_spec.
  - unfold root_sum_squares, sq. rewrite map_map. reflexivity.
Qed.
End Ratio.

Theorem local_ratio : forall argsort X g N k D, valid_argsort argsort -> trajectories_of N (g + 1) D X -> 2 <= k < N ->
  exists c s, local_optimisation (fun x => x) root_sum_squares argsort X g N k = Ok c /\
    is_spread (fun x => x) root_sum_squares X (g + 1) c s /\
    forall c' s', selection N k c' -> is_spread (fun x => x) root_sum_squares X (g + 1) c' s' ->
      (s' <= sqrt (INR (k - 1)) * s)%R.
Proof.
  intros argsort X g N k D HA HX Hk. unfold local_optimisation. rewrite (check_input_ok X g N D HX) by lia. cbn [bind].
  destruct (search_ratio argsort HA X g N D HX k Hk) as (c & E & H). exists c, (sqrt (sq X g c)).
  split; auto. split; [apply spread_sq|]. intros c' s' Hc' Hs'.
  rewrite (is_spread_fun _ _ _ _ _ _ _ Hs' (spread_sq X g c')).
  rewrite <- sqrt_mult; [|apply pos_INR|apply sq_nonneg']. apply sqrt_le_1_alt. auto.
Qed.
