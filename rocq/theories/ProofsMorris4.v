(** * Morris: local optimisation. *)
From Coq Require Import Reals String List Arith ZArith Bool Lia Lra Permutation Sorted.
From Verif Require Import Base Arrays ListFacts ModelGroups ModelScale ProofsScale Stats Sums SpecGroups SpecSobol SpecFF
  ProofsGroups ModelMorris SpecMorris ProofsMorris1 ProofsMorris3.
Import ListNotations.
Local Open Scope nat_scope.

Section Local.
Variable rnd : R -> R.
Variable score : list R -> R.
Variable argsort : list R -> list nat.
Hypothesis AS : valid_argsort argsort.

Lemma argsort_last : forall l, l <> [] -> exists i, last_n 1 (argsort l) = [i] /\ i < length l.
Proof.
  intros l Hl. destruct (AS l) as [HP _]. destruct (perm_facts _ _ HP) as (HL & _ & HI).
  unfold last_n. assert (Hp : 0 < length l) by (destruct l; [congruence|simpl; lia]).
  assert (Ln : length (skipn (length (argsort l) - 1) (argsort l)) = 1) by (rewrite skipn_length; lia).
  destruct (skipn (length (argsort l) - 1) (argsort l)) as [|i [|]] eqn:E; simpl in Ln; try lia.
  exists i. split; auto. apply HI. rewrite <- (firstn_skipn (length (argsort l) - 1)). rewrite E.
  apply in_app_iff. simpl. auto.
Qed.

Lemma get_max_ok : forall l ds, l <> [] -> length l = length ds ->
  exists c, get_max_sum_ind argsort l ds = Ok c /\ In c l.
Proof.
  intros l ds Hl HL. unfold get_max_sum_ind. rewrite HL, Nat.eqb_refl. cbn [negb].
  destruct (argsort_last ds) as (i & E & Hi). { intros ->. destruct l; [congruence|discriminate]. }
  rewrite E. destruct (nth_error_lt_Some l (i:=i)) as [c Hc]; [lia|].
  unfold get. rewrite Hc. exists c. split; auto. eapply nth_error_In; eauto.
Qed.

Lemma sum_distances_ok : forall M c, 2 <= length c -> exists d, sum_distances score M c = Ok d.
Proof.
  intros M c H. unfold sum_distances. rewrite combinations_2.
  destruct c as [|a [|b c]]; simpl in H; try lia. simpl. eauto.
Qed.

Lemma best_ok : forall M l, l <> [] -> (forall c, In c l -> 2 <= length c) ->
  exists ds c, mapM (sum_distances score M) l = Ok ds /\ get_max_sum_ind argsort l ds = Ok c /\ In c l.
Proof.
  intros M l Hl H. destruct (proj2 (mapM_Ok_iff (sum_distances score M) l)) as [ds E].
  { intros c Hc. destruct (sum_distances_ok M c (H c Hc)) as [d Hd]. eauto. }
  destruct (get_max_ok l ds Hl) as (c & Hc & Hi); [symmetry; eapply mapM_Ok_length; eauto|].
  exists ds, c. auto.
Qed.

(** [NoDup] is tracked under the assumption [D]. *)
Variable D : Prop.
Definition good (N len : nat) (c : list nat) : Prop :=
  length c = len /\ (forall x, In x c -> x < N) /\ (D -> NoDup c).

Lemma add_indices_good : forall N len c c', good N len c -> In c' (add_indices N c) -> good N (S len) c'.
Proof.
  intros N len c c' (L & H & HD) Hin. unfold add_indices in Hin. apply in_flat_map in Hin.
  destruct Hin as (i & Hi & Hc). apply in_seq in Hi.
  destruct (existsb (Nat.eqb i) c) eqn:E; [destruct Hc|]. destruct Hc as [<-|[]].
  assert (Hni : ~ In i c).
  { intros Hic. assert (Q : existsb (Nat.eqb i) c = true).
    { apply existsb_exists. exists i. split; auto. apply Nat.eqb_refl. } congruence. }
  split; [rewrite app_length; simpl; lia|]. split.
  - intros x Hx. apply in_app_iff in Hx. destruct Hx as [Hx|[<-|[]]]; auto. lia.
  - intros HD'. apply NoDup_app_intro; auto.
    + constructor; [auto|constructor].
    + intros x Hx [<-|[]]. auto.
Qed.

Lemma short_missing : forall N c, length c < N -> exists i, i < N /\ ~ In i c.
Proof.
  intros N c H.
  destruct (Forall_Exists_dec (fun i => In i c) (fun i => in_dec Nat.eq_dec i c) (seq 0 N)) as [F|F].
  - exfalso. rewrite Forall_forall in F.
    pose proof (NoDup_incl_length (seq_NoDup N 0) F) as Q. rewrite seq_length in Q. lia.
  - apply Exists_exists in F. destruct F as (i & Hi & Hn). apply in_seq in Hi. exists i. split; auto. lia.
Qed.

Lemma add_indices_nonempty : forall N c, length c < N -> add_indices N c <> [].
Proof.
  intros N c H E. destruct (short_missing N c H) as (i & Hi & Hn).
  assert (Q : In (c ++ [i]) (add_indices N c)).
  { unfold add_indices. apply in_flat_map. exists i. split; [apply in_seq; lia|].
    destruct (existsb (Nat.eqb i) c) eqn:Eb; [|simpl; auto].
    apply existsb_exists in Eb. destruct Eb as (y & Hy & Eq). apply Nat.eqb_eq in Eq. subst. contradiction. }
  rewrite E in Q. auto.
Qed.

Lemma extend_set_ok : forall M fuel c len, 2 <= len -> len + fuel <= length M -> good (length M) len c ->
  exists c', extend_set score argsort M fuel c = Ok c' /\ good (length M) (len + fuel) c'.
Proof.
  intros M. induction fuel; intros c len H2 Hl Hc.
  - exists c. rewrite Nat.add_0_r. auto.
  - cbn [extend_set].
    destruct (best_ok M (add_indices (length M) c)) as (ds & b & E1 & E2 & Hb).
    + apply add_indices_nonempty. destruct Hc as [-> _]. lia.
    + intros c' Hc'. destruct (add_indices_good _ _ _ _ Hc Hc') as [-> _]. lia.
    + rewrite E1. cbn [bind]. rewrite E2. cbn [bind].
      destruct (IHfuel b (S len)) as (c' & E & G); [lia|lia|eapply add_indices_good; eauto|].
      exists c'. split; auto. replace (len + S fuel) with (S len + fuel) by lia. auto.
Qed.

Lemma last_n_length : forall A i (l : list A), i <= length l -> length (last_n i l) = i.
Proof. intros. unfold last_n. rewrite skipn_length. lia. Qed.

Lemma last_n_in : forall A i (l : list A) x, In x (last_n i l) -> In x l.
Proof.
  intros A i l x H. unfold last_n in H. rewrite <- (firstn_skipn (length l - i) l). apply in_app_iff. auto.
Qed.

Lemma NoDup_app_right : forall A (l l' : list A), NoDup (l ++ l') -> NoDup l'.
Proof. induction l; simpl; intros l' H; auto. inversion H; auto. Qed.

Lemma NoDup_last_n : forall A i (l : list A), NoDup l -> NoDup (last_n i l).
Proof.
  intros A i l H. unfold last_n. rewrite <- (firstn_skipn (length l - i) l) in H.
  apply NoDup_app_right in H. auto.
Qed.

(** Row [n] has its smallest entry, and only that one, at position [n]. *)
Definition own_smallest (M : list (list R)) : Prop :=
  forall n m, n < length M -> m < length M -> m <> n ->
    (nth n (nth n M []) 0 < nth m (nth n M []) 0)%R.

Lemma own_not_in_top : forall M n i, (forall r, In r M -> length r = length M) -> own_smallest M -> n < length M ->
  i < length M -> ~ In n (last_n i (argsort (nth n M []))).
Proof.
  intros M n i Hsq Hown Hn Hi Hin.
  destruct (nth_error_lt_Some M Hn) as [row Hrow].
  rewrite (nth_error_nth _ _ _ Hrow) in *.
  assert (Hlen : length row = length M) by (apply Hsq; eapply nth_error_In; eauto).
  destruct (AS row) as [HP Hs]. destruct (perm_facts _ _ HP) as (HL & HN & HI).
  apply In_nth_error in Hin. destruct Hin as [t Ht].
  unfold last_n in Ht. rewrite nth_error_skipn in Ht.
  assert (Hpos : 0 < length (argsort row) - i + t) by lia.
  destruct (nth_error_lt_Some (argsort row) (i:=0)) as [a Ha]; [lia|].
  pose proof (Hs 0 _ a n Hpos Ha Ht) as Hle.
  assert (Hal : a < length M) by (rewrite <- Hlen; apply HI; eapply nth_error_In; eauto).
  assert (Hne : a <> n).
  { intros ->. assert (E : 0 = length (argsort row) - i + t).
    { apply (proj1 (NoDup_nth_error (argsort row)) HN); [lia|congruence]. } lia. }
  pose proof (Hown n a Hn Hal Hne) as Hlt. rewrite (nth_error_nth _ _ _ Hrow) in Hlt. lra.
Qed.

Lemma initial_good : forall M n i, (forall r, In r M -> length r = length M) -> (D -> own_smallest M) ->
  n < length M -> i < length M ->
  good (length M) (S i) (rev (last_n i (argsort (nth n M []))) ++ [n]).
Proof.
  intros M n i Hsq Hown Hn Hi.
  assert (Hlen : length (nth n M []) = length M) by (apply Hsq, nth_In; auto).
  destruct (AS (nth n M [])) as [HP _]. destruct (perm_facts _ _ HP) as (HL & HN & HI).
  split; [rewrite app_length, rev_length, last_n_length by lia; simpl; lia|]. split.
  - intros x Hx. apply in_app_iff in Hx. destruct Hx as [Hx|[<-|[]]]; auto.
    apply in_rev in Hx. apply last_n_in in Hx. apply HI in Hx. lia.
  - intros HD. apply NoDup_app_intro.
    + apply NoDup_rev, NoDup_last_n; auto.
    + constructor; [auto|constructor].
    + intros x Hx [<-|[]]. apply in_rev in Hx. revert Hx. apply own_not_in_top; auto.
Qed.

Lemma local_round_ok : forall M k i, (forall r, In r M -> length r = length M) -> (D -> own_smallest M) ->
  1 <= i < k -> k < length M ->
  exists c, local_round score argsort M k i = Ok c /\ good (length M) k c.
Proof.
  intros M k i Hsq Hown Hi Hk. unfold local_round.
  set (cand := map _ (seq 0 (length M))).
  assert (Hc : forall c, In c cand -> good (length M) (S i) c).
  { intros c Hc. apply in_map_iff in Hc. destruct Hc as (n & <- & Hn). apply in_seq in Hn.
    apply initial_good; auto; lia. }
  destruct (best_ok M cand) as (ds & b & E1 & E2 & Hb).
  - unfold cand. destruct (length M); [lia|]. discriminate.
  - intros c Hcc. destruct (Hc c Hcc) as [-> _]. lia.
  - rewrite E1. cbn [bind]. rewrite E2. cbn [bind].
    destruct (extend_set_ok M (k - i - 1) b (S i)) as (c & E & G); [lia|lia|auto|].
    exists c. split; auto. replace k with (S i + (k - i - 1)) by lia. auto.
Qed.

Lemma insert_nat_perm : forall x l, Permutation (insert_nat x l) (x :: l).
Proof.
  induction l; simpl; auto. destruct (x <=? a); auto.
  eapply perm_trans; [apply perm_skip; eauto|]. apply perm_swap.
Qed.
Lemma sorted_perm : forall l, Permutation (sorted l) l.
Proof.
  unfold sorted. induction l; simpl; auto. eapply perm_trans; [apply insert_nat_perm|]. apply perm_skip; auto.
Qed.
Lemma insert_nat_sorted : forall x l, StronglySorted le l -> StronglySorted le (insert_nat x l).
Proof.
  induction l; simpl; intros H; [repeat constructor|]. inversion H as [|? ? H1 H2]; subst.
  destruct (x <=? a) eqn:E.
  - apply Nat.leb_le in E. constructor; auto. constructor; auto.
    rewrite Forall_forall in *. intros y Hy. specialize (H2 y Hy). lia.
  - apply Nat.leb_gt in E. constructor; auto. rewrite Forall_forall in *. intros y Hy.
    apply (Permutation_in _ (insert_nat_perm x l)) in Hy. destruct Hy as [<-|Hy]; [lia|]. auto.
Qed.
Lemma sorted_sorted : forall l, StronglySorted le (sorted l).
Proof. unfold sorted. induction l; simpl; [constructor|]. apply insert_nat_sorted; auto. Qed.
Lemma sorted_strict : forall l, StronglySorted le l -> NoDup l -> StronglySorted lt l.
Proof.
  induction 1; intros HN; constructor.
  - inversion HN; auto.
  - inversion HN; subst. rewrite Forall_forall in *. intros x Hx. specialize (H0 x Hx).
    assert (a <> x) by congruence. lia.
Qed.

Lemma local_search_ok : forall M k, (forall r, In r M -> length r = length M) -> (D -> own_smallest M) ->
  2 <= k < length M ->
  exists c, local_search score argsort M k = Ok c /\ length c = k /\ (forall x, In x c -> x < length M) /\
    StronglySorted le c /\ (D -> StronglySorted lt c).
Proof.
  intros M k Hsq Hown Hk. unfold local_search.
  destruct (proj2 (mapM_Ok_iff (local_round score argsort M k) (seq 1 (k - 1)))) as [tot Et].
  { intros i Hi. apply in_seq in Hi.
    destruct (local_round_ok M k i Hsq Hown) as (c & E & _); [lia|lia|eauto]. }
  rewrite Et. cbn [bind].
  assert (Hlen : length tot = k - 1) by (rewrite (mapM_Ok_length _ _ Et), seq_length; auto).
  assert (Hg : forall c, In c tot -> good (length M) k c).
  { intros c Hc. apply in_nth_error in Hc. destruct Hc as [t Ht].
    assert (Htl : t < k - 1) by (rewrite <- Hlen; eapply nth_error_Some_lt; eauto).
    assert (Hs : nth_error (seq 1 (k - 1)) t = Some (1 + t)).
    { rewrite nth_error_seq. apply Nat.ltb_lt in Htl. rewrite Htl. auto. }
    destruct (mapM_Ok_nth _ _ t Et (x:=1 + t) Hs) as (y & Hy & Hn).
    rewrite Ht in Hn. injection Hn as <-.
    destruct (local_round_ok M k (1 + t) Hsq Hown) as (c' & E & G); [lia|lia|].
    rewrite E in Hy. injection Hy as <-. auto. }
  destruct (best_ok M tot) as (ds & b & E1 & E2 & Hb).
  - intros ->. simpl in Hlen. lia.
  - intros c Hc. destruct (Hg c Hc) as [-> _]. lia.
  - rewrite E1. cbn [bind]. rewrite E2. cbn [bind].
    destruct (Hg b Hb) as (L & H & HD).
    exists (sorted b). split; auto.
    split; [rewrite (Permutation_length (sorted_perm b)); auto|]. split.
    + intros x Hx. apply H. apply (Permutation_in _ (sorted_perm b)); auto.
    + split; [apply sorted_sorted|]. intros d. apply sorted_strict; [apply sorted_sorted|].
      apply (Permutation_NoDup (Permutation_sym (sorted_perm b))). auto.
Qed.
End Local.

(** ** Distances between distinct trajectories are positive *)
Lemma point_distance_nonneg : forall x y, (0 <= euclid x y)%R.
Proof. intros. apply sqrt_pos. Qed.

Lemma euclid_zero : forall x y, length x = length y -> euclid x y = 0%R -> x = y.
Proof.
  intros x y HL H. unfold euclid in H. apply sqrt_eq_0 in H.
  - assert (Hz : forall z, In z (map2 (fun a b => (a - b) ^ 2)%R x y) -> z = 0%R).
    { apply Rsum_zero_nonneg; auto. intros z Hz. rewrite map2_combine in Hz. apply in_map_iff in Hz.
      destruct Hz as (ab & <- & _). apply sq_nonneg. }
    clear H. revert y HL Hz. induction x; destruct y; simpl; intros HL Hz; try discriminate; auto.
    assert (E : ((a - r) ^ 2 = 0)%R) by (apply Hz; auto).
    assert (a - r = 0)%R by nra. f_equal; [lra|]. apply IHx; auto.
  - apply Rsum_nonneg. intros z Hz. rewrite map2_combine in Hz. apply in_map_iff in Hz.
    destruct Hz as (ab & <- & _). apply sq_nonneg.
Qed.

Lemma distance_positive : forall rnd A B D, (forall x, (0 < x)%R -> (0 < rnd x)%R) ->
  length A = length B -> Forall (fun r => length r = D) A -> Forall (fun r => length r = D) B -> A <> B ->
  (0 < compute_distance rnd A B)%R.
Proof.
  intros rnd A B D Hr HL HA HB Hne. unfold compute_distance.
  destruct (list_all2 (list_all2 Reqb) A B) eqn:E.
  - exfalso. apply Hne.
    assert (Q : list_all2 (list_all2 Reqb) A B = true <-> A = B).
    { apply list_all2_eq. apply list_all2_eq. intros. apply Reqb_true. }
    apply Q; auto.
  - apply Hr.
    assert (Hin : forall x, (0 <= Rsum (map (fun y => euclid x y) B))%R).
    { intros x. apply Rsum_nonneg. intros z Hz. apply in_map_iff in Hz. destruct Hz as (y & <- & _).
      apply point_distance_nonneg. }
    assert (H0 : (0 <= Rsum (map (fun x => Rsum (map (fun y => euclid x y) B)) A))%R).
    { apply Rsum_nonneg. intros z Hz. apply in_map_iff in Hz. destruct Hz as (y & <- & _). auto. }
    destruct H0 as [H0|H0]; auto. exfalso. apply Hne.
    assert (Hall : forall x y, In x A -> In y B -> x = y).
    { intros x y Hx Hy. rewrite Forall_forall in HA, HB.
      apply euclid_zero; [rewrite HA, HB; auto|].
      assert (Ez : Rsum (map (fun y => euclid x y) B) = 0%R).
      { apply (Rsum_zero_nonneg (map (fun x => Rsum (map (fun y => euclid x y) B)) A)); auto.
        - intros z Hz. apply in_map_iff in Hz. destruct Hz as (w & <- & _). auto.
        - apply in_map_iff. eauto. }
      apply (Rsum_zero_nonneg (map (fun y => euclid x y) B)); auto.
      - intros z Hz. apply in_map_iff in Hz. destruct Hz as (w & <- & _). apply point_distance_nonneg.
      - apply in_map_iff. eauto. }
    clear - HL Hall. apply nth_error_ext'. intros i.
    destruct (nth_error A i) as [x|] eqn:Ex.
    + destruct (nth_error_lt_Some B (i:=i)) as [y Hy]; [rewrite <- HL; eapply nth_error_Some_lt; eauto|].
      rewrite Hy. f_equal. apply Hall; eapply nth_error_In; eauto.
    + symmetry. apply nth_error_None. apply nth_error_None in Ex. lia.
Qed.

Lemma distance_matrix_square : forall rnd X g N local r,
  In r (distance_matrix rnd X g N local) -> length r = length (distance_matrix rnd X g N local).
Proof.
  intros rnd X g N local r H. unfold distance_matrix in *. rewrite tab_length.
  match type of H with In _ (tab N N ?f) => pose proof (@tab_widths R N N f) as W end.
  rewrite Forall_forall in W. apply W; auto.
Qed.

Lemma distance_own_smallest : forall rnd X g N D, (forall x, (0 < x)%R -> (0 < rnd x)%R) ->
  trajectories_of N (g + 1) D X ->
  (forall a b, a < b -> b < N -> block X (g + 1) a <> block X (g + 1) b) ->
  own_smallest (distance_matrix rnd X g N true).
Proof.
  intros rnd X g N D Hr HX Hd n m. unfold distance_matrix at 1 2. rewrite !tab_length. intros Hn Hm Hne.
  change (dm_at (distance_matrix rnd X g N true) n n < dm_at (distance_matrix rnd X g N true) n m)%R.
  assert (HB : forall j, j < N -> Forall (fun r => length r = D) (block X (g + 1) j)).
  { intros j Hj. destruct HX as (_ & HF & _). rewrite Forall_forall in *. intros r Hr'. apply HF.
    eapply block_incl; eauto. }
  assert (HLb : forall j, j < N -> length (block X (g + 1) j) = g + 1).
  { intros j Hj. destruct HX as (HL & _). apply block_length with N; auto. }
  unfold distance_matrix. rewrite !dm_at_tab by auto. rewrite Nat.ltb_irrefl. cbn [andb].
  destruct (Nat.ltb_spec m n) as [H|H].
  - rewrite !traj_block. apply distance_positive with D; auto. rewrite !HLb; auto.
  - assert (Hlt : n <? m = true) by (apply Nat.ltb_lt; lia). rewrite Hlt. cbn [andb].
    rewrite !traj_block. apply distance_positive with D; auto. rewrite !HLb; auto. apply Hd; lia.
Qed.

Theorem local_ok : forall rnd score argsort X g N k D, valid_argsort argsort ->
  (forall x, (0 < x)%R -> (0 < rnd x)%R) -> trajectories_of N (g + 1) D X -> 2 <= k < N ->
  exists c, local_optimisation rnd score argsort X g N k = Ok c /\ length c = k /\ (forall x, In x c -> x < N) /\
    StronglySorted le c /\
    ((forall a b, a < b -> b < N -> block X (g + 1) a <> block X (g + 1) b) -> selection N k c).
Proof.
  intros rnd score argsort X g N k D HA Hr HX Hk. unfold local_optimisation.
  rewrite (check_input_ok X g N D HX) by lia. cbn [bind].
  destruct (local_search_ok score argsort HA
    (forall a b, a < b -> b < N -> block X (g + 1) a <> block X (g + 1) b)
    (distance_matrix rnd X g N true) k) as (c & E & L & Hi & Hs & Hd).
  - apply distance_matrix_square.
  - intros Hd. eapply distance_own_smallest; eauto.
  - unfold distance_matrix. rewrite tab_length. auto.
  - unfold distance_matrix in Hi at 1. rewrite tab_length in Hi.
    exists c. split; auto. split; auto. split; auto. split; auto.
    intros H. split; auto.
Qed.
