(** * Morris, local strategy: counterexamples for triples. *)
From Coq Require Import Reals String List Arith ZArith Bool Lia Lra Psatz Permutation Sorted.
From Verif Require Import Base Arrays ListFacts ModelGroups ModelScale ProofsScale Stats Sums SpecGroups SpecSobol SpecFF
  ProofsGroups ModelMorris SpecMorris ProofsMorris1 ProofsMorris3 ProofsMorris4 ProofsMorris5 ProofsMorris9 ProofsLocal
  ProofsLocal2.
Import ListNotations.
Local Open Scope nat_scope.

(** ** Trajectories that stay at one point of the plane *)
Lemma apart_sq : forall x y x' y', (apart [[x; y]; [x; y]] [[x'; y']; [x'; y']] ^ 2 = 16 * ((x - x') ^ 2 + (y - y') ^ 2))%R.
Proof.
  intros. destruct (apart_cases [[x; y]; [x; y]] [[x'; y']; [x'; y']]) as [[E ->]|[E ->]].
  - injection E as -> ->. ring.
  - unfold cross, euclid. unfold Rsum. cbn [map map2 fold_right].
    set (s := sqrt _). assert (Hs : (s * s = (x - x') ^ 2 + ((y - y') ^ 2 + 0))%R).
    { apply sqrt_sqrt. pose proof (sq_nonneg (x - x')). pose proof (sq_nonneg (y - y')). lra. }
    replace ((s + (s + 0) + (s + (s + 0) + 0)) ^ 2)%R with (16 * (s * s))%R by ring. rewrite Hs. ring.
Qed.

Definition still (pts : list (R * R)) : list (list R) := flat_map (fun p => [[fst p; snd p]; [fst p; snd p]]) pts.
Definition pt (pts : list (R * R)) (j : nat) : R * R := nth j pts (0%R, 0%R).
Definition gap2 (pts : list (R * R)) (a b : nat) : R :=
  (16 * ((fst (pt pts a) - fst (pt pts b)) ^ 2 + (snd (pt pts a) - snd (pt pts b)) ^ 2))%R.

Lemma still_block : forall pts j, j < length pts ->
  block (still pts) 2 j = [[fst (pt pts j); snd (pt pts j)]; [fst (pt pts j); snd (pt pts j)]].
Proof.
  induction pts as [|p pts IH]; intros j Hj; [simpl in Hj; lia|].
  destruct j; [reflexivity|]. simpl in Hj.
  replace (block (still (p :: pts)) 2 (S j)) with (block (still pts) 2 j).
  - rewrite IH by lia. reflexivity.
  - unfold block. replace (S j * 2) with (S (S (j * 2))) by lia. reflexivity.
Qed.
Lemma still_shape : forall pts, trajectories_of (length pts) (1 + 1) 2 (still pts).
Proof.
  intros. split; [|split; [|lia]].
  - induction pts; simpl in *; lia.
  - apply Forall_forall. intros r Hr. apply in_flat_map in Hr. destruct Hr as (p & _ & [<-|[<-|[]]]); auto.
Qed.
Lemma still_gap : forall pts a b, a < length pts -> b < length pts -> (dd (still pts) 1 a b ^ 2 = gap2 pts a b)%R.
Proof. intros. unfold dd. change (1 + 1) with 2. rewrite !still_block by auto. apply apart_sq. Qed.
Lemma still_le : forall pts a b a' b', a < length pts -> b < length pts -> a' < length pts -> b' < length pts ->
  (dd (still pts) 1 a b <= dd (still pts) 1 a' b')%R -> (gap2 pts a b <= gap2 pts a' b')%R.
Proof. intros. rewrite <- !still_gap by auto. apply pow_incr. split; auto. apply dd_nonneg. Qed.

Lemma score_any : forall score X g N c, 2 <= length c -> (forall x, In x c -> x < N) ->
  sum_distances score (distance_matrix (fun x => x) X g N true) c
  = Ok (score (map (fun ab => dd X g (fst ab) (snd ab)) (pairs c))).
Proof.
  intros score X g N c L H. unfold sum_distances. rewrite combinations_2.
  assert (E : map (fun yz => dm_at (distance_matrix (fun x => x) X g N true) (nth 0 yz 0) (nth 1 yz 0))
      (map (fun ab => [fst ab; snd ab]) (pairs c)) = map (fun ab => dd X g (fst ab) (snd ab)) (pairs c)).
  { rewrite map_map. apply map_ext_in. intros [a b] Hab. cbn [nth fst snd].
    assert (P : forall l, In (a, b) (pairs l) -> In a l /\ In b l).
    { clear. induction l as [|x l IH]; simpl; [tauto|]. intros Q. apply in_app_iff in Q. destruct Q as [Q|Q].
      - apply in_map_iff in Q. destruct Q as (y & E & Hy). injection E as <- <-. auto.
      - apply IH in Q. tauto. }
    destruct (P _ Hab). apply M_at; auto. }
  rewrite <- E. destruct c as [|a [|b c]]; simpl in L; try lia. reflexivity.
Qed.


(** ** The best three of five are missed *)
Definition five : list (R * R) := [(10, 3); (1, 1); (7, 7); (0, 1); (10, 0)]%R.

Lemma sq3 : forall X g a b c, sq X g [a; b; c] = (dd X g a b ^ 2 + dd X g a c ^ 2 + dd X g b c ^ 2)%R.
Proof. intros. unfold sq, Rsum. cbn [pairs map app fold_right fst snd]. ring. Qed.

Theorem local_misses : forall argsort, valid_argsort argsort ->
  exists c s c' s', local_optimisation (fun x => x) root_sum_squares argsort (still five) 1 5 3 = Ok c /\
    is_spread (fun x => x) root_sum_squares (still five) 2 c s /\ selection 5 3 c' /\
    is_spread (fun x => x) root_sum_squares (still five) 2 c' s' /\ (s < s')%R.
Proof.
  intros argsort HA. pose proof (still_shape five) as HS. cbn [length five] in HS.
  destruct (three argsort HA (still five) 1 5 ltac:(lia) root_sum_squares (fun c => sqrt (sq (still five) 1 c))
    (fun c L H => score_sq (still five) 1 5 c L H)) as (t & n & x & b & Ht & Hn & Hx & X1 & X2 & Hmax & _ & E & Lb & Hb & _ & Hc).
  { intros. unfold sq, Rsum. cbn [pairs map app fold_right fst snd]. rewrite Rplus_0_r, <- Rsqr_pow2. apply sqrt_Rsqr, dd_nonneg. }
  unfold local_optimisation. rewrite (check_input_ok (still five) 1 5 2 HS) by lia. cbn [bind].
  exists (sorted b), (sqrt (sq (still five) 1 b)), [2; 3; 4], (sqrt (sq (still five) 1 [2; 3; 4])).
  split; auto. split; [rewrite <- (sq_perm _ _ _ _ (sorted_perm b)); apply (spread_sq (still five) 1)|].
  split; [split; [auto|]; split; [intros y [<-|[<-|[<-|[]]]]; lia|]; repeat constructor|].
  split; [apply (spread_sq (still five) 1)|].
  apply sqrt_lt_1_alt. split; [apply sq_nonneg'|]. rewrite (sq3 _ _ 2 3 4), !still_gap by (simpl; lia).
  destruct Hc as [Eb|(n' & p & q & Eb & Hn' & Hpq & Hfar)]; subst b; rewrite sq3, !still_gap by (simpl; lia || (apply Hb; simpl; auto)).
  - pose proof (still_le five 0 3 t n ltac:(simpl; lia) ltac:(simpl; lia) Ht Hn (Hmax 0 3 ltac:(lia) ltac:(lia))) as Q.
    clear - Ht Hn Hx X1 X2 Q. unfold gap2, pt in *.
    do 5 (destruct t as [|t]; [do 5 (destruct n as [|n];
      [cbn [nth five fst snd] in *; try lra; do 5 (destruct x as [|x]; [cbn [nth five fst snd] in *; try lra; congruence|]); lia|]); lia|]); lia.
  - assert (Hp : p < 5) by (apply Hb; simpl; auto). assert (Hq : q < 5) by (apply Hb; simpl; auto).
    assert (Hw : forall z, z < 5 -> z <> p -> z <> q -> (gap2 five n' z <= gap2 five n' p /\ gap2 five n' z <= gap2 five n' q)%R).
    { intros z Hz Zp Zq. destruct (Hfar z Hz Zp Zq). split; apply still_le; auto. }
    pose proof (Hw 0 ltac:(lia)) as W0. pose proof (Hw 1 ltac:(lia)) as W1.
    clear - Hp Hq Hn' W0 W1. unfold gap2, pt in *.
    do 5 (destruct n' as [|n']; [do 5 (destruct p as [|p]; [do 5 (destruct q as [|q];
      [cbn [nth five fst snd] in *; try lra;
        try (specialize (W1 ltac:(lia) ltac:(lia)); lra); specialize (W0 ltac:(lia) ltac:(lia)); lra|]); lia|]); lia|]); lia.
Qed.

(** ** Summing the distances selects others *)
Definition four : list (R * R) := [(0, 0); (20, 0); (6, 8); (21, 0)]%R.

Theorem sum_differs : forall argsort, valid_argsort argsort ->
  local_optimisation (fun x => x) root_sum_squares argsort (still four) 1 4 3 = Ok [0; 1; 3] /\
  local_optimisation (fun x => x) Rsum argsort (still four) 1 4 3 = Ok [0; 2; 3].
Proof.
  intros argsort HA. pose proof (still_shape four) as HS. cbn [length four] in HS.
  unfold local_optimisation. rewrite (check_input_ok (still four) 1 4 2 HS) by lia. cbn [bind].
  assert (Hd : forall a b, a < 4 -> b < 4 -> (dd (still four) 1 a b ^ 2 = gap2 four a b)%R) by (intros; apply still_gap; auto).
  assert (Hn0 : forall a b, (0 <= dd (still four) 1 a b)%R) by (intros; apply dd_nonneg).
  assert (Hr : forall a b v, a < 4 -> b < 4 -> (0 <= v)%R -> (gap2 four a b = v ^ 2)%R -> dd (still four) 1 a b = v).
  { intros a b v Ha Hb Hv E. apply Rsqr_inj; auto. rewrite !Rsqr_pow2, Hd by auto. auto. }
  assert (D01 : dd (still four) 1 0 1 = 80%R) by (apply Hr; try lia; try lra; unfold gap2, pt; cbn [nth four fst snd]; lra).
  assert (D02 : dd (still four) 1 0 2 = 40%R) by (apply Hr; try lia; try lra; unfold gap2, pt; cbn [nth four fst snd]; lra).
  assert (D03 : dd (still four) 1 0 3 = 84%R) by (apply Hr; try lia; try lra; unfold gap2, pt; cbn [nth four fst snd]; lra).
  assert (D13 : dd (still four) 1 1 3 = 4%R) by (apply Hr; try lia; try lra; unfold gap2, pt; cbn [nth four fst snd]; lra).
  assert (D23 : dd (still four) 1 2 3 = 68%R) by (apply Hr; try lia; try lra; unfold gap2, pt; cbn [nth four fst snd]; lra).
  assert (D12 : (64 < dd (still four) 1 1 2 < 65)%R).
  { assert (E : (dd (still four) 1 1 2 ^ 2 = 4160)%R) by (rewrite Hd by lia; unfold gap2, pt; cbn [nth four fst snd]; lra).
    specialize (Hn0 1 2). split; nra. }
  assert (D10 := dd_sym (still four) 1 1 0). assert (D20 := dd_sym (still four) 1 2 0).
  assert (D30 := dd_sym (still four) 1 3 0). assert (D21 := dd_sym (still four) 1 2 1).
  assert (D31 := dd_sym (still four) 1 3 1). assert (D32 := dd_sym (still four) 1 3 2).
  assert (D00 := dd_same (still four) 1 0). assert (D11 := dd_same (still four) 1 1).
  assert (D22 := dd_same (still four) 1 2). assert (D33 := dd_same (still four) 1 3).
  split.
  - destruct (three argsort HA (still four) 1 4 ltac:(lia) root_sum_squares (fun c => sqrt (sq (still four) 1 c))
      (fun c L H => score_sq (still four) 1 4 c L H)) as (t & n & x & b & Ht & Hn & Hx & X1 & X2 & Hmax & Hext & E & Lb & Hb & Hge & Hc).
    { intros. unfold sq, Rsum. cbn [pairs map app fold_right fst snd]. rewrite Rplus_0_r, <- Rsqr_pow2. apply sqrt_Rsqr, dd_nonneg. }
    rewrite E. f_equal.
    assert (Hext' : forall y, y < 4 -> y <> t -> y <> n -> (sq (still four) 1 [t; n; y] <= sq (still four) 1 [t; n; x])%R).
    { intros y Y1 Y2 Y3. apply sqrt_le_0; try apply sq_nonneg'. auto. }
    apply sqrt_le_0 in Hge; try apply sq_nonneg'.
    pose proof (Hmax 0 3 ltac:(lia) ltac:(lia)) as Q. pose proof (Hext' 1 ltac:(lia)) as Q1.
    clear Hext Hext' Hmax E Hd Hr HS.
    assert (Htn : (t = 0 /\ n = 3) \/ (t = 3 /\ n = 0)).
    { clear - Q Ht Hn D01 D02 D03 D12 D13 D23 D10 D20 D30 D21 D31 D32 D00 D11 D22 D33.
      do 4 (destruct t as [|t]; [do 4 (destruct n as [|n]; [try lra; auto|]); lia|]); lia. }
    assert (Hx1 : x = 1).
    { clear Hge Hc. destruct Htn as [[-> ->]|[-> ->]]; specialize (Q1 ltac:(lia) ltac:(lia)); rewrite !sq3 in Q1;
      (do 4 (destruct x as [|x]; [try congruence; try (exfalso; rewrite ?D10, ?D20, ?D30, ?D21, ?D31, ?D32, ?D01, ?D02, ?D03, ?D13, ?D23 in Q1; lra); auto|])); lia. }
    subst x.
    assert (Hge' : (842 * 16 <= sq (still four) 1 b)%R).
    { destruct Htn as [[-> ->]|[-> ->]]; rewrite sq3 in Hge; rewrite ?D10, ?D20, ?D30, ?D21, ?D31, ?D32, ?D01, ?D02, ?D03, ?D13, ?D23 in Hge; lra. }
    destruct Hc as [->|(n' & p & q & -> & Hn' & Hpq & Hfar)].
    + destruct Htn as [[-> ->]|[-> ->]]; reflexivity.
    + assert (Hp : p < 4) by (apply Hb; simpl; auto). assert (Hq : q < 4) by (apply Hb; simpl; auto).
      pose proof (Hfar 0 ltac:(lia)) as W0. pose proof (Hfar 1 ltac:(lia)) as W1.
      pose proof (Hfar 2 ltac:(lia)) as W2. rewrite sq3 in Hge'.
      assert (D12' : (dd (still four) 1 1 2 ^ 2 < 4225)%R) by nra.
      clear - Hp Hq Hn' Hpq W0 W1 W2 Hge' D12' D01 D02 D03 D12 D13 D23 D10 D20 D30 D21 D31 D32 D00 D11 D22 D33.
      do 4 (destruct n' as [|n']; [do 4 (destruct p as [|p]; [do 4 (destruct q as [|q];
      [try congruence; try reflexivity; exfalso;
       rewrite ?D00, ?D11, ?D22, ?D33, ?D10, ?D20, ?D30, ?D21, ?D31, ?D32, ?D01, ?D02, ?D03, ?D13, ?D23 in *;
       first [lra | specialize (W0 ltac:(lia) ltac:(lia)); lra | specialize (W1 ltac:(lia) ltac:(lia)); lra
         | specialize (W2 ltac:(lia) ltac:(lia)); lra]|]); lia|]); lia|]); lia.
  - destruct (three argsort HA (still four) 1 4 ltac:(lia) Rsum
      (fun c => Rsum (map (fun ab => dd (still four) 1 (fst ab) (snd ab)) (pairs c)))
      (fun c L H => score_any Rsum (still four) 1 4 c L H)) as (t & n & x & b & Ht & Hn & Hx & X1 & X2 & Hmax & Hext & E & Lb & Hb & Hge & Hc).
    { intros. unfold Rsum. cbn [pairs map app fold_right fst snd]. lra. }
    rewrite E. f_equal.
    pose proof (Hmax 0 3 ltac:(lia) ltac:(lia)) as Q. pose proof (Hext 2 ltac:(lia)) as Q1.
    clear Hext Hmax E Hd Hr HS. unfold Rsum in Q1, Hge. cbn [pairs map app fold_right fst snd] in Q1, Hge.
    assert (Htn : (t = 0 /\ n = 3) \/ (t = 3 /\ n = 0)).
    { clear - Q Ht Hn D01 D02 D03 D12 D13 D23 D10 D20 D30 D21 D31 D32 D00 D11 D22 D33.
      do 4 (destruct t as [|t]; [do 4 (destruct n as [|n]; [try lra; auto|]); lia|]); lia. }
    assert (Hx1 : x = 2).
    { clear Hge Hc. destruct Htn as [[-> ->]|[-> ->]]; specialize (Q1 ltac:(lia) ltac:(lia));
      (do 4 (destruct x as [|x]; [try congruence; try (exfalso; lra); auto|])); lia. }
    subst x.
    destruct Hc as [->|(n' & p & q & -> & Hn' & Hpq & Hfar)].
    + destruct Htn as [[-> ->]|[-> ->]]; reflexivity.
    + assert (Hp : p < 4) by (apply Hb; simpl; auto). assert (Hq : q < 4) by (apply Hb; simpl; auto).
      pose proof (Hfar 0 ltac:(lia)) as W0. pose proof (Hfar 1 ltac:(lia)) as W1.
      pose proof (Hfar 2 ltac:(lia)) as W2. cbn [pairs map app fold_right fst snd] in Hge.
      assert (Hge' : (192 <= dd (still four) 1 p q + (dd (still four) 1 p n' + (dd (still four) 1 q n' + 0)))%R).
      { destruct Htn as [[-> ->]|[-> ->]]; lra. }
      clear - Hp Hq Hn' Hpq W0 W1 W2 Hge' D01 D02 D03 D12 D13 D23 D10 D20 D30 D21 D31 D32 D00 D11 D22 D33.
      do 4 (destruct n' as [|n']; [do 4 (destruct p as [|p]; [do 4 (destruct q as [|q];
      [try congruence; try reflexivity; exfalso;
       first [lra | specialize (W0 ltac:(lia) ltac:(lia)); lra | specialize (W1 ltac:(lia) ltac:(lia)); lra
         | specialize (W2 ltac:(lia) ltac:(lia)); lra]|]); lia|]); lia|]); lia.
Qed.

(** ** An argsort *)
Fixpoint key_insert (key : nat -> R) (x : nat) (l : list nat) : list nat :=
  match l with [] => [x] | y :: r => if Rle_dec (key x) (key y) then x :: l else y :: key_insert key x r end.
Definition some_argsort (l : list R) : list nat := fold_right (key_insert (fun i => nth i l 0%R)) [] (seq 0 (length l)).
Lemma key_insert_perm : forall key x l, Permutation (key_insert key x l) (x :: l).
Proof.
  induction l; simpl; auto. destruct (Rle_dec _ _); auto. eapply perm_trans; [apply perm_skip, IHl|apply perm_swap].
Qed.
Lemma key_insert_sorted : forall key x l, StronglySorted (fun a b => (key a <= key b)%R) l ->
  StronglySorted (fun a b => (key a <= key b)%R) (key_insert key x l).
Proof.
  induction l; simpl; intros H; [repeat constructor|]. inversion H as [|? ? H1 H2]; subst. rewrite Forall_forall in H2.
  destruct (Rle_dec _ _) as [r|r].
  - constructor; auto. constructor; auto. apply Forall_forall. intros y Hy. specialize (H2 y Hy). simpl in *. lra.
  - constructor; auto. apply Forall_forall. intros y Hy. apply (Permutation_in _ (key_insert_perm key x l)) in Hy.
    destruct Hy as [<-|Hy]; [lra|]. apply H2; auto.
Qed.
Lemma sorted_nth : forall (P : nat -> nat -> Prop) l, StronglySorted P l -> forall i j a b, i < j ->
  nth_error l i = Some a -> nth_error l j = Some b -> P a b.
Proof.
  induction 1 as [|x l H IH HF]; intros i j a b Hij Ha Hb; [destruct i; discriminate|].
  destruct j; [lia|]. destruct i; simpl in *.
  - injection Ha as <-. rewrite Forall_forall in HF. apply HF. eapply nth_error_In; eauto.
  - apply (IH i j); auto. lia.
Qed.
Theorem some_argsort_valid : valid_argsort some_argsort.
Proof.
  intros l. unfold some_argsort. generalize (seq 0 (length l)) as idx. intros idx. split.
  - induction idx; simpl; auto. eapply perm_trans; [apply key_insert_perm|]. auto.
  - intros i j a b Hij Ha Hb. revert i j a b Hij Ha Hb. apply (sorted_nth (fun a b => (nth a l 0 <= nth b l 0)%R)).
    induction idx; simpl; [constructor|]. apply (key_insert_sorted (fun i => nth i l 0%R)); auto.
Qed.
