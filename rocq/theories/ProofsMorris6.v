(** * Morris analyser: elementary effects on a design. *)
From Coq Require Import Reals String List Arith ZArith Bool Lia Lra Permutation Sorted.
From Verif Require Import Base Arrays ListFacts ModelGroups ModelScale ProofsScale Stats Sums SpecGroups SpecSobol SpecFF
  ProofsGroups ProofsFF2 ProofsFF3 ModelFast ModelMorris ModelMorrisAnalyze SpecMorris ProofsMorris1 ProofsMorris2 ProofsMorris3
  ProofsMorris5.
Import ListNotations.
Local Open Scope nat_scope.

(** ** One coordinate along a trajectory *)
Lemma coord_path : forall ls h order T j x r, ordered_trajectory ls h order T ->
  nth_error ls j = Some x -> nth_error order r = Some x ->
  exists s a, (s = 1 \/ s = -1)%R /\
    forall k, k < length T -> nth j (nth k T []) 0%R = (if k <=? r then a else a + s * h j)%R.
Proof.
  intros ls h order T j x r (HN & HI & HL & HW & HM) Hj Hr.
  assert (Hrl : r < length order) by (eapply nth_error_Some_lt; eauto).
  assert (Hjl : j < length ls) by (eapply nth_error_Some_lt; eauto).
  assert (Hrow : forall k, k < length T -> nth_error T k = Some (nth k T [])).
  { intros k Hk. apply nth_error_nth'; auto. }
  assert (Hco : forall k, k < length T -> nth_error (nth k T []) j = Some (nth j (nth k T []) 0%R)).
  { intros k Hk. apply nth_error_nth'. rewrite Forall_forall in HW. rewrite (HW (nth k T [])); auto.
    apply nth_In; auto. }
  assert (Hstay : forall k, k + 1 < length T -> k <> r -> nth j (nth (k + 1) T []) 0%R = nth j (nth k T []) 0%R).
  { intros k Hk Hne. destruct (nth_error_lt_Some order (i:=k)) as [y Hy]; [lia|].
    destruct (HM k y _ _ Hy (Hrow k ltac:(lia)) (Hrow (k + 1) Hk)) as [_ Hm].
    destruct (Hm j _ (Hco k ltac:(lia))) as [_ H2].
    assert (Hn : ~ nth_error ls j = Some y).
    { intros E. apply Hne. apply (proj1 (NoDup_nth_error order) HN); [eapply nth_error_Some_lt; eauto|]. congruence. }
    specialize (H2 Hn). rewrite (Hco (k + 1) Hk) in H2. congruence. }
  destruct (HM r x _ _ Hr (Hrow r ltac:(lia)) (Hrow (r + 1) ltac:(lia))) as [_ Hm].
  destruct (Hm j _ (Hco r ltac:(lia))) as [Hmv _]. specialize (Hmv Hj).
  rewrite (Hco (r + 1) ltac:(lia)) in Hmv.
  assert (Hs : exists s, (s = 1 \/ s = -1)%R /\
     nth j (nth (r + 1) T []) 0%R = (nth j (nth r T []) 0 + s * h j)%R).
  { destruct Hmv as [E|E]; injection E as E; [exists 1%R|exists (-1)%R]; (split; [auto|]); rewrite E; ring. }
  destruct Hs as (s & Hs & E1). exists s, (nth j (nth 0 T []) 0%R). split; auto.
  assert (Hbefore : forall k, k <= r -> nth j (nth k T []) 0%R = nth j (nth 0 T []) 0%R).
  { induction k; intros Hk; auto. rewrite <- IHk by lia. replace (S k) with (k + 1) by lia. apply Hstay; lia. }
  assert (Hafter : forall d, r + 1 + d < length T -> nth j (nth (r + 1 + d) T []) 0%R = nth j (nth (r + 1) T []) 0%R).
  { induction d; intros Hd; [rewrite Nat.add_0_r; auto|]. rewrite <- IHd by lia.
    replace (r + 1 + S d) with (r + 1 + d + 1) by lia. apply Hstay; lia. }
  intros k Hk. destruct (Nat.leb_spec k r) as [H|H]; [auto|].
  replace k with (r + 1 + (k - r - 1)) by lia. rewrite Hafter by lia. rewrite E1, Hbefore by lia. auto.
Qed.

Section OneTrajectory.
Variable size : nat.
Variable X : list (list R).
Variable Y : list R.
Variables (i j r : nat) (a s hj : R).
Hypothesis Hs : (s = 1 \/ s = -1)%R.
Hypothesis Hh : (0 < hj)%R.
Hypothesis Hr : r + 1 < size.
Hypothesis Hx : forall k, k < size -> x_at size X i k j = (if k <=? r then a else a + s * hj)%R.

Lemma step_value : forall k, k + 1 < size ->
  (x_at size X i (k + 1) j - x_at size X i k j = if k =? r then s * hj else 0)%R.
Proof.
  intros k Hk. rewrite !Hx by lia.
  destruct (Nat.leb_spec (k + 1) r), (Nat.leb_spec k r), (Nat.eqb_spec k r); try lia; lra.
Qed.

Lemma increased_iff : forall k, k + 1 < size -> increased size X i k j = (k =? r) && Rltb 0 s.
Proof.
  intros k Hk. unfold increased. rewrite (step_value k Hk). destruct (k =? r); cbn [andb].
  - destruct Hs as [-> | ->].
    + rewrite (proj2 (Rltb_true 0 (1 * hj))), (proj2 (Rltb_true 0 1)); auto; lra.
    + rewrite (proj2 (Rltb_false 0 (-1 * hj))), (proj2 (Rltb_false 0 (-1))); auto; lra.
  - apply Rltb_false. lra.
Qed.

Lemma decreased_iff : forall k, k + 1 < size -> decreased size X i k j = (k =? r) && Rltb s 0.
Proof.
  intros k Hk. unfold decreased. rewrite (step_value k Hk). destruct (k =? r); cbn [andb].
  - destruct Hs as [-> | ->].
    + rewrite (proj2 (Rltb_false (1 * hj) 0)), (proj2 (Rltb_false 1 0)); auto; lra.
    + rewrite (proj2 (Rltb_true (-1 * hj) 0)), (proj2 (Rltb_true (-1) 0)); auto; lra.
  - apply Rltb_false. lra.
Qed.

Lemma pad_before_iff : forall f b, (forall k, k + 1 < size -> f k = (k =? r) && b) ->
  forall k, k < size -> pad_before size f k = (k =? r + 1) && b.
Proof.
  intros f b Hf k Hk. unfold pad_before. destruct k as [|k].
  - destruct (Nat.eqb_spec 0 (r + 1)); [lia|auto].
  - assert (E : k <? size - 1 = true) by (apply Nat.ltb_lt; lia). rewrite E, Hf by lia. cbn [andb].
    replace (S k =? r + 1) with (k =? r); auto.
    destruct (Nat.eqb_spec k r), (Nat.eqb_spec (S k) (r + 1)); auto; lia.
Qed.

Lemma pad_after_iff : forall f b, (forall k, k + 1 < size -> f k = (k =? r) && b) ->
  forall k, k < size -> pad_after size f k = (k =? r) && b.
Proof.
  intros f b Hf k Hk. unfold pad_after. destruct (Nat.ltb_spec k (size - 1)) as [H|H].
  - rewrite Hf by lia. auto.
  - destruct (Nat.eqb_spec k r); [lia|]. auto.
Qed.

Lemma sum_pick : forall q (f : nat -> bool), q < size -> (forall k, k < size -> f k = (k =? q)) ->
  sum size (fun k => if f k then y_at size Y i k else 0%R) = y_at size Y i q.
Proof.
  intros q f Hq Hf. rewrite (sum_delta size (fun k => if f k then y_at size Y i k else 0%R) q Hq).
  - rewrite Hf, Nat.eqb_refl by auto. auto.
  - intros k Hk Hne. rewrite Hf by auto. apply Nat.eqb_neq in Hne. rewrite Hne. auto.
Qed.

Lemma difference_step : difference size X Y i j = (s * (y_at size Y i (r + 1) - y_at size Y i r))%R.
Proof.
  unfold difference, reorganize.
  assert (HI := increased_iff). assert (HD := decreased_iff).
  destruct Hs as [E|E]; rewrite E in HI, HD; rewrite E.
  - rewrite (sum_pick (r + 1)); [rewrite (sum_pick r); [ring|lia|]|lia|].
    + intros k Hk. rewrite (pad_after_iff _ _ HI), (pad_before_iff _ _ HD) by auto.
      rewrite (proj2 (Rltb_true 0 1)), (proj2 (Rltb_false 1 0)) by lra.
      rewrite andb_true_r, andb_false_r, orb_false_r. auto.
    + intros k Hk. rewrite (pad_before_iff _ _ HI), (pad_after_iff _ _ HD) by auto.
      rewrite (proj2 (Rltb_true 0 1)), (proj2 (Rltb_false 1 0)) by lra.
      rewrite andb_true_r, andb_false_r, orb_false_r. auto.
  - rewrite (sum_pick r); [rewrite (sum_pick (r + 1)); [ring|lia|]|lia|].
    + intros k Hk. rewrite (pad_after_iff _ _ HI), (pad_before_iff _ _ HD) by auto.
      rewrite (proj2 (Rltb_false 0 (-1))), (proj2 (Rltb_true (-1) 0)) by lra.
      rewrite andb_true_r, andb_false_r. auto.
    + intros k Hk. rewrite (pad_before_iff _ _ HI), (pad_after_iff _ _ HD) by auto.
      rewrite (proj2 (Rltb_false 0 (-1))), (proj2 (Rltb_true (-1) 0)) by lra.
      rewrite andb_true_r, andb_false_r. auto.
Qed.

Lemma step_size_x : (maxl (xs_of size X i j) - minl (xs_of size X i j) = hj)%R.
Proof.
  assert (Hne : xs_of size X i j <> []) by (unfold xs_of; destruct size; [lia|discriminate]).
  assert (Hin : forall v, In v (xs_of size X i j) <-> (v = a \/ v = a + s * hj)%R).
  { intros v. unfold xs_of. rewrite in_map_iff. split.
    - intros (k & <- & Hk). apply in_seq in Hk. rewrite Hx by lia. destruct (k <=? r); auto.
    - intros [-> | ->].
      + exists 0. split; [rewrite Hx by lia; auto|apply in_seq; lia].
      + exists (r + 1). split; [|apply in_seq; lia]. rewrite Hx by lia.
        destruct (Nat.leb_spec (r + 1) r); [lia|auto]. }
  destruct (maxl_spec _ Hne) as [M1 M2]. destruct (minl_spec _ Hne) as [m1 m2].
  apply Hin in M1. apply Hin in m1.
  pose proof (M2 a (proj2 (Hin a) (or_introl eq_refl))). pose proof (M2 _ (proj2 (Hin _) (or_intror eq_refl))).
  pose proof (m2 a (proj2 (Hin a) (or_introl eq_refl))). pose proof (m2 _ (proj2 (Hin _) (or_intror eq_refl))).
  destruct Hs as [E|E]; rewrite E in *; destruct M1 as [M1|M1], m1 as [m1|m1]; rewrite M1, m1 in *; lra.
Qed.
End OneTrajectory.

(** ** Whole samples *)
Lemma nth_blocks : forall A size (bs : list (list A)) i k d, 0 < size -> Forall (fun b => length b = size) bs ->
  k < size -> nth (i * size + k) (concat bs) d = nth k (nth i bs []) d.
Proof.
  intros A size bs i k d Hsz HF Hk.
  pose proof (@concat_uniform_nth A size Hsz bs (i * size + k) HF) as E.
  assert (E1 : (i * size + k) / size = i) by (rewrite Nat.add_comm, Nat.div_add by lia; rewrite Nat.div_small; lia).
  assert (E2 : (i * size + k) mod size = k) by (rewrite Nat.add_comm, Nat.mod_add by lia; apply Nat.mod_small; auto).
  rewrite E1, E2 in E.
  destruct (nth_error bs i) as [b|] eqn:Eb.
  - rewrite (nth_error_nth _ _ _ Eb).
    destruct (nth_error b k) as [x|] eqn:Ex.
    + rewrite (nth_error_nth _ _ _ E), (nth_error_nth _ _ _ Ex). auto.
    + exfalso. apply nth_error_None in Ex. rewrite Forall_forall in HF.
      rewrite (HF b) in Ex by (eapply nth_error_In; eauto). lia.
  - apply nth_error_None in E, Eb. rewrite !nth_overflow; auto.
    + rewrite (nth_overflow bs) by auto. simpl. lia.
Qed.

Definition sized (size : nat) (Ts : list (list (list R))) (ys : list (list R)) : Prop :=
  Forall (fun T => length T = size) Ts /\ Forall (fun y => length y = size) ys /\ length ys = length Ts.

Lemma x_at_nth : forall size Ts i k j, 0 < size -> Forall (fun T => length T = size) Ts -> k < size ->
  x_at size (concat Ts) i k j = nth j (nth k (nth i Ts []) []) 0%R.
Proof. intros. unfold x_at. rewrite nth_blocks; auto. Qed.
Lemma y_at_nth : forall size ys i k, 0 < size -> Forall (fun y => length y = size) ys -> k < size ->
  y_at size (concat ys) i k = nth k (nth i ys []) 0%R.
Proof. intros. unfold y_at. rewrite nth_blocks; auto. Qed.

Lemma evaluated_sized : forall ls h Ts ys, evaluated ls h Ts ys -> sized (length (pd_unique ls) + 1) Ts ys.
Proof.
  intros ls h Ts ys [HT HF].
  assert (H1 : Forall (fun T => length T = length (pd_unique ls) + 1) Ts).
  { eapply Forall_impl; [|exact HT]. intros T (order & A & B & C & _). rewrite C. f_equal.
    apply distinct_count_unique. exists order. auto. }
  split; auto. clear HT. split.
  - induction HF; auto. inversion H1; subst. constructor; auto. congruence.
  - induction HF; auto. inversion H1; subst. simpl. f_equal. auto.
Qed.

(** The effect of parameter [j] in trajectory [i], with its step and direction. *)
Lemma difference_effect : forall ls h Ts ys i j, evaluated ls h Ts ys -> (forall j, j < length ls -> (0 < h j)%R) ->
  i < length Ts -> j < length ls ->
  let size := length (pd_unique ls) + 1 in
  exists order r s a, ordered_trajectory ls h order (nth i Ts []) /\ nth_error order r = nth_error ls j /\
    r + 1 < size /\ (s = 1 \/ s = -1)%R /\
    (forall k, k < size -> nth j (nth k (nth i Ts []) []) 0%R = (if k <=? r then a else a + s * h j)%R) /\
    difference size (concat Ts) (concat ys) i j =
      (s * (nth (r + 1)%nat (nth i ys []) 0 - nth r (nth i ys []) 0))%R /\
    (maxl (xs_of size (concat Ts) i j) - minl (xs_of size (concat Ts) i j) = h j)%R.
Proof.
  intros ls h Ts ys i j HE Hh Hi Hj size.
  destruct (evaluated_sized _ _ _ _ HE) as (HS1 & HS2 & HS3). fold size in HS1, HS2.
  assert (Hsz : 0 < size) by (unfold size; lia).
  destruct HE as [HT _]. rewrite Forall_forall in HT.
  destruct (HT (nth i Ts [])) as [order Ho]; [apply nth_In; auto|].
  destruct (nth_error_lt_Some ls Hj) as [x Hx].
  assert (Hin : In x order). { destruct Ho as (_ & HI & _). apply HI. eapply nth_error_In; eauto. }
  apply In_nth_error in Hin. destruct Hin as [r Hr].
  destruct (coord_path ls h order _ j x r Ho Hx Hr) as (s & a & Hs & Hp).
  assert (HL : length (nth i Ts []) = size).
  { rewrite Forall_forall in HS1. apply HS1, nth_In; auto. }
  assert (Hrl : r + 1 < size).
  { rewrite <- HL. destruct Ho as (_ & _ & HLT & _). rewrite HLT.
    assert (r < length order) by (eapply nth_error_Some_lt; eauto). lia. }
  rewrite HL in Hp.
  assert (Hxa : forall k, k < size -> x_at size (concat Ts) i k j = (if k <=? r then a else a + s * h j)%R).
  { intros k Hk. rewrite x_at_nth by auto. auto. }
  exists order, r, s, a. split; auto. split; [congruence|]. split; auto. split; auto. split; auto. split.
  - rewrite (difference_step size (concat Ts) (concat ys) i j r a s (h j)) by auto.
    rewrite !y_at_nth by (auto; lia). auto.
  - apply (step_size_x size (concat Ts) i j r a s (h j)); auto.
Qed.
