(** * RBD-FAST: reordering and spectrum. *)
From Coq Require Import Reals String List Arith ZArith Bool Lia Lra Permutation Sorted.
From Verif Require Import Base Arrays ListFacts ModelGroups ModelScale ProofsScale Stats Sums ModelFast SpecFast ProofsFast2 ProofsMorris3 ModelRbd SpecRbd.
Import ListNotations.
Local Open Scope nat_scope.

(** ** every2 *)
Lemma list_ind2 : forall A (P : list A -> Prop), P [] -> (forall x, P [x]) -> (forall x y l, P l -> P (x :: y :: l)) -> forall l, P l.
Proof.
  intros A P H0 H1 H2. assert (H : forall l, P l /\ forall x, P (x :: l)).
  { induction l as [|y l [IH1 IH2]]; split; auto. }
  intros l. apply H.
Qed.

Lemma every2_nth : forall A (l : list A) k, nth_error (every2 l) k = nth_error l (2 * k).
Proof.
  intros A l. induction l using list_ind2; intros k.
  - simpl. rewrite !nth_error_nil. reflexivity.
  - destruct k; simpl; auto. rewrite nth_error_nil. replace (k + S (k + 0)) with (S (2 * k)) by lia. simpl. reflexivity.
  - destruct k; [reflexivity|]. cbn [every2 nth_error]. rewrite IHl. replace (2 * S k) with (S (S (2 * k))) by lia. reflexivity.
Qed.

Lemma every2_length : forall A (l : list A), length (every2 l) = (length l + 1) / 2.
Proof.
  intros A l. induction l using list_ind2; auto. cbn [every2 length]. rewrite IHl.
  replace (S (S (length l)) + 1) with (1 * 2 + (length l + 1)) by lia. rewrite Nat.div_add_l by lia. lia.
Qed.

Lemma every2_perm : forall A (l : list A), Permutation (every2 l ++ every2 (tl l)) l.
Proof.
  intros A l. induction l using list_ind2; auto.
  cbn [every2 tl]. destruct l as [|z l].
  - simpl. apply Permutation_refl.
  - change (every2 (y :: z :: l)) with (y :: every2 l). cbn [tl] in IHl. simpl. apply perm_skip.
    etransitivity; [symmetry; apply Permutation_middle|]. apply perm_skip. exact IHl.
Qed.

Definition riffle {A} (s : list A) : list A := every2 s ++ rev (every2 (tl s)).

Lemma riffle_perm : forall A (s : list A), Permutation (riffle s) s.
Proof.
  intros. unfold riffle. etransitivity; [|apply every2_perm]. apply Permutation_app_head. symmetry. apply Permutation_rev.
Qed.

Lemma nth_error_rev : forall A (l : list A) k, k < length l -> nth_error (rev l) k = nth_error l (length l - 1 - k).
Proof.
  intros A l k Hk. destruct l as [|d l']; [simpl in Hk; lia|]. set (l := d :: l') in *.
  rewrite (nth_error_nth' (rev l) d) by (rewrite rev_length; auto). rewrite rev_nth by auto.
  symmetry. rewrite (nth_error_nth' l d) by lia. f_equal. f_equal. lia.
Qed.

Lemma riffle_nth : forall A (s : list A) k, k < length s ->
  nth_error (riffle s) k = nth_error s (rank_at (length s) k).
Proof.
  intros A s k Hk. unfold riffle, rank_at.
  assert (Ll : length (tl s) = length s - 1) by (destruct s; simpl; lia).
  assert (EL : length (every2 s) = (length s + 1) / 2) by apply every2_length.
  assert (EO : length (every2 (tl s)) = length s / 2).
  { rewrite every2_length, Ll. f_equal. lia. }
  pose proof (Nat.div_mod (length s) 2 ltac:(lia)) as DM. pose proof (Nat.mod_upper_bound (length s) 2 ltac:(lia)) as MB.
  assert (E1 : (length s + 1) / 2 = length s / 2 + length s mod 2).
  { destruct (length s mod 2) as [|[|m]] eqn:Em; [| |lia].
    - symmetry. apply Nat.div_unique with 1; lia.
    - symmetry. apply Nat.div_unique with 0; lia. }
  destruct (Nat.ltb_spec (2 * k) (length s)) as [H|H].
  - rewrite nth_error_app1 by lia. apply every2_nth.
  - rewrite nth_error_app2 by lia. rewrite nth_error_rev by lia. rewrite every2_nth.
    rewrite EL, EO. destruct s as [|d s]; [simpl in Hk; lia|]. cbn [tl].
    replace (2 * (length (d :: s) - 1 - k) + 1) with (S (2 * (length (d :: s) - 1 - k))) by lia. cbn [nth_error].
    f_equal. lia.
Qed.

(** ** permute_outputs *)
Lemma sorting_bound : forall X s i, sorting X s -> In i s -> i < length X.
Proof. intros X s i [H _] Hi. apply (Permutation_in _ H) in Hi. apply in_seq in Hi. lia. Qed.
Lemma sorting_length : forall X s, sorting X s -> length s = length X.
Proof. intros X s [H _]. rewrite (Permutation_length H), seq_length. auto. Qed.

Lemma permute_ok : forall argsort X Y, argsort_ok argsort -> length X <= length Y ->
  permute_outputs argsort X Y = Ok (map (fun i => nth i Y 0%R) (riffle (argsort X))).
Proof.
  intros argsort X Y Ha HL. unfold permute_outputs. fold (riffle (argsort X)). rewrite <- mapM_Ok_map. apply mapM_ext.
  intros i Hi. apply (Permutation_in _ (riffle_perm _ _)) in Hi. apply (sorting_bound X) in Hi; [|apply Ha].
  unfold get. rewrite (nth_error_nth' Y 0%R) by lia. reflexivity.
Qed.

Lemma permute_spec : forall argsort X Y, argsort_ok argsort -> length X = length Y ->
  exists s out, sorting X s /\ permute_outputs argsort X Y = Ok out /\ Permutation out Y /\
    forall k, k < length Y -> nth_error out k = option_map (fun i => nth i Y 0%R) (nth_error s (rank_at (length Y) k)).
Proof.
  intros argsort X Y Ha HL. exists (argsort X), (map (fun i => nth i Y 0%R) (riffle (argsort X))).
  split; [apply Ha|]. split; [apply permute_ok; auto; lia|]. split.
  - etransitivity; [apply Permutation_map; apply riffle_perm|].
    etransitivity; [apply Permutation_map; apply (proj1 (Ha X))|]. rewrite HL.
    rewrite <- (list_nth_seq R 0%R Y). reflexivity.
  - intros k Hk. rewrite nth_error_map, riffle_nth; rewrite (sorting_length X (argsort X)) by apply Ha; rewrite HL; auto.
Qed.

Lemma rank_at_rises : forall n k k', k < k' -> 2 * k' < n -> rank_at n k < rank_at n k'.
Proof. intros. unfold rank_at. destruct (Nat.ltb_spec (2 * k) n); destruct (Nat.ltb_spec (2 * k') n); lia. Qed.
Lemma rank_at_falls : forall n k k', k < k' -> k' < n -> n <= 2 * k -> rank_at n k' < rank_at n k.
Proof. intros. unfold rank_at. destruct (Nat.ltb_spec (2 * k) n); destruct (Nat.ltb_spec (2 * k') n); lia. Qed.

(** The parameter values met along the reordered outputs rise and then fall. *)
Lemma permute_rise_fall : forall argsort X Y, argsort_ok argsort -> length X = length Y ->
  exists xs out, Permutation (combine xs out) (combine X Y) /\ length xs = length Y /\
    permute_outputs argsort X Y = Ok out /\
    (forall k k', k < k' -> 2 * k' < length Y -> (nth k xs 0 <= nth k' xs 0)%R) /\
    (forall k k', k < k' -> k' < length Y -> length Y <= 2 * k -> (nth k' xs 0 <= nth k xs 0)%R).
Proof.
  intros argsort X Y Ha HL. set (s := argsort X). pose proof (Ha X) as Hs. fold s in Hs. pose proof (sorting_length _ _ Hs) as Ls.
  exists (map (fun i => nth i X 0%R) (riffle s)), (map (fun i => nth i Y 0%R) (riffle s)).
  assert (Lr : length (riffle s) = length Y) by (rewrite (Permutation_length (riffle_perm _ s)); lia).
  split; [|split; [rewrite map_length; auto|split; [apply permute_ok; auto; lia|]]].
  - assert (CM : forall l, combine (map (fun i => nth i X 0%R) l) (map (fun i => nth i Y 0%R) l) = map (fun i => (nth i X 0%R, nth i Y 0%R)) l)
      by (induction l; simpl; congruence).
    rewrite CM. etransitivity; [apply Permutation_map; apply riffle_perm|].
    etransitivity; [apply Permutation_map; apply (proj1 Hs)|].
    rewrite <- CM. rewrite <- (list_nth_seq R 0%R X), HL, <- (list_nth_seq R 0%R Y). reflexivity.
  - assert (NV : forall k, k < length Y -> exists i, nth_error s (rank_at (length Y) k) = Some i /\ nth k (map (fun i => nth i X 0%R) (riffle s)) 0%R = nth i X 0%R).
    { intros k Hk. assert (Hr : rank_at (length Y) k < length s).
      { unfold rank_at. destruct (Nat.ltb_spec (2 * k) (length Y)); lia. }
      destruct (nth_error_lt_Some s Hr) as [i Hi]. exists i. split; auto.
      apply nth_error_nth. rewrite nth_error_map, riffle_nth by lia. rewrite Ls, HL, Hi. reflexivity. }
    split; intros k k' Hk Hk'; [|intros Hk2]; destruct (NV k ltac:(lia)) as (i & Hi & ->); destruct (NV k' ltac:(lia)) as (j & Hj & ->).
    + apply (proj2 Hs) with (a := rank_at (length Y) k) (b := rank_at (length Y) k'); auto. apply rank_at_rises; auto.
    + apply (proj2 Hs) with (a := rank_at (length Y) k') (b := rank_at (length Y) k); auto. apply rank_at_falls; auto.
Qed.
