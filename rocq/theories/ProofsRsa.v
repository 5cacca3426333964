(** * RSA: bins and cells. *)
From Coq Require Import Reals String List Arith ZArith Bool Lia Lra Permutation.
From Verif Require Import Base Arrays ListFacts ModelGroups ProofsGroups ModelScale ProofsScale Stats Sums ModelFast ModelMorris ModelMorrisAnalyze
  Quant ModelPawn SpecPawn ProofsPawn ModelRsa SpecRsa.
Import ListNotations.
Local Open Scope nat_scope.

(** ** Bins *)
Section Cuts.
  Variables (xs : list R) (n : nat) (c : nat -> R).
  Hypotheses (Hx : xs <> []) (Hn : 0 < n) (Hc : forall k, k <= n -> quantile_at xs (INR k / INR n) (c k)).

  Lemma bin_exists : forall x, (c 0 <= x)%R -> forall m, 0 < m -> (x <= c m)%R -> exists s, s < m /\ in_bin c s x.
  Proof using.
    clear Hx Hn Hc. intros x H0 m. induction m as [|m IH]; intros Hm Hx; [lia|].
    destruct (Nat.eq_dec m 0) as [->|Hm0].
    - exists 0. split; auto. repeat split; auto; try lia.
    - destruct (Rle_lt_dec x (c m)) as [L|L].
      + destruct IH as (s & Hs & Hi); auto; try lia. exists s. split; auto.
      + exists m. split; auto. repeat split; auto; try lia. rewrite Nat.add_1_r. auto.
  Qed.

  Lemma bins_partition : forall x, In x xs -> exists! s, s < n /\ in_bin c s x.
  Proof using Hx Hn Hc.
    intros x Hi. destruct (minl_spec xs Hx) as [_ Lm]. destruct (maxl_spec xs Hx) as [_ LM].
    destruct (bin_exists x ltac:(rewrite (cuts_first xs n c); auto) n Hn ltac:(rewrite (cuts_last xs n c); auto)) as (s & Hs & Hb).
    exists s. split; auto. intros s' [Hs' Hb']. destruct Hb as (A & B & C). destruct Hb' as (A' & B' & C').
    destruct (Nat.lt_trichotomy s s') as [L|[L|L]]; auto; exfalso.
    - pose proof (cuts_mono xs n c Hx Hn Hc (s + 1) s' ltac:(lia) ltac:(lia)). specialize (B' ltac:(lia)). lra.
    - pose proof (cuts_mono xs n c Hx Hn Hc (s' + 1) s ltac:(lia) ltac:(lia)). specialize (B ltac:(lia)). lra.
  Qed.
End Cuts.

(** ** Distinct values *)
Lemma distinct_nodup : forall l, distinct l = length (nodup Req_EM_T l).
Proof. induction l as [|x l IH]; simpl; auto. destruct (in_dec Req_EM_T x l); simpl; auto. Qed.
Lemma distinct_two : forall l, 1 < distinct l <-> two_different l.
Proof.
  intros l. rewrite distinct_nodup. pose proof (NoDup_nodup Req_EM_T l) as ND. pose proof (nodup_In Req_EM_T l) as HI. split.
  - intros H. destruct (nodup Req_EM_T l) as [|a [|b r]]; simpl in H; try lia.
    exists a, b. split; [apply HI; left; auto|]. split; [apply HI; right; left; auto|].
    inversion ND; subst. intros E. apply H2. left. auto.
  - intros (a & b & Ha & Hb & Hab). apply HI in Ha, Hb. destruct (nodup Req_EM_T l) as [|x [|y r]]; simpl in *; try tauto; try lia.
    exfalso. apply Hab. destruct Ha as [<-|[]], Hb as [<-|[]]. auto.
Qed.

(** ** Cells *)
Lemma select_inside : forall (f : R -> bool) t m, length t = length m -> select (map f t) m = Ok (inside f t m).
Proof.
  intros f t m H. unfold select. rewrite map_length, H, Nat.eqb_refl. f_equal. unfold inside.
  clear H. revert m. induction t as [|x t IH]; intros [|y m]; simpl; auto. destruct (f x); simpl; rewrite IH; auto.
Qed.
Lemma select_outside : forall (f : R -> bool) t m, length t = length m -> select (map negb (map f t)) m = Ok (outside f t m).
Proof.
  intros f t m H. rewrite map_map. rewrite (select_inside (fun x => negb (f x))) by auto. reflexivity.
Qed.
Lemma outside_length : forall f t a b, length t = length a -> length t = length b -> length (outside f t a) = length (outside f t b).
Proof.
  unfold outside. induction t as [|x t IH]; intros [|u a] [|v b] Ha Hb; simpl in *; try discriminate; auto.
  destruct (f x); simpl; auto.
Qed.
Lemma inside_length : forall f t a b, length t = length a -> length t = length b -> length (inside f t a) = length (inside f t b).
Proof.
  unfold inside. induction t as [|x t IH]; intros [|u a] [|v b] Ha Hb; simpl in *; try discriminate; auto.
  destruct (f x); simpl; auto.
Qed.
Lemma inside_none : forall f t m, existsb (fun b => b) (map f t) = false -> inside f t m = [].
Proof.
  unfold inside. induction t as [|x t IH]; intros [|y m] H; simpl in *; auto. apply orb_false_iff in H. destruct H as [-> H]. auto.
Qed.

(** *** The statistic *)
Lemma count_lt_sum : forall l t, INR (count_lt l t) = Rsum (map (fun x => if Rlt_dec x t then 1 else 0)%R l).
Proof.
  unfold count_lt. induction l as [|x l IH]; intros t; simpl; auto. destruct (Rlt_dec x t).
  - simpl length. rewrite S_INR, IH. ring.
  - rewrite IH. ring.
Qed.
Lemma count_lt_le : forall l t, count_lt l t <= count_le l t.
Proof.
  intros l t. unfold count_lt, count_le. induction l as [|x l IH]; simpl; auto.
  destruct (Rlt_dec x t), (Rle_dec x t); simpl; try lia. exfalso. lra.
Qed.
Lemma midrank_spec : forall z v, midrank z v = rank_in z v.
Proof.
  intros z v. unfold midrank, rank_in. rewrite minus_INR by apply count_lt_le. rewrite count_lt_sum, count_le_sum.
  assert (E : (Rsum (map (fun w => if Rlt_dec w v then 1 else if Req_EM_T w v then 1/2 else 0) z) =
     Rsum (map (fun x => if Rlt_dec x v then 1 else 0) z) + (Rsum (map (fun x => if Rle_dec x v then 1 else 0) z) - Rsum (map (fun x => if Rlt_dec x v then 1 else 0) z)) / 2)%R).
  { induction z as [|w z IH]; simpl; [lra|]. rewrite IH. destruct (Rlt_dec w v), (Req_EM_T w v), (Rle_dec w v); lra. }
  rewrite E. field.
Qed.
Lemma rank_perm : forall z z' v, Permutation z z' -> rank_in z v = rank_in z' v.
Proof. intros z z' v H. unfold rank_in. f_equal. apply Rsum_perm, Permutation_map. auto. Qed.

Lemma cvm_spec : forall x y, 2 <= length x -> 2 <= length y -> exists v, cvm_2samp x y = Ok v /\ cvm_is x y v.
Proof.
  intros x y Hx Hy. unfold cvm_2samp. destruct (Nat.leb_spec (length x) 1); [lia|]. destruct (Nat.leb_spec (length y) 1); [lia|]. simpl orb. cbn iota.
  eexists. split; [reflexivity|]. exists (sortR x), (sortR y).
  do 2 (split; [apply sortR_ascending|split; [apply sortR_perm|]]). cbv zeta.
  assert (E : forall l, rank_gap (sortR x ++ sortR y) l = Rsum (map (fun i => (rank_in (x ++ y) (nth i l 0) - INR (i + 1)) ^ 2)%R (seq 0 (length l)))).
  { intros l. unfold rank_gap. apply Rsum_ext. intros i _. rewrite midrank_spec.
    rewrite (rank_perm _ (x ++ y)); auto. apply Permutation_app; apply sortR_perm. }
  rewrite !E. reflexivity.
Qed.

Definition bin_keep (c : nat -> R) (s : nat) (x : R) : bool :=
  (if s =? 0 then (if Rle_dec (c 0) x then true else false) else (if Rlt_dec (c s) x then true else false))
  && (if Rle_dec x (c (s + 1)) then true else false).
Lemma bin_keep_spec : forall c s x, bin_keep c s x = true <-> in_bin c s x.
Proof.
  intros c s x. unfold bin_keep, in_bin. rewrite andb_true_iff.
  assert (D : forall a b, (if Rle_dec a b then true else false) = true <-> (a <= b)%R) by (intros a b; destruct (Rle_dec a b); split; auto; discriminate).
  assert (D' : forall a b, (if Rlt_dec a b then true else false) = true <-> (a < b)%R) by (intros a b; destruct (Rlt_dec a b); split; auto; discriminate).
  rewrite D. destruct (Nat.eqb_spec s 0) as [->|Hs].
  - rewrite D. split; [intros [A B]; repeat split; auto; lia|intros (A & _ & B); auto].
  - rewrite D'. split; [intros [A B]; repeat split; auto; lia|intros (_ & A & B); split; auto; apply A; lia].
Qed.

Lemma inside_two_length : forall l, two_different l -> 2 <= length l.
Proof. intros l (a & b & Ha & Hb & Hab). destruct l as [|x [|y l]]; simpl in *; try tauto; try lia. exfalso. apply Hab. destruct Ha as [<-|[]], Hb as [<-|[]]. auto. Qed.

Lemma cell_ok : forall c t y m s, length t = length y -> length t = length m ->
  bin_cell c t y m s (rsa_cell y m (rsa_bin c t s)).
Proof.
  intros c t y m s Hy Hm. exists (bin_keep c s). split; [apply bin_keep_spec|]. cbv zeta.
  unfold rsa_bin. change (fun x => _ && _) with (bin_keep c s).
  unfold rsa_cell, has_samples.
  assert (HO : length (outside (bin_keep c s) t y) = length (outside (bin_keep c s) t m)) by (apply outside_length; auto).
  assert (HI : length (inside (bin_keep c s) t y) = length (inside (bin_keep c s) t m)) by (apply inside_length; auto).
  destruct (existsb (fun b => b) (map (bin_keep c s) t)) eqn:EX.
  - rewrite select_outside by auto. rewrite select_inside by auto. cbn [bind]. rewrite HO.
    destruct (Nat.eqb_spec (length (outside (bin_keep c s) t m)) 0) as [E0|E0].
    + cbn [bind]. apply length_zero_iff_nil in E0. rewrite E0. simpl. split; auto. split; intros _ H; [discriminate|lia].
    + cbn [bind]. destruct (Nat.ltb_spec 1 (distinct (inside (bin_keep c s) t y))) as [L|L].
      * apply distinct_two in L. rewrite (select_inside _ t m), select_outside by auto. cbn [bind].
        split; [intros [H|H]; [rewrite H in E0; simpl in E0; lia|contradiction]|]. split.
        -- intros _ H1. unfold cvm_2samp. rewrite H1. rewrite orb_true_r. reflexivity.
        -- intros _ H2. apply inside_two_length in L. destruct (cvm_spec (inside (bin_keep c s) t m) (outside (bin_keep c s) t m)) as (v & E & V); auto; try lia.
           rewrite E. cbn [bind]. eauto.
      * assert (ND : ~ two_different (inside (bin_keep c s) t y)) by (intros H; apply distinct_two in H; lia).
        split; auto. split; intros H; contradiction.
  - rewrite (inside_none _ _ y EX). cbn [bind]. split; auto. split; intros (a & b & [] & _).
Qed.
