(** * Elementary effects in double precision. *)
From Coq Require Import Reals String List Arith ZArith Bool Lia Lra Permutation.
From Flocq Require Import Core.
From Verif Require Import Base Arrays ListFacts ModelGroups ModelScale ProofsScale Stats ModelFast ModelMorris ModelMorrisAnalyze ModelDouble ModelDouble2 ModelDouble4 ModelDouble5 SpecDouble3
  ProofsDouble ProofsDouble5 ProofsDouble10 ProofsDouble12.
Import ListNotations.
Local Open Scope R_scope.

(** ** Sums *)
Lemma tsum_zeros : forall t l, (forall i, In i (leaves t) -> nth i l 0 = 0) -> tsum t l = 0.
Proof.
  induction t; intros l H; cbn [tsum leaves] in *; [apply H; left; auto|].
  rewrite IHt1, IHt2 by (intros i Hi; apply H, in_or_app; auto). rewrite Rplus_0_r. apply fl_0.
Qed.
Lemma tsum_one : forall t l q, NoDup (leaves t) -> In q (leaves t) -> double (nth q l 0) -> (forall i, In i (leaves t) -> i <> q -> nth i l 0 = 0) -> tsum t l = nth q l 0.
Proof.
  induction t; intros l q N I D H; cbn [tsum leaves] in *; [destruct I as [E|E]; [subst; auto|destruct E]|].
  apply in_app_or in I. assert (DJ : forall a, In a (leaves t1) -> In a (leaves t2) -> False).
  { clear -N. induction (leaves t1) as [|b l1 IH]; cbn in *; intros a Ha H2; [destruct Ha|]. destruct Ha as [E|Ha]; [subst b|]; inversion_clear N; [apply H; apply in_or_app; auto|eauto]. }
  assert (N1 : NoDup (leaves t1)) by (clear -N; induction (leaves t1); [constructor|cbn in N; inversion_clear N; constructor; auto; intros X; apply H, in_or_app; auto]).
  assert (N2 : NoDup (leaves t2)) by (clear -N; induction (leaves t1); [auto|cbn in N; inversion_clear N; auto]).
  destruct I as [I|I].
  - rewrite (IHt1 l q) by (auto; intros i Hi; apply H, in_or_app; auto). rewrite (tsum_zeros t2).
    + rewrite Rplus_0_r. apply fl_double. auto.
    + intros i Hi. apply H; [apply in_or_app; auto|]. intros ->. eauto.
  - rewrite (IHt2 l q) by (auto; intros i Hi; apply H, in_or_app; auto). rewrite (tsum_zeros t1).
    + rewrite Rplus_0_l. apply fl_double. auto.
    + intros i Hi. apply H; [apply in_or_app; auto|]. intros ->. eauto.
Qed.
Lemma tsum_arranged : forall arr n l q, arrangement arr -> (q < n)%nat -> double (nth q l 0) -> (forall i, (i < n)%nat -> i <> q -> nth i l 0 = 0) -> tsum (arr n) l = nth q l 0.
Proof.
  intros arr n l q A Q D H. pose proof (A n ltac:(lia)) as P. apply tsum_one; auto.
  - eapply Permutation_NoDup; [apply Permutation_sym; exact P|apply seq_NoDup].
  - eapply Permutation_in; [apply Permutation_sym; exact P|]. apply in_seq. lia.
  - intros i Hi N. apply H; auto. apply (Permutation_in _ P), in_seq in Hi. lia.
Qed.
Lemma tsum_arranged_zero : forall arr n l, arrangement arr -> (0 < n)%nat -> (forall i, (i < n)%nat -> nth i l 0 = 0) -> tsum (arr n) l = 0.
Proof. intros arr n l A Q H. pose proof (A n Q) as P. apply tsum_zeros. intros i Hi. apply H. apply (Permutation_in _ P), in_seq in Hi. lia. Qed.

Lemma tsum_dom : forall t l l', (forall i, Rabs (nth i l 0) <= nth i l' 0) -> Rabs (tsum t l) <= tsum t l'.
Proof.
  induction t; intros l l' H; cbn [tsum]; auto. specialize (IHt1 l l' H). specialize (IHt2 l l' H). 
  assert (E : forall x, Rabs (fl x) = fl (Rabs x)).
  { intros x. unfold Rabs. destruct (Rcase_abs x), (Rcase_abs (fl x)); rewrite ?fl_opp; auto.
    - assert (fl x <= 0) by (apply fl_le; [apply double_0|lra]). lra.
    - pose proof (fl_pos x ltac:(lra)). lra. }
  rewrite E. apply fl_mono. eapply Rle_trans; [apply Rabs_triang|]. lra.
Qed.

(** ** The difference of outputs along one step *)
Section Steps.
Variables (S : sums) (size : nat) (X : list (list R)) (Y : list R).

Lemma inc_true : forall i k j, increased_fl size X i k j = true -> coord X (i * size + k) j < coord X (i * size + (k + 1)) j.
Proof.
  intros i k j H. apply Rltb_true in H. unfold x_at in H. fold (coord X (i * size + (k + 1)) j) in H. fold (coord X (i * size + k) j) in H.
  destruct (Rlt_dec (coord X (i * size + k) j) (coord X (i * size + (k + 1)) j)); auto. exfalso.
  assert (fl (coord X (i * size + (k + 1)) j - coord X (i * size + k) j) <= 0) by (apply fl_le; [apply double_0|lra]). lra.
Qed.
Lemma dec_true : forall i k j, decreased_fl size X i k j = true -> coord X (i * size + (k + 1)) j < coord X (i * size + k) j.
Proof.
  intros i k j H. apply Rltb_true in H. unfold x_at in H. fold (coord X (i * size + (k + 1)) j) in H. fold (coord X (i * size + k) j) in H.
  destruct (Rlt_dec (coord X (i * size + (k + 1)) j) (coord X (i * size + k) j)); auto. exfalso.
  pose proof (fl_pos (coord X (i * size + (k + 1)) j - coord X (i * size + k) j) ltac:(lra)). lra.
Qed.

Lemma nth_picked : forall up i j k, (k < size)%nat -> nth k (picked size X Y up i j) 0 =
  if (if up then pad_before size (fun k => increased_fl size X i k j) k || pad_after size (fun k => decreased_fl size X i k j) k
      else pad_after size (fun k => increased_fl size X i k j) k || pad_before size (fun k => decreased_fl size X i k j) k) then nth (i * size + k) Y 0 else 0.
Proof.
  intros up i j k K. unfold picked. rewrite (nth_indep _ 0 ((fun k0 => if (if up then pad_before size (fun k => increased_fl size X i k j) k0 || pad_after size (fun k => decreased_fl size X i k j) k0
      else pad_after size (fun k => increased_fl size X i k j) k0 || pad_before size (fun k => decreased_fl size X i k j) k0) then y_at size Y i k0 else 0) 0%nat)) by (rewrite map_length, seq_length; auto).
  rewrite (map_nth (fun k0 => if (if up then pad_before size (fun k => increased_fl size X i k j) k0 || pad_after size (fun k => decreased_fl size X i k j) k0
      else pad_after size (fun k => increased_fl size X i k j) k0 || pad_before size (fun k => decreased_fl size X i k j) k0) then y_at size Y i k0 else 0)).
  rewrite seq_nth by auto. reflexivity.
Qed.

Lemma pad_before_true : forall f k, pad_before size f k = true -> exists k', k = (k' + 1)%nat /\ (k' + 1 < size)%nat /\ f k' = true.
Proof. intros f [|k] H; [discriminate|]. cbn in H. apply andb_prop in H. destruct H as [H F]. apply Nat.ltb_lt in H. exists k. split; [lia|]. split; [lia|auto]. Qed.
Lemma pad_after_true : forall f k, pad_after size f k = true -> (k + 1 < size)%nat /\ f k = true.
Proof. intros f k H. apply andb_prop in H. destruct H as [H F]. apply Nat.ltb_lt in H. split; [lia|auto]. Qed.
Lemma pad_before_eq : forall f k, (k + 1 < size)%nat -> pad_before size f (k + 1) = f k.
Proof. intros f k K. rewrite Nat.add_1_r. unfold pad_before. rewrite (proj2 (Nat.ltb_lt _ _)) by lia. reflexivity. Qed.
Lemma pad_after_eq : forall f k, (k + 1 < size)%nat -> pad_after size f k = f k.
Proof. intros f k K. unfold pad_after. rewrite (proj2 (Nat.ltb_lt _ _)) by lia. reflexivity. Qed.

Lemma step_cases : forall i j, one_move size X j ->
  (forall k, (k + 1 < size)%nat -> increased_fl size X i k j = false /\ decreased_fl size X i k j = false) \/
  (exists q, (q + 1 < size)%nat /\ (increased_fl size X i q j = true /\ decreased_fl size X i q j = false \/ increased_fl size X i q j = false /\ decreased_fl size X i q j = true) /\
     forall k, (k + 1 < size)%nat -> k <> q -> increased_fl size X i k j = false /\ decreased_fl size X i k j = false).
Proof.
  intros i j O.
  destruct (existsb (fun k => increased_fl size X i k j || decreased_fl size X i k j) (seq 0 (size - 1))) eqn:E.
  - right. apply existsb_exists in E. destruct E as (q & Hq & E). apply in_seq in Hq. exists q. split; [lia|].
    assert (M : forall k, increased_fl size X i k j || decreased_fl size X i k j = true -> coord X (i * size + (k + 1)) j <> coord X (i * size + k) j).
    { intros k H. apply orb_prop in H. destruct H as [H|H]; [apply inc_true in H|apply dec_true in H]; lra. }
    split.
    + destruct (increased_fl size X i q j) eqn:A, (decreased_fl size X i q j) eqn:B; auto; try discriminate.
      apply inc_true in A. apply dec_true in B. lra.
    + intros k K N. destruct (increased_fl size X i k j || decreased_fl size X i k j) eqn:F; [|apply orb_false_elim; auto].
      exfalso. apply N. apply (O i k q); auto; lia.
  - left. intros k K. apply orb_false_elim. destruct (increased_fl size X i k j || decreased_fl size X i k j) eqn:F; auto.
    assert (X0 : existsb (fun k => increased_fl size X i k j || decreased_fl size X i k j) (seq 0 (size - 1)) = true) by (apply existsb_exists; exists k; split; [apply in_seq; lia|auto]).
    congruence.
Qed.

Lemma difference_moves : forall i j, arrangement (s_einsum S) -> (0 < size)%nat -> (forall y, In y Y -> double y) -> one_move size X j ->
  (difference_fl S size X Y i j = 0 /\ forall k, (k + 1 < size)%nat -> increased_fl size X i k j = false /\ decreased_fl size X i k j = false) \/
  exists q, (q + 1 < size)%nat /\
    (coord X (i * size + q) j < coord X (i * size + (q + 1)) j /\ difference_fl S size X Y i j = fl (nth (i * size + (q + 1)) Y 0 - nth (i * size + q) Y 0) \/
     coord X (i * size + (q + 1)) j < coord X (i * size + q) j /\ difference_fl S size X Y i j = fl (nth (i * size + q) Y 0 - nth (i * size + (q + 1)) Y 0)).
Proof.
  intros i j A P D O. assert (DY : forall r, double (nth r Y 0)) by (intros r; destruct (nth_in_or_default r Y 0) as [I| ->]; [auto|apply double_0]).
  unfold difference_fl, reorganize_fl. destruct (step_cases i j O) as [H|(q & Q & C & H)].
  - left. split; [|exact H]. rewrite !tsum_arranged_zero; auto; try (replace (0 - 0) with 0 by ring; apply fl_0); intros k K; rewrite nth_picked by auto; cbv iota.
    + destruct (pad_after size (fun k0 => increased_fl size X i k0 j) k) eqn:E1; [apply pad_after_true in E1; destruct E1 as [K1 E1]; destruct (H k K1); congruence|].
      destruct (pad_before size (fun k0 => decreased_fl size X i k0 j) k) eqn:E2; [apply pad_before_true in E2; destruct E2 as (k' & -> & K1 & E2); destruct (H k' K1); congruence|reflexivity].
    + destruct (pad_before size (fun k0 => increased_fl size X i k0 j) k) eqn:E1; [apply pad_before_true in E1; destruct E1 as (k' & -> & K1 & E1); destruct (H k' K1); congruence|].
      destruct (pad_after size (fun k0 => decreased_fl size X i k0 j) k) eqn:E2; [apply pad_after_true in E2; destruct E2 as [K1 E2]; destruct (H k K1); congruence|reflexivity].
  - right. exists q. split; auto.
    assert (UP : forall d, (if d : bool then increased_fl size X i q j else decreased_fl size X i q j) = true -> (if d then decreased_fl size X i q j else increased_fl size X i q j) = false ->
      tsum (s_einsum S size) (picked size X Y d i j) = nth (i * size + (q + 1)) Y 0).
    { intros d T F. assert (E : nth (q + 1) (picked size X Y d i j) 0 = nth (i * size + (q + 1)) Y 0).
      { rewrite nth_picked by lia. destruct d; rewrite pad_before_eq by auto; rewrite T, ?orb_true_r, ?orb_true_l; reflexivity. }
      rewrite <- E. apply tsum_arranged; auto; [rewrite E; auto|]. intros k K N. rewrite nth_picked by auto.
      destruct (pad_before size (fun k0 => if d then increased_fl size X i k0 j else decreased_fl size X i k0 j) k) eqn:E1.
      { apply pad_before_true in E1. destruct E1 as (k' & -> & K1 & E1). destruct (H k' K1) as [H1 H2]; [lia|]. destruct d; congruence. }
      destruct (pad_after size (fun k0 => if d then decreased_fl size X i k0 j else increased_fl size X i k0 j) k) eqn:E2.
      { apply pad_after_true in E2. destruct E2 as [K1 E2]. destruct (Nat.eq_dec k q) as [->|N2]; [congruence|]. destruct (H k K1 N2) as [H1 H2]. destruct d; congruence. }
      destruct d; rewrite E1, E2; reflexivity. }
    assert (LO : forall d, (if d : bool then decreased_fl size X i q j else increased_fl size X i q j) = true -> (if d then increased_fl size X i q j else decreased_fl size X i q j) = false ->
      tsum (s_einsum S size) (picked size X Y d i j) = nth (i * size + q) Y 0).
    { intros d T F. assert (E : nth q (picked size X Y d i j) 0 = nth (i * size + q) Y 0).
      { rewrite nth_picked by lia. destruct d; rewrite pad_after_eq by auto; rewrite T, ?orb_true_r, ?orb_true_l; reflexivity. }
      rewrite <- E. apply tsum_arranged; auto; [lia|rewrite E; auto|]. intros k K N. rewrite nth_picked by auto.
      destruct (pad_before size (fun k0 => if d then increased_fl size X i k0 j else decreased_fl size X i k0 j) k) eqn:E1.
      { apply pad_before_true in E1. destruct E1 as (k' & -> & K1 & E1). destruct (Nat.eq_dec k' q) as [->|N2]; [congruence|]. destruct (H k' K1 N2) as [H1 H2]. destruct d; congruence. }
      destruct (pad_after size (fun k0 => if d then decreased_fl size X i k0 j else increased_fl size X i k0 j) k) eqn:E2.
      { apply pad_after_true in E2. destruct E2 as [K1 E2]. destruct (H k K1 N) as [H1 H2]. destruct d; congruence. }
      destruct d; rewrite E1, E2; reflexivity. }
    destruct C as [[C1 C2]|[C1 C2]].
    + left. split; [apply inc_true; auto|]. rewrite (UP true C1 C2), (LO false C1 C2). reflexivity.
    + right. split; [apply dec_true; auto|]. rewrite (LO true C2 C1), (UP false C2 C1). reflexivity.
Qed.
Lemma difference_cases : forall i j, arrangement (s_einsum S) -> (0 < size)%nat -> (forall y, In y Y -> double y) -> one_move size X j ->
  difference_fl S size X Y i j = 0 \/
  exists q, (q + 1 < size)%nat /\
    (coord X (i * size + q) j < coord X (i * size + (q + 1)) j /\ difference_fl S size X Y i j = fl (nth (i * size + (q + 1)) Y 0 - nth (i * size + q) Y 0) \/
     coord X (i * size + (q + 1)) j < coord X (i * size + q) j /\ difference_fl S size X Y i j = fl (nth (i * size + q) Y 0 - nth (i * size + (q + 1)) Y 0)).
Proof. intros i j A P D O. destruct (difference_moves i j A P D O) as [[H _]|H]; auto. Qed.
End Steps.
