(** * The Saltelli sampler on top of the Sobol' sequence. *)
From Coq Require Import Reals List Arith NArith ZArith Bool Lia Lra.
From Verif Require Import Base Arrays ModelGroups ModelScale ModelSobol SpecSobol ProofsSobol6
  ModelSobolSeq SpecSobolSeq ProofsSobolSeq.
Import ListNotations.
Local Open Scope nat_scope.

Lemma scaled_stratum : forall lo up x a b, (lo < up)%R ->
  (lo + a * (up - lo) <= lo + x * (up - lo) < lo + b * (up - lo))%R <-> (a <= x < b)%R.
Proof.
  intros lo up x a b H. split; intros [H1 H2]; split.
  - apply Rmult_le_reg_r with (up - lo)%R; lra.
  - apply Rmult_lt_reg_r with (up - lo)%R; lra.
  - apply Rplus_le_compat_l. apply Rmult_le_compat_r; lra.
  - apply Rplus_lt_compat_l. apply Rmult_lt_compat_r; lra.
Qed.

Lemma split_row : forall A (r : list A) n, length r = 2 * n ->
  exists a b, r = a ++ b /\ length a = n /\ length b = n.
Proof.
  intros A r n H. exists (firstn n r), (skipn n r). rewrite firstn_skipn.
  rewrite firstn_length, skipn_length. repeat split; lia.
Qed.

Lemma saltelli_strata : forall bits table nq tq p k second s seqs, Forall good_row table ->
  saltelli_skip (2 ^ k) None = Ok s ->
  enough_bits bits (2 ^ k + s) -> sequence_sample bits table (2 ^ k + s) (2 * p_num_vars p) = Ok (seqs (2 ^ k + s)) ->
  labelled p -> p_dists p = None -> 0 < p_num_vars p ->
  length (p_bounds p) = p_num_vars p -> good_box (p_bounds p) ->
  exists p' m G, saltelli_sample nq tq seqs p (2 ^ k) second None = (p', Ok (InPlace m)) /\
    group_count p G /\ length (rows m) = 2 ^ k * block_size G second /\
    forall j lo up i, nth_error (p_bounds p) j = Some [lo; up] -> i < 2 ^ k ->
      exactly_one_of (fun t => entry (rows m) (t * block_size G second) j) (2 ^ k)
        (lo + INR i / INR (2 ^ k) * (up - lo)) (lo + (INR i + 1) / INR (2 ^ k) * (up - lo)) /\
      exactly_one_of (fun t => entry (rows m) (t * block_size G second + (block_size G second - 1)) j) (2 ^ k)
        (lo + INR i / INR (2 ^ k) * (up - lo)) (lo + (INR i + 1) / INR (2 ^ k) * (up - lo)).
Proof.
  intros bits table nq tq p k second s seqs HT Hs HB Hq HL Hd Hn HBl HG.
  destruct (sequence_range _ _ _ _ _ HT HB Hq) as (Lrs & Wrs & _).
  assert (PB : proper_base (seqs (2 ^ k + s)) (seq s (2 ^ k)) p).
  { intros i Hi. apply in_seq in Hi. destruct (nth_error_lt_Some (seqs (2 ^ k + s)) (i:=i)) as [b Eb]; [lia|].
    exists b. split; auto. rewrite Forall_forall in Wrs. apply Wrs. eapply nth_error_In; eauto. }
  destruct (saltelli_public nq tq seqs p (2 ^ k) second None s Hs HL Hd Hn HBl HG PB)
    as (p' & m & G & E & HGc & Lm & Wm & Hlay).
  exists p', m, G. split; auto. split; auto. split; auto.
  (* the starting index is aligned *)
  assert (P0 : 0 < 2 ^ k) by (apply Nat.neq_0_lt_0, Nat.pow_nonzero; lia).
  assert (Hal : exists q, s = q * 2 ^ k).
  { unfold saltelli_skip in Hs. rewrite (proj2 (Nat.eqb_neq _ _)) in Hs by lia. injection Hs as <-.
    rewrite Nat.log2_up_pow2 by lia. change 16 with (2 ^ 4).
    destruct (Nat.le_gt_cases k 4).
    - exists (2 ^ (4 - k)). rewrite <- Nat.pow_add_r, Nat.max_r by (apply Nat.pow_le_mono_r; lia). f_equal. lia.
    - exists 1. rewrite Nat.max_l by (apply Nat.pow_le_mono_r; lia). lia. }
  destruct Hal as [q Hq0].
  assert (Rows : forall t, t < 2 ^ k -> exists a b a' b',
    nth_error (seqs (2 ^ k + s)) (s + t) = Some (a ++ b) /\ length a = p_num_vars p /\ length b = p_num_vars p /\
    physical (p_bounds p) a a' /\ physical (p_bounds p) b b' /\
    nth_error (rows m) (t * block_size G second) = Some a' /\
    nth_error (rows m) (t * block_size G second + (block_size G second - 1)) = Some b').
  { intros t Ht. destruct (PB (s + t)) as (r & Er & Lr); [apply in_seq; lia|].
    destruct (split_row _ r _ Lr) as (a & b & -> & La & Lb).
    destruct (Hlay t a b Ht Er La Lb) as (a' & b' & Pa & Pb & Q0 & Q1 & _).
    exists a, b, a', b'. do 5 (split; auto).
    assert (0 < block_size G second) by (unfold block_size; destruct second; lia).
    rewrite (proj2 (Nat.ltb_lt _ _)) in Q0 by lia. rewrite (proj2 (Nat.ltb_lt _ _)) in Q1 by lia. rewrite Nat.add_0_r in Q0. auto. }
  intros j lo up i Hj Hi.
  assert (Hjn : j < p_num_vars p) by (rewrite <- HBl; apply nth_error_Some; congruence).
  assert (Hlu : (lo < up)%R).
  { unfold good_box in HG. rewrite Forall_forall in HG.
    destruct (HG _ (nth_error_In _ _ Hj)) as (l & u & El & Hlt). injection El as -> ->. auto. }
  assert (Gen : forall (f : nat -> option R) d, d < 2 * p_num_vars p ->
    (forall t, t < 2 ^ k -> exists x, entry (seqs (2 ^ k + s)) (s + t) d = Some x /\ f t = Some (lo + x * (up - lo))%R) ->
    exactly_one_of f (2 ^ k) (lo + INR i / INR (2 ^ k) * (up - lo)) (lo + (INR i + 1) / INR (2 ^ k) * (up - lo))).
  { intros f d Hdd Hf.
    destruct (sequence_strata _ _ _ _ _ HT HB Hq d k q i Hdd ltac:(lia) Hi) as (r & Hr & (x & Ex & Hx) & U).
    rewrite <- Hq0 in *.
    exists (r - s). split; [lia|].
    destruct (Hf (r - s) ltac:(lia)) as (x' & Ex' & Ef). replace (s + (r - s)) with r in Ex' by lia.
    rewrite Ex in Ex'. injection Ex' as <-.
    split. { eexists. split; [exact Ef|]. apply scaled_stratum; auto. }
    intros t' y Ht' Ey Hy. destruct (Hf t' Ht') as (z & Ez & Efz). rewrite Efz in Ey. injection Ey as <-.
    apply scaled_stratum in Hy; auto. assert (s + t' = r); [|lia]. eapply U; eauto. lia. }
  split.
  - apply Gen with (d := j); [lia|]. intros t Ht.
    destruct (Rows t Ht) as (a & b & a' & b' & Er & La & Lb & Pa & Pb & Ra & Rb).
    destruct (nth_error_lt_Some a (i:=j)) as [x Ex]; [lia|]. exists x.
    unfold entry. rewrite Er, Ra. split; [rewrite nth_error_app1 by lia; auto|].
    apply (proj2 Pa j x lo up); auto.
  - apply Gen with (d := p_num_vars p + j); [lia|]. intros t Ht.
    destruct (Rows t Ht) as (a & b & a' & b' & Er & La & Lb & Pa & Pb & Ra & Rb).
    destruct (nth_error_lt_Some b (i:=j)) as [x Ex]; [lia|]. exists x.
    unfold entry. rewrite Er, Rb. split; [rewrite nth_error_app2 by lia; rewrite <- Ex; f_equal; lia|].
    apply (proj2 Pb j x lo up); auto.
Qed.
