(** * The Sobol' sequence and saltelli.sample with computed logarithms. *)
From Coq Require Import Reals List Arith NArith ZArith Bool Lia Lra.
From Flocq Require Import Core.
From Verif Require Import Base Arrays ListFacts ModelSobolSeq SpecSobolSeq ProofsSobolSeq ModelDouble ModelCounts SpecCounts ProofsCounts ProofsCounts2 ProofsCounts3 ProofsCounts4.
Import ListNotations.
Local Open Scope nat_scope.

Lemma ge1_of : forall N, 0 < N -> 1 <= N.
Proof. intros. lia. Qed.

Lemma dims : length directions + 1 = Z.to_nat 21201.
Proof. apply Nat2Z.inj. rewrite Nat2Z.inj_add, <- nat_N_Z, directions_length. reflexivity. Qed.

Lemma sample_any_bits : forall lg bits N D, accurate_log lg -> 0 < N -> (Z.of_nat N < 2 ^ 31)%Z -> enough_bits bits N -> bits N <= 31 ->
  sequence_sample_fl lg directions N D = sequence_sample bits directions N D.
Proof.
  intros lg bits N D ACC N0 NU HB HB31. unfold sequence_sample_fl.
  assert (EB : enough_bits (log_bits lg) N) by (unfold enough_bits; apply bits_enough; auto; lia).
  destruct (sequence_sample bits directions N D) as [rs|e] eqn:E.
  - rewrite (sequence_extends directions (log_bits lg) bits N N D D rs directions_good) by (auto; apply bits_31; auto; lia). f_equal.
    destruct (sequence_range directions N D bits rs directions_good HB E) as (L & F & _). rewrite firstn_all2 by lia.
    transitivity (map (fun r : list R => r) rs); [|apply map_id]. apply map_ext_in. intros r Hr. rewrite Forall_forall in F. apply firstn_all2. rewrite (proj1 (F r Hr)). auto.
  - assert (e = ValueError) as -> by (eapply (proj2 (sequence_total directions N D bits directions_good HB)); eauto).
    assert (DD : ~ D <= length directions + 1).
    { intros Q. destruct (proj1 (proj1 (sequence_total directions N D bits directions_good HB))) as (rs & E'); auto. congruence. }
    unfold sequence_sample. rewrite (proj2 (Nat.ltb_lt _ _)) by lia. reflexivity.
Qed.

Lemma sample_above : forall lg N D, accurate_log lg -> (2 ^ 31 < Z.of_nat N)%Z -> sequence_sample_fl lg directions N D = Err ValueError.
Proof.
  intros lg N D ACC NU. unfold sequence_sample_fl, sequence_sample. destruct (_ <? D); auto. destruct (N =? 0); auto.
  rewrite (proj2 (Nat.ltb_lt _ _)) by (apply bits_above; auto). reflexivity.
Qed.

Lemma sample_ok : forall lg N D, accurate_log lg -> 0 < N -> (Z.of_nat N < 2 ^ 31)%Z -> (Z.of_nat D <= 21201)%Z ->
  exists rs, sequence_sample_fl lg directions N D = Ok rs /\ length rs = N /\ Forall (fun r => length r = D) rs.
Proof.
  intros lg N D ACC N0 NU HD. unfold sequence_sample_fl.
  assert (EB : enough_bits (log_bits lg) N) by (unfold enough_bits; apply bits_enough; auto; lia).
  destruct (proj1 (proj1 (sequence_total directions N D (log_bits lg) directions_good EB))) as (rs & E).
  { split; auto. split; [rewrite dims; lia|]. apply bits_31; auto; lia. }
  exists rs. split; auto. destruct (sequence_range _ _ _ _ _ directions_good EB E) as (L & F & _). split; auto.
  eapply Forall_impl; [|exact F]. intros r (H & _). auto.
Qed.

Lemma sample_grows : forall lg N M D E rs, accurate_log lg -> 0 < N -> N <= M -> (Z.of_nat N < 2 ^ 31)%Z -> D <= E ->
  sequence_sample_fl lg directions M E = Ok rs -> sequence_sample_fl lg directions N D = Ok (map (firstn D) (firstn N rs)).
Proof.
  intros lg N M D E rs ACC N0 NM NU DE H. unfold sequence_sample_fl in *.
  assert (MU : (Z.of_nat M <= 2 ^ 31)%Z).
  { apply Z.nlt_ge. intros Q. pose proof (sample_above lg M E ACC Q) as S. unfold sequence_sample_fl in S. congruence. }
  apply (sequence_extends directions (log_bits lg) (log_bits lg) N M D E rs); auto using directions_good.
  - unfold enough_bits. apply bits_enough; auto; lia.
  - apply bits_31; auto; lia.
  - unfold enough_bits. apply bits_enough; auto; lia.
Qed.

(** ** The largest sample *)
Lemma bits_2_31 : forall N, Z.of_nat N = (2 ^ 31)%Z -> log_bits (fun x => fl (ln x)) N = 32.
Proof.
  intros N H. assert (N = 2 ^ 31) as ->. { apply Nat2Z.inj. rewrite H, pow_Z. reflexivity. }
  rewrite rounded_powers by lia. reflexivity.
Qed.
Lemma largest_fails : forall N D, Z.of_nat N = (2 ^ 31)%Z -> sequence_sample_fl (fun x => fl (ln x)) directions N D = Err ValueError.
Proof.
  intros N D H. unfold sequence_sample_fl, sequence_sample. rewrite (bits_2_31 N H). destruct (_ <? D); auto. destruct (N =? 0); auto.
Qed.
Lemma largest_exact : forall N D, Z.of_nat N = (2 ^ 31)%Z -> (Z.of_nat D <= 21201)%Z ->
  exists rs, sequence_sample (fun _ => 31) directions N D = Ok rs.
Proof.
  intros N D H HD. apply (proj1 (sequence_total directions N D (fun _ => 31) directions_good
    ltac:(unfold enough_bits; apply Nat2Z.inj_le; rewrite pow_Z, H; apply Z.le_refl))).
  split; [lia|]. split; [rewrite dims; lia|auto].
Qed.

(** ** saltelli.sample *)
Lemma skip_ok : forall lg N, accurate_log lg -> 0 < N -> (Z.of_nat N <= 2 ^ 31)%Z ->
  exists j, saltelli_skip_fl lg N None = Ok (2 ^ j) /\ 4 <= j /\ N <= 2 ^ j /\
    ((forall c, 4 <= c -> N <= 2 ^ c -> j <= c) \/ (2 * N = 2 ^ j)).
Proof.
  intros lg N ACC N0 NU. unfold saltelli_skip_fl. destruct (Nat.eqb_spec N 0); [lia|].
  exists (Nat.max (log_bits lg N) 4). pose proof (bits_enough lg N ACC N0 NU) as EB.
  assert (MX : Nat.max (2 ^ log_bits lg N) 16 = 2 ^ Nat.max (log_bits lg N) 4).
  { change 16 with (2 ^ 4). destruct (Nat.le_gt_cases (log_bits lg N) 4) as [Q|Q].
    - rewrite !Nat.max_r; auto. apply Nat.pow_le_mono_r; lia.
    - rewrite !Nat.max_l; auto; [lia|]. apply Nat.pow_le_mono_r; lia. }
  rewrite MX. split; auto. split; [lia|]. split; [eapply Nat.le_trans; [exact EB|apply Nat.pow_le_mono_r; lia]|].
  destruct (bits_all lg N ACC N0 NU) as [(_ & H)|(k & K & E & B)].
  - left. intros c C4 Hc. specialize (H c Hc). lia.
  - destruct (Nat.le_gt_cases 4 (log_bits lg N)) as [Q|Q].
    + right. rewrite Nat.max_l, B, E by lia. rewrite Nat.pow_succ_r'. reflexivity.
    + left. intros c C4 Hc. lia.
Qed.

Lemma skip_small : forall lg N s, accurate_log lg -> 0 < N -> (Z.of_nat N < 2 ^ 30)%Z -> saltelli_skip_fl lg N None = Ok s -> (Z.of_nat s <= 2 ^ 30)%Z.
Proof.
  intros lg N s ACC N0 NU H. destruct (skip_ok lg N ACC N0 ltac:(lia)) as (j & E & J4 & _ & [M|D]); rewrite E in H; injection H as <-; rewrite pow_Z.
  - assert (j <= 30). { apply M; [lia|]. apply Nat2Z.inj_le. rewrite pow_Z. change (2 ^ Z.of_nat 30)%Z with (2 ^ 30)%Z. lia. }
    change (2 ^ 30)%Z with (2 ^ Z.of_nat 30)%Z. apply Z.pow_le_mono_r; lia.
  - apply (f_equal Z.of_nat) in D. rewrite Nat2Z.inj_mul, pow_Z in D. change (Z.of_nat 2) with 2%Z in D.
    assert (Q : (2 ^ Z.of_nat j < 2 ^ Z.of_nat 31)%Z) by (rewrite <- D; change (2 ^ Z.of_nat 31)%Z with (2 * 2 ^ 30)%Z; lia).
    apply Z.pow_lt_mono_r_iff in Q; try lia. change (2 ^ 30)%Z with (2 ^ Z.of_nat 30)%Z. apply Z.pow_le_mono_r; lia.
Qed.

Lemma saltelli_rows_ok : forall lg N D, accurate_log lg -> 0 < N -> (Z.of_nat N < 2 ^ 30)%Z -> (2 * Z.of_nat D <= 21201)%Z ->
  exists rs, saltelli_rows_fl lg directions N D None = Ok rs /\ length rs = N /\ Forall (fun r => length r = 2 * D) rs.
Proof.
  intros lg N D ACC N0 NU HD. destruct (skip_ok lg N ACC N0 ltac:(lia)) as (j & E & _). pose proof (skip_small lg N _ ACC N0 NU E) as SU.
  unfold saltelli_rows_fl. rewrite E. cbn [bind]. remember (2 ^ j) as s eqn:ES. clear ES E.
  destruct (sample_ok lg (N + s) (2 * D) ACC ltac:(lia) ltac:(lia) ltac:(lia)) as (rs & -> & L & F). cbn [bind].
  exists (skipn s rs). split; auto. split; [rewrite skipn_length; lia|].
  rewrite Forall_forall in *. intros r Hr. apply F. rewrite <- (firstn_skipn s rs). apply in_or_app. auto.
Qed.

Lemma max_16 : forall j, 4 <= j -> Nat.max (2 ^ j) 16 = 2 ^ j.
Proof. intros j H. apply Nat.max_l. change 16 with (2 ^ 4). apply Nat.pow_le_mono_r; lia. Qed.
Lemma skip_power : forall k, 4 <= k <= 31 -> saltelli_skip_fl (fun x => fl (ln x)) (2 ^ k) None = Ok (2 ^ (if (k =? 29) || (k =? 31) then k + 1 else k)).
Proof.
  intros k K. unfold saltelli_skip_fl. destruct (Nat.eqb_spec (2 ^ k) 0) as [Q|_]; [exfalso; revert Q; apply Nat.pow_nonzero; lia|].
  rewrite rounded_powers by lia. f_equal. apply max_16. destruct (_ || _); lia.
Qed.

Lemma saltelli_half : forall k D, Z.of_nat (2 ^ k) = (2 ^ 30)%Z -> k = 30 ->
  saltelli_rows_fl (fun x => fl (ln x)) directions (2 ^ k) D None = Err ValueError.
Proof.
  intros k D V K. unfold saltelli_rows_fl. rewrite skip_power by lia. rewrite (proj2 (Nat.eqb_neq k 29)), (proj2 (Nat.eqb_neq k 31)) by lia.
  cbn [orb bind]. rewrite largest_fails; [reflexivity|]. rewrite Nat2Z.inj_add, V. reflexivity.
Qed.
