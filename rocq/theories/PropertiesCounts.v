(** * Theorems: sizes computed in floating point (C116), computed numbers of bits and the nesting of the Sobol' sequence (C117). *)
From Coq Require Import Reals List Arith NArith ZArith Bool Lia Lra.
From Flocq Require Import Core.
From Verif Require Import Base Arrays ModelSobolSeq SpecSobolSeq ModelDouble ModelCounts SpecCounts ProofsCounts ProofsCounts3 ProofsCounts4 ProofsCounts5.
Import ListNotations.
Local Open Scope nat_scope.

(** [int(a / b)] is the integer quotient, for every dividend below 2^53. *)
Theorem C116_quotient : forall a b, 0 < b -> (Z.of_nat a < 2 ^ 53)%Z -> int_div a b * b <= a /\ a < (int_div a b + 1) * b.
Proof.
  intros a b B A. rewrite (int_div_exact a b B A). pose proof (Nat.div_mod a b ltac:(lia)). pose proof (Nat.mod_upper_bound a b ltac:(lia)). nia.
Qed.
Print Assumptions C116_quotient.

(** So an output array laid out in blocks of [b] rows is cut into the right number of blocks. *)
Theorem C116_blocks : forall n b, 0 < b -> (Z.of_nat (n * b) < 2 ^ 53)%Z -> int_div (n * b) b = n.
Proof. intros n b B A. rewrite int_div_exact by auto. apply Nat.div_mul. lia. Qed.
Print Assumptions C116_blocks.
Example C116_blocks_example : int_div (1024 * 14) 14 = 1024.
Proof. apply C116_blocks; [lia|]. rewrite Nat2Z.inj_mul. vm_compute. reflexivity. Qed.

(** Not for larger ones: (2^54 - 1) / 2 is rounded up to 2^53. *)
Theorem C116_quotient_refuted : ~ (forall a b, 0 < b -> int_div a b * b <= a /\ a < (int_div a b + 1) * b).
Proof.
  intros H. apply int_div_large. destruct (H (Z.to_nat (2 ^ 54 - 1)) 2 ltac:(lia)) as (H1 & H2).
  remember (Z.to_nat (2 ^ 54 - 1)) as a. apply (Nat.div_unique a 2 (int_div a 2) (a - int_div a 2 * 2)); lia.
Qed.
Print Assumptions C116_quotient_refuted.

Theorem C116_halves : forall n, (Z.of_nat n <= 2 ^ 53)%Z ->
  (n <= 2 * ceil_half n <= n + 1) /\ (n <= 2 * ceil_times_half n <= n + 1) /\ (2 * int_times_half n <= n <= 2 * int_times_half n + 1).
Proof.
  intros n H. destruct (halves_exact n H) as (-> & -> & ->).
  pose proof (Nat.div_mod (n + 1) 2 ltac:(lia)). pose proof (Nat.mod_upper_bound (n + 1) 2 ltac:(lia)).
  pose proof (Nat.div_mod n 2 ltac:(lia)). pose proof (Nat.mod_upper_bound n 2 ltac:(lia)). lia.
Qed.
Print Assumptions C116_halves.

(** Although 0.005 is not a double, [max(int(n * 0.005), 10)] is the greater of 10 and the integer part of n / 200. *)
Theorem C116_class_size : forall n, (Z.of_nat n <= 2 ^ 50)%Z ->
  10 <= min_class_size n /\ (min_class_size n = 10 \/ 200 * min_class_size n <= n) /\ n < 200 * (min_class_size n + 1).
Proof.
  intros n H. rewrite (min_class_size_exact n H). pose proof (Nat.div_mod n 200 ltac:(lia)). pose proof (Nat.mod_upper_bound n 200 ltac:(lia)).
  destruct (Nat.max_spec (n / 200) 10) as [(Q & ->)|(Q & ->)]; lia.
Qed.
Print Assumptions C116_class_size.

(** ** C117 *)

(** The number of bits is the least sufficient one, or one more for a power of two. *)
Theorem C117_bits : forall lg N, accurate_log lg -> 0 < N -> (Z.of_nat N <= 2 ^ 31)%Z ->
  least_bits N (log_bits lg N) \/ (exists k, 2 <= k <= 31 /\ N = 2 ^ k /\ log_bits lg N = k + 1).
Proof.
  intros lg N ACC N0 NU. destruct (bits_all lg N ACC N0 NU) as [H|(k & K & E & B)]; [auto|]. right. exists k. rewrite B, Nat.add_1_r. auto.
Qed.
Print Assumptions C117_bits.

(** Correctly rounded logarithms are accurate; with them the superfluous bit appears at 2^29 and 2^31 only. *)
Theorem C117_rounded : accurate_log (fun x => fl (ln x)) /\
  forall k, k <= 31 -> (log_bits (fun x => fl (ln x)) (2 ^ k) = k <-> k <> 29 /\ k <> 31).
Proof.
  split; [exact rounded_accurate|]. intros k K. rewrite (rounded_powers k K).
  destruct (Nat.eqb_spec k 29); [cbn [orb]; lia|]. destruct (Nat.eqb_spec k 31); cbn [orb]; lia.
Qed.
Print Assumptions C117_rounded.

(** The sample does not depend on the superfluous bit: any sufficient number of bits gives the same rows. *)
Theorem C117_any_bits : forall lg bits N D, accurate_log lg -> 0 < N -> (Z.of_nat N < 2 ^ 31)%Z -> enough_bits bits N -> bits N <= 31 ->
  sequence_sample_fl lg directions N D = sequence_sample bits directions N D.
Proof. exact sample_any_bits. Qed.
Print Assumptions C117_any_bits.

(** Every size below 2^31 works, every size above 2^31 is refused. *)
Theorem C117_sizes : forall lg N D, accurate_log lg -> (Z.of_nat D <= 21201)%Z ->
  (0 < N -> (Z.of_nat N < 2 ^ 31)%Z ->
     exists rs, sequence_sample_fl lg directions N D = Ok rs /\ length rs = N /\ Forall (fun r => length r = D) rs) /\
  ((2 ^ 31 < Z.of_nat N)%Z -> sequence_sample_fl lg directions N D = Err ValueError).
Proof. intros lg N D ACC HD. split; intros; [apply sample_ok; auto|apply sample_above; auto]. Qed.
Print Assumptions C117_sizes.

(** The size 2^31 itself is refused by correctly rounded logarithms, although 31 bits are enough for it. *)
Theorem C117_largest_refuted :
  ~ (forall lg bits N D, accurate_log lg -> 0 < N -> enough_bits bits N -> bits N <= 31 ->
       sequence_sample_fl lg directions N D = sequence_sample bits directions N D).
Proof.
  intros H. set (N := Z.to_nat (2 ^ 31)). assert (V : Z.of_nat N = (2 ^ 31)%Z) by (apply Z2Nat.id; lia).
  destruct (largest_exact N 2 V ltac:(lia)) as (rs & E).
  specialize (H (fun x => fl (ln x)) (fun _ => 31) N 2 rounded_accurate ltac:(lia)).
  rewrite E, (largest_fails N 2 V) in H. assert (Err ValueError = Ok rs); [|discriminate]. apply H; [|auto].
  unfold enough_bits. apply Nat2Z.inj_le. rewrite pow_Z, V. apply Z.le_refl.
Qed.
Print Assumptions C117_largest_refuted.

(** Samples are nested: fewer rows and fewer columns give the corresponding part of a larger sample. *)
Theorem C117_nested : forall lg N M D E rs, accurate_log lg -> 0 < N -> N <= M -> (Z.of_nat N < 2 ^ 31)%Z -> D <= E ->
  sequence_sample_fl lg directions M E = Ok rs -> sequence_sample_fl lg directions N D = Ok (map (firstn D) (firstn N rs)).
Proof. exact sample_grows. Qed.
Print Assumptions C117_nested.

(** The default of skip_values is a power of two, at least 16 and at least N, and the least such power or twice N. *)
Theorem C117_skip : forall lg N, accurate_log lg -> 0 < N -> (Z.of_nat N <= 2 ^ 31)%Z ->
  exists j, saltelli_skip_fl lg N None = Ok (2 ^ j) /\ 4 <= j /\ N <= 2 ^ j /\
    ((forall c, 4 <= c -> N <= 2 ^ c -> j <= c) \/ (2 * N = 2 ^ j)).
Proof. exact skip_ok. Qed.
Print Assumptions C117_skip.

(** With correctly rounded logarithms the default for N = 2^29 is not the least one. *)
Theorem C117_skip_refuted : ~ (forall lg N s, accurate_log lg -> 0 < N -> (Z.of_nat N <= 2 ^ 31)%Z -> saltelli_skip_fl lg N None = Ok s ->
  forall c, 4 <= c -> N <= 2 ^ c -> s <= 2 ^ c).
Proof.
  intros H. pose proof (skip_power 29 ltac:(lia)) as E. change ((29 =? 29) || (29 =? 31)) with true in E. cbv iota in E.
  assert (P : Z.of_nat (2 ^ 29) = (2 ^ 29)%Z) by (rewrite pow_Z; reflexivity).
  remember (2 ^ 29) as n eqn:En.
  specialize (H _ n _ rounded_accurate ltac:(lia) ltac:(lia) E 29 ltac:(lia)). rewrite <- En in H.
  assert (Q : Z.of_nat (2 ^ (29 + 1)) = (2 ^ 30)%Z) by (rewrite pow_Z; reflexivity). remember (2 ^ (29 + 1)) as m eqn:Em.
  specialize (H (Nat.le_refl _)). lia.
Qed.
Print Assumptions C117_skip_refuted.

(** saltelli.sample finds its rows for every N below 2^30, whatever the accuracy of the logarithm within the bound; 2^30 fails. *)
Theorem C117_saltelli : forall lg N D, accurate_log lg -> 0 < N -> (Z.of_nat N < 2 ^ 30)%Z -> (2 * Z.of_nat D <= 21201)%Z ->
  exists rs, saltelli_rows_fl lg directions N D None = Ok rs /\ length rs = N /\ Forall (fun r => length r = 2 * D) rs.
Proof. exact saltelli_rows_ok. Qed.
Print Assumptions C117_saltelli.

Theorem C117_saltelli_refuted : ~ (forall lg N D, accurate_log lg -> 0 < N -> (Z.of_nat N <= 2 ^ 30)%Z -> (2 * Z.of_nat D <= 21201)%Z ->
  exists rs, saltelli_rows_fl lg directions N D None = Ok rs).
Proof.
  intros H. assert (P : Z.of_nat (2 ^ 30) = (2 ^ 30)%Z) by (rewrite pow_Z; reflexivity).
  pose proof (saltelli_half 30 2 P eq_refl) as F. remember (2 ^ 30) as n eqn:En.
  destruct (H _ n 2 rounded_accurate ltac:(lia) ltac:(lia) ltac:(lia)) as (rs & E). congruence.
Qed.
Print Assumptions C117_saltelli_refuted.

Example C117_example : log_bits (fun x => fl (ln x)) (2 ^ 10) = 10 /\
  exists rs, sequence_sample_fl (fun x => fl (ln x)) directions 7 2 = Ok rs /\ length rs = 7 /\
    sequence_sample_fl (fun x => fl (ln x)) directions 4 1 = Ok (map (firstn 1) (firstn 4 rs)) /\
    map (firstn 1) (firstn 4 rs) = [[0]; [1 / 2]; [3 / 4]; [1 / 4]]%R.
Proof.
  split; [apply (proj2 (proj2 C117_rounded 10 ltac:(lia))); lia|].
  assert (E7 : log_bits (fun x => fl (ln x)) 4 = 2) by (exact (rounded_powers 2 ltac:(lia))).
  destruct (proj1 (C117_sizes _ 7 2 rounded_accurate ltac:(lia)) ltac:(lia) ltac:(lia)) as (rs & E & L & _).
  exists rs. split; auto. split; auto.
  pose proof (C117_nested _ 4 7 1 2 rs rounded_accurate ltac:(lia) ltac:(lia) ltac:(lia) ltac:(lia) E) as F. split; auto.
  assert (V : sequence_sample_fl (fun x => fl (ln x)) directions 4 1 = sequence_sample (fun _ => 2) directions 4 1).
  { apply C117_any_bits; try lia. exact rounded_accurate. unfold enough_bits. simpl. lia. }
  rewrite F in V. assert (W : sequence_sample (fun _ => 2) directions 4 1 = Ok [[to_unit 0]; [to_unit 1073741824]; [to_unit 1610612736]; [to_unit 536870912]]).
  { unfold sequence_sample. assert (DL : (length directions + 1 <? 1) = false) by (apply Nat.ltb_ge; lia). rewrite DL. cbn [Nat.eqb Nat.ltb Nat.leb seq mapM].
    assert (C : sequence_column directions 4 2 0 = Ok [to_unit 0; to_unit 1073741824; to_unit 1610612736; to_unit 536870912]) by reflexivity.
    rewrite C. reflexivity. }
  rewrite W in V. assert (V2 : map (firstn 1) (firstn 4 rs) = [[to_unit 0]; [to_unit 1073741824]; [to_unit 1610612736]; [to_unit 536870912]]) by congruence.
  rewrite V2. unfold to_unit. simpl Z.of_N. repeat (apply f_equal2; [apply f_equal2; [lra|reflexivity]|]). reflexivity.
Qed.
