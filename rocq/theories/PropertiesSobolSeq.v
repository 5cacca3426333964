(** * Properties C19-C21 (the Sobol' sequence). *)
From Coq Require Import Reals String List Arith NArith ZArith Lia Lra.
From Verif Require Import Base Arrays ModelGroups ModelScale ModelSobol SpecSobol
  ModelSobolSeq SpecSobolSeq ProofsSobolSeq ProofsSobolSeq2.
Import ListNotations.
Local Open Scope nat_scope.

(** C21: every row of the shipped table is well formed. *)
Theorem C21_table_well_formed : Forall good_row directions /\ N.of_nat (length directions) = 21200%N.
Proof. exact (conj directions_good directions_length). Qed.
Print Assumptions C21_table_well_formed.

(** The row used for the fourth dimension; changing m_2 to an even number spoils it. *)
Example C21_example : nth 2 directions [] = [1; 1; 3; 1]%N /\ good_row [1; 1; 3; 1]%N /\
  ~ good_row [1; 1; 2; 1]%N.
Proof.
  split; [vm_compute; reflexivity|]. split; [apply good_rowb_ok; reflexivity|].
  intros (a & ms & E & _ & _ & H). injection E as <- <-.
  destruct (H 1 2%N eq_refl). discriminate.
Qed.

(** C19: the generator returns N rows exactly when the tables and the 31 bits suffice; otherwise it
    raises ValueError and nothing else, so no lookup leaves its table. *)
Theorem C19_total : forall N D bits, enough_bits bits N ->
  (0 < N /\ D <= length directions + 1 /\ bits N <= 31
     <-> exists rs, sequence_sample bits directions N D = Ok rs) /\
  (forall e, sequence_sample bits directions N D = Err e -> e = ValueError).
Proof. exact (fun N D bits => sequence_total directions N D bits directions_good). Qed.
Print Assumptions C19_total.

(** C19: all coordinates are in [0,1); the first point is the origin. *)
Theorem C19_range : forall N D bits rs, enough_bits bits N ->
  sequence_sample bits directions N D = Ok rs ->
  length rs = N /\ Forall (fun r => length r = D /\ Forall (fun x => 0 <= x < 1)%R r) rs /\
  nth_error rs 0 = Some (repeat 0%R D).
Proof. exact (fun N D bits rs => sequence_range directions N D bits rs directions_good). Qed.
Print Assumptions C19_range.

(** C20: in every dimension each aligned block of 2^k points has exactly one point in each of the 2^k
    equal parts of [0,1). *)
Theorem C20_strata : forall N D bits rs, enough_bits bits N ->
  sequence_sample bits directions N D = Ok rs ->
  forall d k q i, d < D -> (q + 1) * 2 ^ k <= N -> i < 2 ^ k ->
  one_in_block rs (q * 2 ^ k) (2 ^ k) d (INR i / INR (2 ^ k)) ((INR i + 1) / INR (2 ^ k)).
Proof. exact (fun N D bits rs => sequence_strata directions N D bits rs directions_good). Qed.
Print Assumptions C20_strata.

(** C20: with the default skip and N = 2^k, the A points and the B points of saltelli.sample both
    put exactly one value of each parameter into each of N equal parts of its interval. *)
Theorem C20_saltelli_strata : forall bits nq tq p k second s seqs,
  saltelli_skip (2 ^ k) None = Ok s ->
  enough_bits bits (2 ^ k + s) ->
  sequence_sample bits directions (2 ^ k + s) (2 * p_num_vars p) = Ok (seqs (2 ^ k + s)) ->
  labelled p -> p_dists p = None -> 0 < p_num_vars p ->
  length (p_bounds p) = p_num_vars p -> good_box (p_bounds p) ->
  exists p' m G, saltelli_sample nq tq seqs p (2 ^ k) second None = (p', Ok (InPlace m)) /\
    group_count p G /\ length (rows m) = 2 ^ k * block_size G second /\
    forall j lo up i, nth_error (p_bounds p) j = Some [lo; up] -> i < 2 ^ k ->
      exactly_one_of (fun t => entry (rows m) (t * block_size G second) j) (2 ^ k)
        (lo + INR i / INR (2 ^ k) * (up - lo)) (lo + (INR i + 1) / INR (2 ^ k) * (up - lo)) /\
      exactly_one_of (fun t => entry (rows m) (t * block_size G second + (block_size G second - 1)) j) (2 ^ k)
        (lo + INR i / INR (2 ^ k) * (up - lo)) (lo + (INR i + 1) / INR (2 ^ k) * (up - lo)).
Proof.
  exact (fun bits nq tq p k second s seqs =>
    saltelli_strata bits directions nq tq p k second s seqs directions_good).
Qed.
Print Assumptions C20_saltelli_strata.

(** The eight first points of the second and the fourth dimension, in units of 1/8; every eighth is
    hit once.  Eight points need three bits; four bits would be accepted as well. *)
Example C19_C20_example :
  (do V <- dimension_V directions 3 1 ;; do xs <- x_values V 0%N (seq 1 7) ;;
   Ok (map (fun x => N.shiftr x 28) xs)) = Ok [4; 2; 6; 3; 7; 1; 5]%N /\
  (do V <- dimension_V directions 3 3 ;; do xs <- x_values V 0%N (seq 1 7) ;;
   Ok (map (fun x => N.shiftr x 28) xs)) = Ok [4; 2; 6; 7; 3; 5; 1]%N /\
  enough_bits Nat.log2_up 8 /\ enough_bits (fun n => S (Nat.log2_up n)) 8 /\
  (exists rs, sequence_sample Nat.log2_up directions 8 4 = Ok rs) /\
  sequence_sample Nat.log2_up directions 0 4 = Err ValueError.
Proof.
  split; [vm_compute; reflexivity|]. split; [vm_compute; reflexivity|].
  split; [vm_compute; lia|]. split; [vm_compute; lia|]. split.
  - apply C19_total; [vm_compute; lia|]. split; [lia|]. split; [|vm_compute; lia].
    pose proof directions_length. lia.
  - vm_compute. reflexivity.
Qed.
