(** * Property C84 (several coordinates of the Sobol' sequence together). *)
From Coq Require Import Reals String List Arith NArith ZArith Lia Lra.
From Verif Require Import Base Arrays ModelGroups ModelScale ModelSobol SpecSobol
  ModelSobolSeq SpecSobolSeq ProofsSobolSeq ProofsSobolSeq2 ProofsSobolSeq3 ProofsSobolSeq4.
Import ListNotations.
Local Open Scope nat_scope.

(** C84: in the plane of the first two coordinates each aligned block of 2^m points has exactly one point in each of the 2^m boxes of
    every division into 2^k1 by 2^k2 equal parts, k1 + k2 = m. *)
Theorem C84_plane : forall N D bits rs, enough_bits bits N -> sequence_sample bits directions N D = Ok rs ->
  forall k1 k2 q i1 i2, 2 <= D -> (q + 1) * 2 ^ (k1 + k2) <= N -> i1 < 2 ^ k1 -> i2 < 2 ^ k2 ->
  one_in_box rs (q * 2 ^ (k1 + k2)) (2 ^ (k1 + k2)) [(0, k1, i1); (1, k2, i2)].
Proof. exact sequence_plane. Qed.
Print Assumptions C84_plane.

(** C84: halving each of the first E coordinates, each aligned block of 2^E points has exactly one point in each of the 2^E orthants. *)
Theorem C84_orthants : forall N D bits rs, enough_bits bits N -> sequence_sample bits directions N D = Ok rs ->
  forall E q (h : nat -> nat), E <= D -> (q + 1) * 2 ^ E <= N -> (forall d, h d < 2) ->
  one_in_box rs (q * 2 ^ E) (2 ^ E) (map (fun d => (d, 1, h d)) (seq 0 E)).
Proof. exact sequence_orthant. Qed.
Print Assumptions C84_orthants.

(** C84: with the default skip and N = 2^(k1+k2), the A points of saltelli.sample put exactly one point into each such box of the ranges of the
    first two parameters. *)
Theorem C84_saltelli_plane : forall bits nq tq p k1 k2 second s seqs,
  let N := 2 ^ (k1 + k2) in
  saltelli_skip N None = Ok s ->
  enough_bits bits (N + s) -> sequence_sample bits directions (N + s) (2 * p_num_vars p) = Ok (seqs (N + s)) ->
  labelled p -> p_dists p = None -> 2 <= p_num_vars p ->
  length (p_bounds p) = p_num_vars p -> good_box (p_bounds p) ->
  exists p' m G, saltelli_sample nq tq seqs p N second None = (p', Ok (InPlace m)) /\ group_count p G /\
    forall lo0 up0 lo1 up1 i1 i2, nth_error (p_bounds p) 0 = Some [lo0; up0] -> nth_error (p_bounds p) 1 = Some [lo1; up1] -> i1 < 2 ^ k1 -> i2 < 2 ^ k2 ->
      let inside t := exists x y, entry (rows m) (t * block_size G second) 0 = Some x /\ entry (rows m) (t * block_size G second) 1 = Some y /\
        (lo0 + INR i1 / INR (2 ^ k1) * (up0 - lo0) <= x < lo0 + (INR i1 + 1) / INR (2 ^ k1) * (up0 - lo0))%R /\
        (lo1 + INR i2 / INR (2 ^ k2) * (up1 - lo1) <= y < lo1 + (INR i2 + 1) / INR (2 ^ k2) * (up1 - lo1))%R in
      exists t, t < N /\ inside t /\ forall t', t' < N -> inside t' -> t' = t.
Proof. exact saltelli_plane. Qed.
Print Assumptions C84_saltelli_plane.

(** C84, what fails: quartering the first four coordinates, the first 256 points do not fill the 256 boxes; points 0 and 216 share one. *)
Theorem C84_quarters_refuted : exists rs, sequence_sample Nat.log2_up directions 256 4 = Ok rs /\
  ~ one_in_box rs 0 256 [(0, 2, 0); (1, 2, 0); (2, 2, 0); (3, 2, 0)].
Proof. exact quarters. Qed.
Print Assumptions C84_quarters_refuted.

(** The first eight points in three coordinates, by their halves: all eight orthants; and by quarters and halves in the first two. *)
Example C84_example :
  (do Vs <- mapM (dimension_V directions 3) [0; 1; 2] ;; Ok (map (fun j => map (fun V => N.shiftr (point V j) 30) Vs) (seq 0 8)))
  = Ok [[0; 0; 0]; [1; 1; 1]; [1; 0; 0]; [0; 1; 1]; [0; 0; 1]; [1; 1; 0]; [1; 0; 1]; [0; 1; 0]]%N /\
  (do V0 <- dimension_V directions 3 0 ;; do V1 <- dimension_V directions 3 1 ;;
   Ok (map (fun j => (N.shiftr (point V0 j) 29, N.shiftr (point V1 j) 30)) (seq 0 8)))
  = Ok [(0, 0); (2, 1); (3, 0); (1, 1); (1, 0); (3, 1); (2, 0); (0, 1)]%N /\
  exists rs, sequence_sample Nat.log2_up directions 8 4 = Ok rs /\ one_in_box rs 0 8 [(0, 1, 0); (1, 1, 1); (2, 1, 0)].
Proof.
  split; [vm_compute; reflexivity|]. split; [vm_compute; reflexivity|].
  assert (HB : enough_bits Nat.log2_up 8) by (vm_compute; lia).
  destruct (proj1 (proj1 (sequence_total directions 8 4 Nat.log2_up directions_good HB))) as (rs & H).
  { split; [lia|]. split; [pose proof directions_length; lia|]. vm_compute. lia. }
  exists rs. split; [assumption|].
  apply (C84_orthants 8 4 Nat.log2_up rs HB H 3 0 (fun d => if d =? 1 then 1 else 0)); [lia|cbn; lia|].
  intros d. destruct (d =? 1); lia.
Qed.
