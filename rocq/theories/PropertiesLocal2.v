(** * Property C128 (the local strategy for optimal Morris trajectories in single precision). *)
From Coq Require Import Reals String List Arith ZArith Bool Lia Lra.
From Flocq Require Import Core.
From Verif Require Import Base ModelMorris SpecGroups SpecSobol SpecMorris ModelDouble ModelDouble4 ModelSingle SpecSingle ModelLocalSingle ProofsDouble10 ProofsSingle3 ProofsSingle4 ProofsMorris5
  ProofsLocal ProofsLocal3 ProofsLocal5 ProofsLocal6.
Import ListNotations.
Local Open Scope R_scope.

(** C128: with the distances, squares and sums rounded as numpy rounds them, in whatever order it adds, the strategy returns k trajectories,
    different ones if the given ones differ, and no selection of k trajectories is spread by more than sqrt (k - 1) times the spread of these, up to a factor near one. *)
Theorem C128_bound : forall a1 a2 a3, arrangement a1 -> arrangement a2 -> arrangement a3 ->
  forall argsort, valid_argsort argsort -> forall X g N D k, trajectories_of N (g + 1) D X -> separated (bpow radix2 (-60)) X -> (2 <= k < N)%nat ->
  exists c s, local_optimisation_fl a1 a2 a3 argsort X g N k = Ok c /\ length c = k /\ (forall x, In x c -> (x < N)%nat) /\
    ((forall a b, (a < b)%nat -> (b < N)%nat -> block X (g + 1) a <> block X (g + 1) b) -> selection N k c) /\
    is_spread (fun x => x) length_of X (g + 1) c s /\
    forall c' s', selection N k c' -> is_spread (fun x => x) length_of X (g + 1) c' s' ->
      ((1 - bpow radix2 (-53)) ^ (D + (g + 1) * (g + 1) + 2) * (1 - bpow radix2 (-24)) ^ (k * (k - 1) / 2 + 3)) ^ (2 * (k + 1)) * s' <= sqrt (INR (k - 1)) * s.
Proof. exact local_fl_close. Qed.
Print Assumptions C128_bound.

(** C128: the factor is at most 1 + 2^-13 for up to ten trajectories of moderate size. *)
Theorem C128_near : forall a1 a2 a3 argsort X g N k D, arrangement a1 -> arrangement a2 -> arrangement a3 -> valid_argsort argsort ->
  trajectories_of N (g + 1) D X -> separated (bpow radix2 (-60)) X -> (2 <= k < N)%nat ->
  (Z.of_nat (D + (g + 1) * (g + 1)) <= 2 ^ 20)%Z -> (k <= 10)%nat ->
  exists c s, local_optimisation_fl a1 a2 a3 argsort X g N k = Ok c /\ length c = k /\ (forall x, In x c -> (x < N)%nat) /\
    ((forall a b, (a < b)%nat -> (b < N)%nat -> block X (g + 1) a <> block X (g + 1) b) -> selection N k c) /\
    is_spread (fun x => x) length_of X (g + 1) c s /\
    forall c' s', selection N k c' -> is_spread (fun x => x) length_of X (g + 1) c' s' ->
      s' <= (1 + bpow radix2 (-13)) * (sqrt (INR (k - 1)) * s).
Proof. exact local_fl_near. Qed.
Print Assumptions C128_near.

(** C128: in particular for the trajectories the sampler itself generates, with at most 2^48 levels. *)
Theorem C128_sample : forall a1 a2 a3 argsort ls N levels draws G k, arrangement a1 -> arrangement a2 -> arrangement a3 -> valid_argsort argsort ->
  (2 <= levels)%nat -> (Z.of_nat levels <= 2 ^ 48)%Z -> valid_draws ls levels draws -> distinct_count ls G -> ls <> [] ->
  (2 <= k < N)%nat -> (Z.of_nat (length ls + (G + 1) * (G + 1)) <= 2 ^ 20)%Z -> (k <= 10)%nat ->
  exists X c s, sample_morris_fl ls N levels draws = Ok X /\ local_optimisation_fl a1 a2 a3 argsort X G N k = Ok c /\
    length c = k /\ (forall x, In x c -> (x < N)%nat) /\
    ((forall a b, (a < b)%nat -> (b < N)%nat -> block X (G + 1) a <> block X (G + 1) b) -> selection N k c) /\
    is_spread (fun x => x) length_of X (G + 1) c s /\
    forall c' s', selection N k c' -> is_spread (fun x => x) length_of X (G + 1) c' s' ->
      s' <= (1 + bpow radix2 (-13)) * (sqrt (INR (k - 1)) * s).
Proof. exact local_fl_sample. Qed.
Print Assumptions C128_sample.

(** C128, what fails: the best pair, which exact arithmetic finds (C127), may be missed.  Whichever way argsort breaks ties, there are
    three trajectories of which it selects two although another two are further apart. *)
Theorem C128_pair_refuted : forall argsort, valid_argsort argsort -> exists a1 a2 a3 X c c' s s', arrangement a1 /\ arrangement a2 /\ arrangement a3 /\
  trajectories_of 3 2 1 X /\ coarse X /\ local_optimisation_fl a1 a2 a3 argsort X 1 3 2 = Ok c /\
  selection 3 2 c' /\ is_spread (fun x => x) length_of X 2 c s /\ is_spread (fun x => x) length_of X 2 c' s' /\ s < s'.
Proof.
  intros argsort AS. destruct (local_fl_misses argsort AS) as (X & c & c' & s & s' & H).
  exists left_to_right, left_to_right, left_to_right, X, c, c', s, s'.
  split; [apply left_arrangement|]. split; [apply left_arrangement|]. split; [apply left_arrangement|exact H].
Qed.
Print Assumptions C128_pair_refuted.

(** C128: a sample with another number of rows than N trajectories have, or without any entry, is refused. *)
Theorem C128_checked : forall a1 a2 a3 argsort X g N k, length X <> (N * (g + 1))%nat \/ (forall r, In r X -> r = []) ->
  local_optimisation_fl a1 a2 a3 argsort X g N k = Err AssertionError.
Proof. exact local_fl_checked. Qed.
Print Assumptions C128_checked.

(** A case the bounds speak about: three different trajectories, every hypothesis met. *)
Example C128_example : valid_argsort some_argsort /\ trajectories_of 3 2 1 close_X /\ separated (bpow radix2 (-60)) close_X /\
  (forall a b, (a < b)%nat -> (b < 3)%nat -> block close_X 2 a <> block close_X 2 b) /\
  (local_optimisation_fl left_to_right left_to_right left_to_right some_argsort close_X 1 3 2 = Ok [0; 1]%nat \/
   local_optimisation_fl left_to_right left_to_right left_to_right some_argsort close_X 1 3 2 = Ok [0; 2]%nat).
Proof.
  split; [exact some_argsort_valid|]. split; [exact close_shape|]. split; [apply coarse_separated, close_coarse|]. split; [exact close_distinct|].
  apply close_local. exact some_argsort_valid.
Qed.
