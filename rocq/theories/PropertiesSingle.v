(** * Property C122: the brute-force selection of Morris trajectories as computed, in single precision. *)
From Coq Require Import Reals String List Arith ZArith Bool Lia Lra Psatz Permutation Sorted.
From Flocq Require Import Core.
From Verif Require Import Base Arrays ModelGroups ModelScale Stats Sums SpecGroups SpecSobol SpecFF ModelMorris ModelMorrisAnalyze SpecMorris ModelDouble ModelDouble4 ModelSingle SpecSingle.
From Verif Require Import ProofsDouble ProofsDouble10 ProofsSingle3 ProofsSingle4 ProofsSingle5.
Import ListNotations.
Local Open Scope R_scope.

(** C122: when coordinates are equal or 2^-60 apart, no selection is better than the one chosen by more than a factor that depends only on the numbers of dimensions, of points
    and of trajectories selected, in whatever order the sums are taken. *)
Theorem C122_bound : forall a1 a2 a3, arrangement a1 -> arrangement a2 -> arrangement a3 ->
  forall chunk X g N k D, trajectories_of N (g + 1) D X -> separated (bpow radix2 (-60)) X -> (1 <= k <= N)%nat -> (1 <= chunk)%nat ->
  exists c s, brute_force_fl a1 a2 a3 chunk X g N k = Ok c /\ selection N k c /\
    is_spread (fun x => x) length_of X (g + 1) c s /\
    forall c' s', selection N k c' -> is_spread (fun x => x) length_of X (g + 1) c' s' ->
      (1 - bpow radix2 (-53)) ^ (2 * (D + (g + 1) * (g + 1) + 2)) * (1 - bpow radix2 (-24)) ^ (k * (k - 1) + 6) * s' <= s.
Proof. exact brute_force_fl_close. Qed.
Print Assumptions C122_bound.

(** C122: for the up to ten trajectories that may be selected by brute force and up to a million pairs of points, the selection is optimal up to one part in 2^17. *)
Theorem C122_near : forall a1 a2 a3 chunk X g N k D, arrangement a1 -> arrangement a2 -> arrangement a3 ->
  trajectories_of N (g + 1) D X -> separated (bpow radix2 (-60)) X -> (1 <= k <= N)%nat -> (1 <= chunk)%nat ->
  (Z.of_nat (D + (g + 1) * (g + 1)) <= 2 ^ 20)%Z -> (k <= 10)%nat ->
  exists c s, brute_force_fl a1 a2 a3 chunk X g N k = Ok c /\ selection N k c /\
    is_spread (fun x => x) length_of X (g + 1) c s /\
    forall c' s', selection N k c' -> is_spread (fun x => x) length_of X (g + 1) c' s' -> s' <= (1 + bpow radix2 (-17)) * s.
Proof. exact brute_force_fl_near. Qed.
Print Assumptions C122_near.

(** C122: so it is for every sample the Morris sampler draws in double precision, with up to 2^48 levels. *)
Theorem C122_sample : forall a1 a2 a3 chunk ls N levels draws G k, arrangement a1 -> arrangement a2 -> arrangement a3 ->
  (2 <= levels)%nat -> (Z.of_nat levels <= 2 ^ 48)%Z -> valid_draws ls levels draws -> distinct_count ls G -> ls <> [] ->
  (1 <= k <= N)%nat -> (1 <= chunk)%nat -> (Z.of_nat (length ls + (G + 1) * (G + 1)) <= 2 ^ 20)%Z -> (k <= 10)%nat ->
  exists X c s, sample_morris_fl ls N levels draws = Ok X /\ brute_force_fl a1 a2 a3 chunk X G N k = Ok c /\ selection N k c /\
    is_spread (fun x => x) length_of X (G + 1) c s /\
    forall c' s', selection N k c' -> is_spread (fun x => x) length_of X (G + 1) c' s' -> s' <= (1 + bpow radix2 (-17)) * s.
Proof. exact sample_near. Qed.
Print Assumptions C122_sample.

(** C122: for samples whose coordinates are doubles that are 0 or at least 1/256. *)
Theorem C122_grid : forall a1 a2 a3 chunk X g N k D, arrangement a1 -> arrangement a2 -> arrangement a3 ->
  trajectories_of N (g + 1) D X -> coarse X -> (1 <= k <= N)%nat -> (1 <= chunk)%nat ->
  (Z.of_nat (D + (g + 1) * (g + 1)) <= 2 ^ 20)%Z -> (k <= 10)%nat ->
  exists c s, brute_force_fl a1 a2 a3 chunk X g N k = Ok c /\ selection N k c /\
    is_spread (fun x => x) length_of X (g + 1) c s /\
    forall c' s', selection N k c' -> is_spread (fun x => x) length_of X (g + 1) c' s' -> s' <= (1 + bpow radix2 (-17)) * s.
Proof. intros a1 a2 a3 chunk X g N k D H1 H2 H3 T C. apply brute_force_fl_near; auto. apply coarse_separated. auto. Qed.
Print Assumptions C122_grid.

(** C122: that the selection has the largest spread is false: of three trajectories of two points, (0, 1/2), (1/4, 3/4) and (1/4 + 2^-26, 3/4 + 2^-26), the first two are
    selected although the first and the last are further apart. *)
Theorem C122_exact_refuted : exists a1 a2 a3 X c c' s s', arrangement a1 /\ arrangement a2 /\ arrangement a3 /\
  trajectories_of 3 2 1 X /\ coarse X /\ (forall chunk, (1 <= chunk)%nat -> brute_force_fl a1 a2 a3 chunk X 1 3 2 = Ok c) /\
  selection 3 2 c' /\ is_spread (fun x => x) length_of X 2 c s /\ is_spread (fun x => x) length_of X 2 c' s' /\ s < s'.
Proof.
  exists left_to_right, left_to_right, left_to_right, close_X, [0; 1]%nat, [0; 2]%nat, (3 / 2), (3 / 2 + / 33554432).
  split; [apply left_arrangement|]. split; [apply left_arrangement|]. split; [apply left_arrangement|].
  split; [apply close_shape|]. split; [apply close_coarse|]. split; [apply close_selected|]. split.
  - split; [reflexivity|]. split; [simpl; intros x [<-|[<-|[]]]; lia|repeat constructor].
  - split; [apply close_spreads|]. split; [apply close_spreads|]. lra.
Qed.
Print Assumptions C122_exact_refuted.

(** A case of the above: here the selection meets the bound and is not the best. *)
Example C122_example : trajectories_of 3 2 1 close_X /\ separated (bpow radix2 (-60)) close_X /\
  brute_force_fl left_to_right left_to_right left_to_right 1000 close_X 1 3 2 = Ok [0; 1]%nat /\
  3 / 2 + / 33554432 <= (1 + bpow radix2 (-17)) * (3 / 2).
Proof.
  split; [apply close_shape|]. split; [apply coarse_separated, close_coarse|]. split; [apply close_selected; lia|]. simpl. lra.
Qed.
Example C122_sample_example : valid_draws ["x"; "y"]%string 4 (fun _ => mkDraw [1; 0]%nat (fun _ => true) (fun _ => 1%nat)) /\ distinct_count ["x"; "y"]%string 2 /\
  (Z.of_nat (length ["x"; "y"]%string + (2 + 1) * (2 + 1)) <= 2 ^ 20)%Z.
Proof.
  assert (G : distinct_count ["x"; "y"]%string 2).
  { exists ["x"; "y"]%string. split; [repeat constructor; simpl; intuition discriminate|]. split; [simpl; tauto|auto]. }
  split; [|split; [exact G|vm_compute; discriminate]]. exists 2%nat. split; [exact G|]. intros t. split; [apply Permutation.perm_swap|]. intros j. vm_compute. auto.
Qed.
