(** * Property C120 (warnings of the Sobol' samplers). *)
From Coq Require Import Reals String List Arith ZArith Bool Lia Lra.
From Flocq Require Import Core.
From Verif Require Import Base Arrays ModelGroups SpecGroups ModelScale ModelSobol SpecSobol ModelSobolSeq SpecSobolSeq ModelDouble ModelWarnings ProofsSobolSeq ProofsSobolSeq2
  ProofsWarnings ProofsWarnings2.
Import ListNotations.
Local Open Scope R_scope.

(** The warnings about powers of two are issued for exactly the numbers other than 2, 4, 8, ..., whatever the logarithms. *)
Theorem C120_powers : forall lg N,
  (forall M, (0 < M)%Z -> In NotPowerSkip (sobol_warnings lg N M) <-> ~ exists k, (1 <= k)%Z /\ M = (2 ^ k)%Z) /\
  (forall M, (0 < M)%Z -> In NotPowerSkip (saltelli_warnings lg N (Some M)) <-> ~ exists k, (1 <= k)%Z /\ M = (2 ^ k)%Z) /\
  (forall skip, In NotPowerN (saltelli_warnings lg N skip) <-> ~ exists k, (1 <= k)%Z /\ Z.of_nat N = (2 ^ k)%Z).
Proof. exact (fun lg N => conj (powers_sobol lg N) (conj (powers_saltelli lg N) (powers_N lg N))). Qed.
Print Assumptions C120_powers.

(** So the message "only valid if `skip_values` (1) is a power of 2" is issued for a power of two. *)
Theorem C120_one_refuted : ~ (forall lg N M, (0 < M)%Z -> (exists k, (0 <= k)%Z /\ M = (2 ^ k)%Z) -> ~ In NotPowerSkip (sobol_warnings lg N M)).
Proof.
  intros H. apply (H (fun x => x) 1%nat 1%Z); [lia| |].
  - exists 0%Z. split; [lia|reflexivity].
  - left. reflexivity.
Qed.
Print Assumptions C120_one_refuted.

Example C120_powers_example : flagged 1024 = false /\ flagged 1000 = true /\ flagged 0 = true /\ flagged 1 = true /\ flagged 2 = false.
Proof. repeat split; reflexivity. Qed.

(** With correctly rounded logarithms both samplers warn about too few skipped points exactly when a power of two lies above the number skipped and not above
    the number drawn. *)
Theorem C120_few : forall N z, (1 <= N)%nat -> (Z.of_nat N < 2 ^ 31)%Z -> (0 < z < 2 ^ 31)%Z ->
  (In FewSkipped (sobol_warnings (fun x => fl (ln x / ln 2)) N z) <-> exists k, (z < 2 ^ Z.of_nat k <= Z.of_nat N)%Z) /\
  (In FewSkipped (saltelli_warnings (fun x => fl (ln x)) N (Some z)) <-> exists k, (z < 2 ^ Z.of_nat k <= Z.of_nat N)%Z).
Proof. exact few_rounded. Qed.
Print Assumptions C120_few.

(** Whatever the logarithms, as long as they are monotone, the warning is justified: more points are drawn than skipped. *)
Theorem C120_justified : forall lg N z, (forall x y, 1 <= x <= y -> lg x <= lg y) ->
  (In FewSkipped (sobol_warnings lg N z) -> (z < Z.of_nat N)%Z) /\
  (0 < lg 2 -> In FewSkipped (saltelli_warnings lg N (Some z)) -> (z < Z.of_nat N)%Z).
Proof. exact few_sound. Qed.
Print Assumptions C120_justified.

(** "Warning when N > skip_values" is not what happens: when 2^k points are skipped, none of the numbers strictly between 2^k and 2^(k+1) is reported. *)
Theorem C120_missed : forall k N, (1 <= k)%nat -> (2 ^ k < N < 2 ^ S k)%nat -> (Z.of_nat N < 2 ^ 31)%Z ->
  sobol_warnings (fun x => fl (ln x / ln 2)) N (2 ^ Z.of_nat k) = [] /\
  saltelli_warnings (fun x => fl (ln x)) N (Some (2 ^ Z.of_nat k)%Z) = [Deprecated; NotPowerN].
Proof. exact missed. Qed.
Print Assumptions C120_missed.
Theorem C120_more_points_refuted : ~ (forall N z, (0 < z)%Z -> (z < Z.of_nat N)%Z -> In FewSkipped (sobol_warnings (fun x => fl (ln x / ln 2)) N z)).
Proof.
  intros H. specialize (H 7%nat (2 ^ Z.of_nat 2)%Z ltac:(simpl; lia) ltac:(simpl; lia)). rewrite (proj1 (missed 2 7 ltac:(lia) ltac:(simpl; lia) ltac:(lia))) in H. contradiction.
Qed.
Print Assumptions C120_more_points_refuted.

Example C120_few_example : In FewSkipped (sobol_warnings (fun x => fl (ln x / ln 2)) 8 7) /\
  ~ In FewSkipped (sobol_warnings (fun x => fl (ln x / ln 2)) 15 8) /\ In FewSkipped (saltelli_warnings (fun x => fl (ln x)) 16 (Some 8%Z)).
Proof.
  split; [|split].
  - apply C120_few; try lia. exists 3%nat. simpl. lia.
  - intros H. apply C120_few in H; try lia. destruct H as (k & A & B). change 8%Z with (2 ^ 3)%Z in A. apply Z.pow_lt_mono_r_iff in A; [|lia|lia].
    assert (2 ^ 4 <= 2 ^ Z.of_nat k)%Z by (apply Z.pow_le_mono_r; lia). simpl in *. lia.
  - apply C120_few; try lia. exists 4%nat. simpl. lia.
Qed.

(** "Duplicate samples will be taken" is said exactly when no point is skipped. *)
Theorem C120_none : forall lg N skip, In NoneSkipped (saltelli_warnings lg N skip) <-> skip = Some 0%Z.
Proof. exact none_saltelli. Qed.
Print Assumptions C120_none.

(** It is true then, and also when one point is skipped: all rows of the first block are the same, the lower corner of the box or its centre. *)
Theorem C120_duplicates : forall nq tq bits p N second z rs, (0 <= z <= 1)%Z -> (0 < N)%nat -> enough_bits bits (N + Z.to_nat z) ->
  sequence_sample bits directions (N + Z.to_nat z) (2 * p_num_vars p) = Ok rs ->
  labelled p -> p_dists p = None -> (0 < p_num_vars p)%nat -> length (p_bounds p) = p_num_vars p -> good_box (p_bounds p) ->
  exists p' m G r, saltelli_sample nq tq (drawn_sequence bits directions (p_num_vars p)) p N second (Some z) = (p', Ok (InPlace m)) /\
    group_count p G /\ length (rows m) = (N * block_size G second)%nat /\
    (forall t, (t < block_size G second)%nat -> nth_error (rows m) t = Some r) /\
    (forall j lo up, nth_error (p_bounds p) j = Some [lo; up] -> nth_error r j = Some (lo + IZR z / 2 * (up - lo))).
Proof. exact duplicates. Qed.
Print Assumptions C120_duplicates.

Definition C120_problem : problem := mkProblem 2 ["x"; "y"]%string [[0; 1]; [-1; 1]] None None false.
Lemma C120_labelled : labelled C120_problem.
Proof. intros g (E & _). discriminate. Qed.
Lemma C120_box : good_box (p_bounds C120_problem).
Proof. repeat constructor; eexists; eexists; (split; [reflexivity|lra]). Qed.
Lemma C120_count : forall G, group_count C120_problem G -> G = 2%nat.
Proof. intros G [(g & ns & (E & _) & _)|(_ & E)]; [discriminate|exact E]. Qed.

(** Without the warning, then, duplicates are still possible. *)
Theorem C120_silent_duplicates_refuted : ~ (forall nq tq lg bits p N z p' m, enough_bits bits (N + Z.to_nat z) -> (bits (N + Z.to_nat z) <= 31)%nat ->
  (0 <= z)%Z -> ~ In NoneSkipped (saltelli_warnings lg N (Some z)) ->
  saltelli_sample nq tq (drawn_sequence bits directions (p_num_vars p)) p N true (Some z) = (p', Ok (InPlace m)) -> NoDup (rows m)).
Proof.
  intros H.
  assert (EB : enough_bits Nat.log2_up (4 + Z.to_nat 1)) by (unfold enough_bits; apply Nat.log2_log2_up_spec; simpl; lia).
  assert (B3 : (Nat.log2_up (4 + Z.to_nat 1) <= 31)%nat) by (apply Nat.leb_le; vm_compute; reflexivity).
  destruct (proj1 (sequence_total directions (4 + Z.to_nat 1) (2 * 2) Nat.log2_up directions_good EB)) as (T & _).
  destruct T as (rs & E). { split; [simpl; lia|]. split; [|exact B3]. pose proof directions_length. lia. }
  destruct (duplicates (fun x => x) (fun x _ _ => x) Nat.log2_up C120_problem 4 true 1 rs ltac:(lia) ltac:(lia) EB E C120_labelled eq_refl
    ltac:(simpl; lia) eq_refl C120_box) as (p' & m & G & r & S & HG & LM & D & _).
  apply C120_count in HG. subst G.
  assert (ND : NoDup (rows m)).
  { eapply H; [exact EB|exact B3|lia| |exact S]. intros Q. apply (C120_none (fun x => x)) in Q. discriminate. }
  rewrite NoDup_nth_error in ND. assert (0 = 1)%nat; [|discriminate]. apply ND; [rewrite LM; simpl; lia|].
  rewrite !D by (simpl; lia). reflexivity.
Qed.
Print Assumptions C120_silent_duplicates_refuted.
