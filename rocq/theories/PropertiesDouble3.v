(** * Property C110 (constant outputs of the Sobol' analysis in double precision). *)
From Coq Require Import Reals String List Arith ZArith Bool Lia Lra.
From Flocq Require Import Core.
From Verif Require Import Base Arrays ModelGroups ModelScale ModelSobol SpecSobol ProofsSobol5 ModelDouble ModelDouble3 ProofsDouble ProofsDouble2 ProofsDouble5 ProofsDouble8 ProofsDouble9.
From Verif Require PropertiesSobol.
Import ListNotations.
Local Open Scope nat_scope.

(** C110: for constant outputs [c] (not tiny), in whatever order numpy adds them up, the result depends on the computed mean: if that is [c], every index
    is nan; if it differs from [c] in the last place, S1, ST and S2 are 0. *)
Theorem C110_constant : forall c mu sigma Zq resample cpus p Y second conf keep workers s,
  double c -> (bpow radix2 (-400) <= Rabs c)%R -> (Z.of_nat (length Y) <= 2 ^ 53)%Z -> (forall y, In y Y -> y = c) -> np_mean Y mu -> np_std mu Y sigma ->
  (forall n, Forall (Forall (fun i => i < n)) (resample n)) ->
  sobol_analyze_fl mu sigma Zq resample cpus p Y second conf keep workers = Ok s ->
  let D := snd (extract_group_names p) in
  (mu = c -> forall k, k < D -> nth_error (S1 s) k = Some None /\ nth_error (ST s) k = Some None /\ nth_error (S1_conf s) k = Some None /\ nth_error (ST_conf s) k = Some None) /\
  (mu <> c ->
    (forall k, k < D -> nth_error (S1 s) k = Some (Some 0%R) /\ nth_error (ST s) k = Some (Some 0%R)) /\
    (second = true -> forall j k, j < k -> k < D -> exists m, S2 s = Some m /\ entry m j k = Some (Some 0%R))).
Proof.
  intros c mu sigma Zq resample cpus p Y second conf keep workers s C L LY A M S R H D. split; intros E.
  - subst mu. rewrite (std_zero c Y sigma A S), analyze_fl_nan in H. apply analyze_nan in H. subst s. intros k Hk. unfold all_nan. cbn [S1 ST S1_conf ST_conf].
    unfold D in Hk. rewrite !nth_error_repeat, (proj2 (Nat.ltb_lt _ _) Hk). auto.
  - assert (DM : double mu) by (destruct M as (t & _ & ->); apply double_fl).
    assert (P : (0 < sigma)%R) by (apply (std_nonzero c mu Y sigma); auto). rewrite (analyze_fl_constant mu sigma Zq resample cpus p Y c) in H by (auto; lra).
    destruct (constant_output _ _ _ _ _ _ _ c _ _ _ _ _ R1_neq_R0 A R H) as (A1 & A2 & _). split; auto.
Qed.
Print Assumptions C110_constant.

(** C110: the mean is [c] in every order of addition, and every index is nan, if [c] has few enough digits: [c] = k 2^e with |k| times the number of outputs
    at most 2^53 (all moderate integers, halves, quarters). *)
Theorem C110_short : forall k e mu sigma Zq resample cpus p Y second conf keep workers s,
  (-1074 <= e)%Z -> (Z.abs k * Z.of_nat (length Y) <= 2 ^ 53)%Z -> (forall y, In y Y -> y = (IZR k * bpow radix2 e)%R) -> np_mean Y mu -> np_std mu Y sigma ->
  sobol_analyze_fl mu sigma Zq resample cpus p Y second conf keep workers = Ok s ->
  mu = (IZR k * bpow radix2 e)%R /\ sigma = 0%R /\
  forall i, i < snd (extract_group_names p) -> nth_error (S1 s) i = Some None /\ nth_error (ST s) i = Some None /\ nth_error (S1_conf s) i = Some None /\ nth_error (ST_conf s) i = Some None.
Proof.
  intros k e mu sigma Zq resample cpus p Y second conf keep workers s E B A M S H. pose proof (mean_exact k e Y mu E A B M) as Em. subst mu.
  pose proof (std_zero _ Y sigma A S) as Es. subst sigma. split; auto. split; auto. rewrite analyze_fl_nan in H. apply analyze_nan in H. subst s. intros i Hi. unfold all_nan. cbn [S1 ST S1_conf ST_conf].
  rewrite !nth_error_repeat, (proj2 (Nat.ltb_lt _ _) Hi). auto.
Qed.
Print Assumptions C110_short.

(** C110: not every constant gives nan: the mean of six outputs of 0.1, added up from left to right, is 0.09999999999999999, and S1 and ST are 0. *)
Definition one_input : problem := mkProblem 1 ["a"]%string [[0; 1]]%R None None false.
Theorem C110_nan_refuted : ~ (forall c mu sigma Zq resample cpus p Y second conf keep workers s, double c -> (forall y, In y Y -> y = c) -> np_mean Y mu -> np_std mu Y sigma ->
  (forall n, Forall (Forall (fun i => i < n)) (resample n)) -> sobol_analyze_fl mu sigma Zq resample cpus p Y second conf keep workers = Ok s ->
  forall k, k < snd (extract_group_names p) -> nth_error (S1 s) k = Some None).
Proof.
  intros H. destruct six_mean_differs as (mu & M & DM & N). destruct (std_some mu tenth (repeat tenth 5)) as (sigma & S).
  assert (A : forall y, In y tenths -> y = tenth) by (intros y Hy; apply repeat_spec in Hy; auto).
  assert (C : double tenth) by apply double_fl. assert (LT : (Z.of_nat (length tenths) <= 2 ^ 53)%Z) by (unfold tenths; rewrite repeat_length; lia).
  assert (L : (bpow radix2 (-400) <= Rabs tenth)%R). { rewrite tenth_value, Rabs_pos_eq by lra. apply Rle_trans with (bpow radix2 (-4)); [apply bpow_le; lia|simpl; lra]. }
  assert (R : forall n : nat, Forall (Forall (fun i => i < n)) ((fun n => [seq 0 n; seq 0 n]) n)).
  { intros n. assert (Forall (fun i => i < n) (seq 0 n)) by (apply Forall_forall; intros i Hi; apply in_seq in Hi; lia). repeat constructor; auto. }
  assert (P : (0 < sigma)%R) by (apply (std_nonzero tenth mu tenths sigma); auto).
  assert (X : exists s, sobol_analyze_fl mu sigma (fun _ => 2%R) (fun n => [seq 0 n; seq 0 n]) 1 one_input tenths false (1/2) false None = Ok s).
  { rewrite (analyze_fl_constant mu sigma (fun _ => 2%R) (fun n => [seq 0 n; seq 0 n]) 1 one_input tenths tenth) by (auto; lra). apply PropertiesSobol.ex_accepted with (D := 0); try reflexivity; try discriminate; lra. }
  destruct X as (s & X). specialize (H tenth mu sigma _ _ _ _ _ _ _ _ _ s C A M S R X 0 ltac:(vm_compute; auto)).
  destruct (C110_constant tenth mu sigma _ _ _ _ _ _ _ _ _ s C L LT A M S R X) as (_ & Q). destruct (Q N) as (Q1 & _). destruct (Q1 0 ltac:(vm_compute; auto)) as (Q2 & _). congruence.
Qed.
Print Assumptions C110_nan_refuted.

(** Eight outputs of 5/4 have mean 5/4 and standard deviation 0. *)
Example C110_example : exists mu sigma, np_mean (repeat (IZR 5 * bpow radix2 (-2))%R 8) mu /\ np_std mu (repeat (IZR 5 * bpow radix2 (-2))%R 8) sigma /\
  mu = (5 / 4)%R /\ sigma = 0%R.
Proof.
  destruct (sums_some (IZR 5 * bpow radix2 (-2))%R (repeat (IZR 5 * bpow radix2 (-2))%R 7)) as (s & S).
  set (mu := fl (s / INR 8)). assert (M : np_mean (repeat (IZR 5 * bpow radix2 (-2))%R 8) mu) by (exists s; auto).
  destruct (std_some mu (IZR 5 * bpow radix2 (-2))%R (repeat (IZR 5 * bpow radix2 (-2))%R 7)) as (sigma & SG).
  exists mu, sigma. split; auto. split; auto.
  assert (E : mu = (IZR 5 * bpow radix2 (-2))%R). { apply (mean_exact 5 (-2) (repeat (IZR 5 * bpow radix2 (-2))%R 8)); auto; [lia|intros y Hy; apply repeat_spec in Hy; auto|rewrite repeat_length; lia]. }
  split; [rewrite E; simpl; lra|]. apply (std_zero mu (repeat (IZR 5 * bpow radix2 (-2))%R 8)); auto. intros y Hy. apply repeat_spec in Hy. congruence.
Qed.
