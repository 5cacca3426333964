(** * Sobol' indices of continuous models in the limit: C100. *)
From Coq Require Import Reals String List Arith ZArith Bool Lia Lra Psatz.
From Verif Require Import Base Arrays ModelGroups ModelScale Stats ModelSobol SpecGroups SpecSobol SpecIntegral ProofsIntegral SpecExpect SpecExpect2
  ModelTestFunctions ProofsTestFunctions3 SpecLimit ProofsLimit2 ProofsLimit3 ProofsLimit4 ProofsLimit5 ProofsLimit6 ProofsLimit8.
From Verif Require PropertiesTestFunctions.
Import ListNotations.
Local Open Scope R_scope.

(** C100: sobol.sample, a continuous model, and sobol.analyze.  Whenever the point sets of the generator fill the unit cube of twice the
    dimension, S1, ST and S2 tend to the shares of the variance of the model over the box, for parameters as for groups. *)
Theorem C100_converges : forall nq tq qrng p b M second skip G u f X q Zq resample cpus conf keep workers s,
  consistent p -> p_dists p = None -> (0 < p_num_vars p)%nat -> length b = p_num_vars p -> proper b -> p_bounds p = pair_bounds b -> (0 <= skip)%Z ->
  fills (unit_box (2 * p_num_vars p)) (fun n => qrng (Z.to_nat skip) (M n)) -> (forall n, length (qrng (Z.to_nat skip) (M n)) = M n) ->
  group_count p G -> (forall k j, u k j = true <-> in_group p k j) -> continuous_on b f ->
  (forall n, sobol_sample nq tq qrng p (M n) second skip = (q n, Ok (InPlace (X n)))) ->
  (forall n, analyze Zq (resample n) cpus (q n) (map f (rows (X n))) second conf keep workers = Ok (s n)) ->
  forall V, SpecIntegral.variance b f V -> 0 < V ->
  forall eps, 0 < eps ->
  (forall k v, (k < G)%nat -> closed_share b f (u k) v -> exists n0, forall n, (n0 <= n)%nat -> exists e, nth_error (S1 (s n)) k = Some (Some e) /\ Rabs (e - v / V) < eps) /\
  (forall k v, (k < G)%nat -> total_share b f (u k) v -> exists n0, forall n, (n0 <= n)%nat -> exists e, nth_error (ST (s n)) k = Some (Some e) /\ Rabs (e - v / V) < eps) /\
  (second = true -> forall j k v, (j < k)%nat -> (k < G)%nat -> joint_share b f (u j) (u k) v -> exists n0, forall n, (n0 <= n)%nat -> exists m e,
     S2 (s n) = Some m /\ entry m j k = Some (Some e) /\ Rabs (e - v / V) < eps).
Proof. exact sobol_sample_cv. Qed.
Print Assumptions C100_converges.

(** C100: without groups the limits of S1 and ST are the first-order and total effects of the parameters. *)
Theorem C100_parameters : forall nq tq qrng p b M second skip f X q Zq resample cpus conf keep workers s,
  consistent p -> ungrouped p -> p_dists p = None -> (0 < p_num_vars p)%nat -> length b = p_num_vars p -> proper b -> p_bounds p = pair_bounds b -> (0 <= skip)%Z ->
  fills (unit_box (2 * p_num_vars p)) (fun n => qrng (Z.to_nat skip) (M n)) -> (forall n, length (qrng (Z.to_nat skip) (M n)) = M n) -> continuous_on b f ->
  (forall n, sobol_sample nq tq qrng p (M n) second skip = (q n, Ok (InPlace (X n)))) ->
  (forall n, analyze Zq (resample n) cpus (q n) (map f (rows (X n))) second conf keep workers = Ok (s n)) ->
  forall V, SpecIntegral.variance b f V -> 0 < V -> forall eps i v, 0 < eps -> (i < p_num_vars p)%nat ->
  (first_effect b f i v -> exists n0, forall n, (n0 <= n)%nat -> exists e, nth_error (S1 (s n)) i = Some (Some e) /\ Rabs (e - v / V) < eps) /\
  (SpecIntegral.total_effect b f i v -> exists n0, forall n, (n0 <= n)%nat -> exists e, nth_error (ST (s n)) i = Some (Some e) /\ Rabs (e - v / V) < eps).
Proof.
  intros nq tq qrng p b M second skip f X q Zq resample cpus conf keep workers s HC HU Hd Hn HB HP Eb HS HF LQ Hf HX HA V HV V0 eps i v He Hi.
  destruct (C100_converges nq tq qrng p b M second skip (p_num_vars p) Nat.eqb f X q Zq resample cpus conf keep workers s) with (V := V) (eps := eps) as (R1 & R2 & _); auto.
  - right. auto.
  - apply ungrouped_select. auto.
  - split; intros F; [apply R1; auto; apply first_closed; auto|apply R2; auto; apply total_total; auto].
Qed.
Print Assumptions C100_parameters.

(** C100: the same for any base matrix that fills the box twice over, cross-sampled and evaluated. *)
Theorem C100_design : forall zero p G second f u b base Zq resample cpus conf keep workers s,
  consistent p -> group_count p G -> (forall k j, u k j = true <-> in_group p k j) -> length b = p_num_vars p -> proper b -> continuous_on b f -> fills (b ++ b) base ->
  (forall n, analyze Zq (resample n) cpus p (outputs zero p second f (length (base n)) (base n)) second conf keep workers = Ok (s n)) ->
  forall V, SpecIntegral.variance b f V -> 0 < V ->
  forall eps, 0 < eps ->
  (forall k v, (k < G)%nat -> closed_share b f (u k) v -> exists n0, forall n, (n0 <= n)%nat -> exists e, nth_error (S1 (s n)) k = Some (Some e) /\ Rabs (e - v / V) < eps) /\
  (forall k v, (k < G)%nat -> total_share b f (u k) v -> exists n0, forall n, (n0 <= n)%nat -> exists e, nth_error (ST (s n)) k = Some (Some e) /\ Rabs (e - v / V) < eps) /\
  (second = true -> forall j k v, (j < k)%nat -> (k < G)%nat -> joint_share b f (u j) (u k) v -> exists n0, forall n, (n0 <= n)%nat -> exists m e,
     S2 (s n) = Some m /\ entry m j k = Some (Some e) /\ Rabs (e - v / V) < eps).
Proof. exact reported_cv. Qed.
Print Assumptions C100_design.

(** C100: a continuous model has all these shares. *)
Theorem C100_shares : forall b f u w, proper b -> continuous_on b f ->
  (exists v, SpecIntegral.variance b f v) /\ (exists v, closed_share b f u v) /\ (exists v, total_share b f u v) /\ (exists v, joint_share b f u w v).
Proof.
  intros b f u w P C. split; [apply variance_exists; auto|]. split; [apply closed_exists; auto|]. split; [apply total_exists; auto|].
  destruct (closed_exists b f u P C) as (vu & Hu). destruct (closed_exists b f w P C) as (vw & Hw). destruct (closed_exists b f (fun j => orb (u j) (w j)) P C) as (vb & Hb).
  exists (vb - vu - vw), vu, vw, vb. auto.
Qed.
Print Assumptions C100_shares.

(** C100: and the sample and its analysis go through for every size. *)
Theorem C100_runs : forall nq tq qrng p b N second skip f Zq resample cpus conf keep workers, consistent p -> p_dists p = None -> (0 < p_num_vars p)%nat -> length b = p_num_vars p -> proper b ->
  p_bounds p = pair_bounds b -> (0 <= skip)%Z -> length (qrng (Z.to_nat skip) N) = N -> Forall (fun x => length x = (2 * p_num_vars p)%nat) (qrng (Z.to_nat skip) N) ->
  (0 < N)%nat -> 0 < conf < 1 -> resample N <> [] -> (forall np, workers = Some np -> np <> Some 0%nat /\ (np = None -> (0 < cpus)%nat)) ->
  exists q X s, sobol_sample nq tq qrng p N second skip = (q, Ok (InPlace X)) /\ cols X = p_num_vars p /\ analyze Zq resample cpus q (map f (rows X)) second conf keep workers = Ok s.
Proof. exact workflow_runs. Qed.
Print Assumptions C100_runs.

(** C100: on the Ishigami function with the usual constants S1 ends up within 0.0001 of 0.3139, 0.4424 and 0. *)
Theorem C100_ishigami : forall nq tq qrng p M second skip X q Y Zq resample cpus conf keep workers s,
  consistent p -> ungrouped p -> p_dists p = None -> p_num_vars p = 3%nat -> p_bounds p = repeat [- PI; PI] 3 -> (0 <= skip)%Z ->
  fills (unit_box 6) (fun n => qrng (Z.to_nat skip) (M n)) -> (forall n, length (qrng (Z.to_nat skip) (M n)) = M n) ->
  (forall n, sobol_sample nq tq qrng p (M n) second skip = (q n, Ok (InPlace (X n)))) ->
  (forall n, ishigami 7 (1 / 10) (X n) = Ok (Y n)) ->
  (forall n, analyze Zq (resample n) cpus (q n) (Y n) second conf keep workers = Ok (s n)) ->
  exists n0, forall n, (n0 <= n)%nat -> exists e0 e1 e2,
    nth_error (S1 (s n)) 0 = Some (Some e0) /\ nth_error (S1 (s n)) 1 = Some (Some e1) /\ nth_error (S1 (s n)) 2 = Some (Some e2) /\
    Rabs (e0 - 3139 / 10000) < 1 / 10000 /\ Rabs (e1 - 4424 / 10000) < 1 / 10000 /\ Rabs e2 < 1 / 10000.
Proof.
  intros nq tq qrng p M second skip X q Y Zq resample cpus conf keep workers s HC HU Hd H3 Eb HS HF LQ HX HY HA.
  destruct PropertiesTestFunctions.C75_quoted as (f & V & t & Hf & HV & V0 & Lt & Ht & T0 & T1 & T2).
  assert (P : proper cube3) by apply (proper_pi 3).
  assert (E : forall x, inside cube3 x -> f x = ish 7 (1 / 10) x).
  { intros x Hx. specialize (Hf [x] (Forall_cons _ Hx (Forall_nil _))). cbn in Hf. injection Hf as Hf. unfold ish. rewrite <- Hf. cbn. ring. }
  assert (EY : forall n, Y n = map (ish 7 (1 / 10)) (rows (X n))).
  { intros n. specialize (HY n). unfold ishigami in HY. destruct (cols (X n) <? 3)%nat; [discriminate|]. injection HY as <-. reflexivity. }
  destruct (C100_converges nq tq qrng p cube3 M second skip 3%nat Nat.eqb (ish 7 (1 / 10)) X q Zq resample cpus conf keep workers s) with (V := V) (eps := 5 / 100000) as (R1 & _ & _); auto.
  - lia.
  - rewrite H3. exact HF.
  - right. auto.
  - apply ungrouped_select. auto.
  - apply ish_continuous.
  - intros n. rewrite <- EY. auto.
  - apply (variance_same cube3 f); auto.
  - lra.
  - assert (Q : forall i, (i < 3)%nat -> exists n0, forall n, (n0 <= n)%nat -> exists e, nth_error (S1 (s n)) i = Some (Some e) /\ Rabs (e - nth i t 0) < 5 / 100000).
    { intros i Hi. assert (CS : closed_share cube3 (ish 7 (1 / 10)) (Nat.eqb i) (nth i t 0 * V)).
      { apply (closed_same cube3 f); auto. apply first_closed; auto. }
      destruct (R1 i (nth i t 0 * V) Hi CS) as (n0 & H0). exists n0. intros n Hn. destruct (H0 n Hn) as (e & He & HB). exists e. split; auto. replace (nth i t 0 * V / V) with (nth i t 0) in HB by (field; lra). auto. }
    destruct (Q 0%nat ltac:(lia)) as (n1 & Q1). destruct (Q 1%nat ltac:(lia)) as (n2 & Q2). destruct (Q 2%nat ltac:(lia)) as (n3 & Q3).
    exists (n1 + n2 + n3)%nat. intros n Hn. destruct (Q1 n ltac:(lia)) as (e0 & E0 & B0). destruct (Q2 n ltac:(lia)) as (e1 & E1 & B1). destruct (Q3 n ltac:(lia)) as (e2 & E2 & B2).
    exists e0, e1, e2. do 3 (split; [assumption|]). apply Rabs_def2 in B0. apply Rabs_def2 in B1. apply Rabs_def2 in B2. apply Rabs_def2 in T0. apply Rabs_def2 in T1. rewrite T2 in B2.
    split; [|split]; apply Rabs_def1; lra.
Qed.
Print Assumptions C100_ishigami.

(** Grids as point sets: samples of the Ishigami problem whose indices converge. *)
Definition ish_problem : problem := mkProblem 3 ["x1"; "x2"; "x3"]%string (repeat [- PI; PI] 3) None None false.
Example ishigami_in_the_limit : exists q X Y s,
  (forall n, sobol_sample (fun x => x) (fun _ _ _ => 0) (grid_qrng 6) ish_problem (S n ^ 6) false 0 = (q n, Ok (InPlace (X n)))) /\
  (forall n, ishigami 7 (1 / 10) (X n) = Ok (Y n)) /\
  (forall n, analyze (fun x => x) (fun N => [seq 0 N]) 4 (q n) (Y n) false (95 / 100) false None = Ok (s n)) /\
  exists n0, forall n, (n0 <= n)%nat -> exists e, nth_error (S1 (s n)) 0 = Some (Some e) /\ Rabs (e - 3139 / 10000) < 1 / 10000.
Proof.
  pose (W := fun n => sobol_sample (fun x => x) (fun _ _ _ => 0) (grid_qrng 6) ish_problem (S n ^ 6) false 0).
  pose (q := fun n => fst (W n)). pose (X := fun n => match snd (W n) with Ok (InPlace m) => m | _ => mkMat 3 [] end).
  pose (Y := fun n => map (ish 7 (1 / 10)) (rows (X n))).
  pose (A := fun n => analyze (fun x => x) (fun N => [seq 0 N]) 4 (q n) (Y n) false (95 / 100) false None).
  pose (s := fun n => match A n with Ok r => r | Err _ => mkSi [] [] [] [] None None None None end).
  assert (HC : consistent ish_problem).
  { split; [|split; [|split]].
    - intros g (Hg & _). discriminate.
    - repeat constructor; simpl; intuition discriminate.
    - reflexivity.
    - intros (g & x & l & Hg & _). discriminate. }
  assert (HU : ungrouped ish_problem) by (intros g (Hg & _); discriminate).
  assert (D : (0 < 6)%nat) by lia.
  assert (R : forall n, W n = (q n, Ok (InPlace (X n))) /\ cols (X n) = 3%nat /\ A n = Ok (s n)).
  { intros n. destruct (C100_runs (fun x => x) (fun _ _ _ => 0) (grid_qrng 6) ish_problem cube3 (S n ^ 6) false 0 (ish 7 (1 / 10)) (fun x => x) (fun N => [seq 0 N]) 4 (95 / 100) false None)
      as (q' & X' & s' & E1 & EC & E2); auto.
    - simpl. lia.
    - apply (proper_pi 3).
    - lia.
    - apply grid_qrng_length. auto.
    - apply grid_qrng_rows. auto.
    - pose proof (Nat.pow_nonzero (S n) 6 ltac:(lia)). lia.
    - lra.
    - discriminate.
    - intros np Hnp. discriminate.
    - assert (EW : W n = (q', Ok (InPlace X'))) by exact E1.
      assert (Eq : q n = q') by (unfold q; rewrite EW; reflexivity). assert (EX : X n = X') by (unfold X; rewrite EW; reflexivity).
      rewrite Eq, EX. split; auto. split; auto. assert (EA : A n = Ok s') by (unfold A, Y; rewrite Eq, EX; exact E2). unfold s. rewrite EA. reflexivity. }
  exists q, X, Y, s. split; [intros n; apply R|].
  assert (EY : forall n, ishigami 7 (1 / 10) (X n) = Ok (Y n)).
  { intros n. unfold ishigami. replace (cols (X n)) with 3%nat; [reflexivity|]. symmetry. apply R. }
  split; auto. split; [intros n; apply R|].
  destruct (C100_ishigami (fun x => x) (fun _ _ _ => 0) (grid_qrng 6) ish_problem (fun n => (S n ^ 6)%nat) false 0 X q Y (fun x => x) (fun _ N => [seq 0 N]) 4 (95 / 100) false None s) as (n0 & H0); auto.
  - lia.
  - apply grid_qrng_fills. auto.
  - intros n. apply grid_qrng_length. auto.
  - intros n. apply R.
  - intros n. apply R.
  - exists n0. intros n Hn. destruct (H0 n Hn) as (e & _ & _ & E & _ & _ & B & _). exists e. auto.
Qed.
