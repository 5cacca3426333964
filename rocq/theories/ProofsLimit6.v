(** * The samples of sobol.sample, and the Ishigami function. *)
From Coq Require Import Reals String List Arith ZArith Bool Lia Lra Psatz.
From Verif Require Import Base Arrays ModelGroups ModelScale Stats ModelSobol SpecGroups SpecSobol SpecIntegral ProofsIntegral SpecExpect SpecExpect2 ProofsExpect
  ProofsExpect2 ProofsExpect3 ProofsSobol ProofsSobol5 ProofsSobol6 SpecLimit ProofsPoincare ProofsPoincare2 ProofsLimit ProofsLimit2 ProofsLimit3 ProofsLimit4 ProofsLimit5.
Import ListNotations.
Local Open Scope R_scope.

Lemma pair_bounds_good : forall b, proper b -> good_box (pair_bounds b).
Proof. intros b P. apply Forall_forall. intros r Hr. apply in_map_iff in Hr. destruct Hr as (i & <- & Hi). unfold proper in P. rewrite Forall_forall in P. exists (fst i), (snd i). auto. Qed.
Lemma pair_bounds_nth : forall b j lo up, nth_error (pair_bounds b) j = Some [lo; up] <-> nth_error b j = Some (lo, up).
Proof.
  intros b j lo up. unfold pair_bounds. rewrite nth_error_map'. destruct (nth_error b j) as [(l, h)|]; cbn; split; intros E; try discriminate; injection E as -> ->; reflexivity.
Qed.
Lemma nth_error_same : forall A (l l' : list A), (forall j x, nth_error l j = Some x <-> nth_error l' j = Some x) -> l = l'.
Proof.
  intros A. induction l as [|a l IH]; intros [|a' l'] H; auto.
  - pose proof (proj2 (H 0%nat a') eq_refl). discriminate.
  - pose proof (proj1 (H 0%nat a) eq_refl). discriminate.
  - pose proof (proj1 (H 0%nat a) eq_refl) as E. injection E as ->. f_equal. apply IH. intros j x. apply (H (S j) x).
Qed.

Lemma unit_app : forall n, unit_box (2 * n) = unit_box n ++ unit_box n.
Proof. intros n. unfold unit_box. rewrite <- repeat_app. f_equal. lia. Qed.

(** The outputs on the array that sobol.sample returns. *)
Lemma sobol_outputs : forall nq tq qrng p b N second skip f, (0 <= skip)%Z -> (N = 0%nat -> skip = 0%Z) -> labelled p -> p_dists p = None -> (0 < p_num_vars p)%nat ->
  length b = p_num_vars p -> proper b -> p_bounds p = pair_bounds b -> length (qrng (Z.to_nat skip) N) = N -> Forall (fun x => length x = (2 * p_num_vars p)%nat) (qrng (Z.to_nat skip) N) ->
  exists m, sobol_sample nq tq qrng p N second skip = (mkProblem (p_num_vars p) (p_names p) (p_bounds p) (p_groups p) (p_dists p) true, Ok (InPlace m)) /\ cols m = p_num_vars p /\
    map f (rows m) = outputs 0 p second (fun x => f (phys b x)) N (qrng (Z.to_nat skip) N).
Proof.
  intros nq tq qrng p b N second skip f HS HN HL Hd Hn HB HP Eb LQ FQ.
  assert (PB : proper_base (qrng (Z.to_nat skip) N) (seq 0 N) p).
  { intros i Hi. apply in_seq in Hi. destruct (nth_error (qrng (Z.to_nat skip) N) i) as [x|] eqn:E; [|apply nth_error_None in E; lia]. exists x. split; auto.
    rewrite Forall_forall in FQ. apply FQ. eapply nth_error_In; eauto. }
  destruct (cross_sample_layout 0 _ (seq 0 N) p second HL PB) as (rs & G & E & _).
  destruct (scale_ok_box (mkMat (p_num_vars p) rs) (p_bounds p) Hn) as (v & Es & Lv & Hv).
  { rewrite Eb. unfold pair_bounds. rewrite map_length. auto. } { rewrite Eb. apply pair_bounds_good. auto. }
  cbn [cols rows] in Es, Lv.
  assert (v = b) as ->.
  { apply nth_error_same. intros j (lo, up). rewrite Hv, Eb. apply pair_bounds_nth. }
  exists (mkMat (p_num_vars p) (map (to_physical b) rs)). split.
  - unfold sobol_sample. destruct (Z.ltb_spec skip 0); [lia|]. replace (Z.ltb 0 skip && (N =? 0)%nat)%bool with false
      by (symmetry; apply Bool.andb_false_iff; destruct (Nat.eqb_spec N 0) as [Q|Q]; [left; rewrite (HN Q); reflexivity|auto]). rewrite E. unfold scale_samples. rewrite Hd, Es. reflexivity.
  - split; [reflexivity|]. unfold outputs. rewrite E. cbn [rows]. rewrite map_map. reflexivity.
Qed.

Lemma sobol_sample_cv : forall nq tq qrng p b M second skip G u f X q Zq resample cpus conf keep workers s,
  consistent p -> p_dists p = None -> (0 < p_num_vars p)%nat -> length b = p_num_vars p -> proper b -> p_bounds p = pair_bounds b -> (0 <= skip)%Z ->
  fills (unit_box (2 * p_num_vars p)) (fun n => qrng (Z.to_nat skip) (M n)) -> (forall n, length (qrng (Z.to_nat skip) (M n)) = M n) ->
  group_count p G -> (forall k j, u k j = true <-> in_group p k j) -> continuous_on b f ->
  (forall n, sobol_sample nq tq qrng p (M n) second skip = (q n, Ok (InPlace (X n)))) ->
  (forall n, analyze Zq (resample n) cpus (q n) (map f (rows (X n))) second conf keep workers = Ok (s n)) ->
  forall V, SpecIntegral.variance b f V -> 0 < V ->
  forall eps, 0 < eps ->
  (forall k v, (k < G)%nat -> closed_share b f (u k) v -> exists n0, forall n, (n0 <= n)%nat -> exists e, nth_error (S1 (s n)) k = Some (Some e) /\ Rabs (e - v / V) < eps) /\
  (forall k v, (k < G)%nat -> total_share b f (u k) v -> exists n0, forall n, (n0 <= n)%nat -> exists e, nth_error (ST (s n)) k = Some (Some e) /\ Rabs (e - v / V) < eps) /\
  (second = true -> forall j k v, (j < k)%nat -> (k < G)%nat -> joint_share b f (u j) (u k) v -> exists n0, forall n, (n0 <= n)%nat -> exists m e,
     S2 (s n) = Some m /\ entry m j k = Some (Some e) /\ Rabs (e - v / V) < eps).
Proof.
  intros nq tq qrng p b M second skip G u f X q Zq resample cpus conf keep workers s HC Hd Hn HB HP Eb HS HF LQ HG HU Hf HX HA V HV V0 eps He.
  set (base := fun n => qrng (Z.to_nat skip) (M n)) in *. set (F := fun x => f (phys b x)).
  rewrite unit_app, <- HB in HF.
  assert (HA' : forall n, analyze Zq (resample n) cpus p (outputs 0 p second F (length (base n)) (base n)) second conf keep workers = Ok (s n)).
  { intros n. unfold base at 1. rewrite LQ.
    assert (FQ : Forall (fun x => length x = (2 * p_num_vars p)%nat) (qrng (Z.to_nat skip) (M n))).
    { destruct HF as (HF & _). destruct (HF n) as (_ & HI). revert HI. apply Forall_impl. intros x Hx. apply inside_length in Hx. rewrite Hx, app_length. unfold unit_box. rewrite !repeat_length. lia. }
    assert (Z0 : M n = 0%nat -> skip = 0%Z).
    { intros Z. specialize (HX n). unfold sobol_sample in HX. destruct (Z.ltb_spec skip 0); [lia|]. destruct (Z.ltb_spec 0 skip); [|lia]. rewrite Z in HX. discriminate HX. }
    destruct (sobol_outputs nq tq qrng p b (M n) second skip f HS Z0 (proj1 HC) Hd Hn HB HP Eb (LQ n) FQ) as (m & E & _ & EO).
    rewrite HX in E. injection E as Eq Em. subst m. unfold F, base. rewrite <- EO. rewrite <- (HA n), Eq. reflexivity. }
  destruct (reported_cv 0 p G second F u (unit_box (length b)) base Zq resample cpus conf keep workers s HC HG HU) with (V := V) (eps := eps) as (R1 & R2 & R3); auto.
  - unfold unit_box. rewrite repeat_length. auto.
  - apply unit_proper.
  - apply phys_continuous; auto.
  - apply variance_phys; auto.
  - split; [|split].
    + intros k v K Hv. apply R1; auto. apply closed_phys; auto.
    + intros k v K Hv. apply R2; auto. apply total_phys; auto.
    + intros T j k v JK K Hv. apply R3; auto. apply joint_phys; auto.
Qed.

(** ** Continuity of coordinates and of compositions *)
Lemma continuous_coord : forall b i, (i < length b)%nat -> continuous_on b (fun x => nth i x 0).
Proof.
  intros b i I eps He. exists eps. split; auto. intros x y X Y N.
  assert (L : (i < length x)%nat) by (rewrite (inside_length b x X); auto).
  clear X Y. revert i I L. induction N as [|a c x y H N IH]; intros i I L; [simpl in L; lia|]. destruct i as [|i]; [exact H|]. cbn [nth]. simpl in L. apply IH; lia.
Qed.
Lemma continuous_lipschitz : forall b f (g : R -> R) K, 0 < K -> (forall x y, Rabs (g x - g y) <= K * Rabs (x - y)) -> continuous_on b f -> continuous_on b (fun x => g (f x)).
Proof.
  intros b f g K K0 H C eps He. destruct (C (eps / K)) as (d & D & HD); [apply Rdiv_lt_0_compat; auto|]. exists d. split; auto. intros x y X Y N.
  eapply Rle_trans; [apply H|]. specialize (HD x y X Y N). apply Rle_trans with (K * (eps / K)); [apply Rmult_le_compat_l; lra|]. right. field. lra.
Qed.
Lemma sin_lipschitz : forall x y, Rabs (sin x - sin y) <= 1 * Rabs (x - y).
Proof.
  assert (A : forall x y, x < y -> Rabs (sin y - sin x) <= Rabs (y - x)).
  { intros x y L. destruct (MVT_cor2 sin cos x y L) as (z & E & _); [intros; apply derivable_pt_lim_sin|]. rewrite E, Rabs_mult. rewrite <- (Rmult_1_l (Rabs (y - x))) at 2.
    apply Rmult_le_compat_r; [apply Rabs_pos|]. apply Rabs_le. apply COS_bound. }
  intros x y. rewrite Rmult_1_l. destruct (Rtotal_order x y) as [L|[->|L]].
  - rewrite (Rabs_minus_sym (sin x)), (Rabs_minus_sym x). auto.
  - rewrite !Rminus_eq_0, Rabs_R0. lra.
  - apply A. auto.
Qed.

(** ** The whole workflow runs *)
Lemma workflow_runs : forall nq tq qrng p b N second skip f Zq resample cpus conf keep workers, consistent p -> p_dists p = None -> (0 < p_num_vars p)%nat -> length b = p_num_vars p -> proper b ->
  p_bounds p = pair_bounds b -> (0 <= skip)%Z -> length (qrng (Z.to_nat skip) N) = N -> Forall (fun x => length x = (2 * p_num_vars p)%nat) (qrng (Z.to_nat skip) N) ->
  (0 < N)%nat -> 0 < conf < 1 -> resample N <> [] -> (forall np, workers = Some np -> np <> Some 0%nat /\ (np = None -> (0 < cpus)%nat)) ->
  exists q X s, sobol_sample nq tq qrng p N second skip = (q, Ok (InPlace X)) /\ cols X = p_num_vars p /\ analyze Zq resample cpus q (map f (rows X)) second conf keep workers = Ok s.
Proof.
  intros nq tq qrng p b N second skip f Zq resample cpus conf keep workers HC Hd Hn HB HP Eb HS LQ FQ N0 HF HR HW.
  destruct (sobol_outputs nq tq qrng p b N second skip f HS ltac:(lia) (proj1 HC) Hd Hn HB HP Eb LQ FQ) as (m & E & EC & EO).
  assert (PB : proper_base (qrng (Z.to_nat skip) N) (seq 0 N) p).
  { intros i Hi. apply in_seq in Hi. destruct (nth_error (qrng (Z.to_nat skip) N) i) as [x|] eqn:E'; [|apply nth_error_None in E'; lia]. exists x. split; auto.
    rewrite Forall_forall in FQ. apply FQ. eapply nth_error_In; eauto. }
  destruct (cross_sample_layout 0 _ (seq 0 N) p second (proj1 HC) PB) as (rs & G & E1 & HG & HLen & _).
  rewrite seq_length in HLen. pose proof (consistent_groups p G HC HG) as EG.
  assert (LY : length (map f (rows m)) = (N * block_size G second)%nat) by (rewrite EO; unfold outputs; rewrite E1, map_length; auto).
  assert (BS : block_size G second <> 0%nat) by (unfold block_size; destruct second; lia).
  assert (G0 : (0 < G)%nat).
  { destruct HG as [(g & ns & Hg & Hf & ->)|(_ & ->)]; auto. destruct Hg as (_ & _ & x & _ & Hx & _). destruct Hf as (_ & Hf & _). apply Hf in Hx. destruct ns; [contradiction|simpl; lia]. }
  set (q := mkProblem (p_num_vars p) (p_names p) (p_bounds p) (p_groups p) (p_dists p) true) in *.
  assert (EQ : extract_group_names q = extract_group_names p) by reflexivity.
  destruct (analyze_total (mean (map f (rows m))) (sd (map f (rows m))) Zq resample cpus q (map f (rows m)) second conf keep workers) as (_ & _ & T).
  - rewrite EQ, EG. auto.
  - auto.
  - rewrite EQ, EG, LY in T. destruct T as (s & Hs); auto.
    + apply Nat.mod_mul. auto.
    + intros Z. rewrite Z in LY. simpl in LY. nia.
    + rewrite Nat.div_mul; auto.
    + exists q, m, s. split; auto.
Qed.

(** ** Problems without groups *)
Lemma ungrouped_select : forall p, ungrouped p -> forall k j, Nat.eqb k j = true <-> in_group p k j.
Proof.
  intros p U k j. rewrite Nat.eqb_eq. split; [intros ->; right; auto|]. intros [(g & ns & x & H & _)|(_ & ->)]; auto. elim (U g H).
Qed.
