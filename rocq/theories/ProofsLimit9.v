(** * The samples of finite_diff.sample with shrinking steps. *)
From Coq Require Import Reals String List Arith Bool Lia Lra Psatz.
From Verif Require Import Base Stats ModelGroups SpecFF SpecMorris SpecSobol ModelDgsm SpecDgsm ProofsDgsm ProofsDgsm2 ProofsDgsm3 SpecDgsm2 SpecIntegral ProofsIntegral SpecExpect ProofsExpect SpecLimit
  ProofsPoincare ProofsPoincare2 ProofsLimit ProofsLimit2 ProofsLimit3 ProofsLimit4 ProofsLimit5 ProofsLimit6 ProofsLimit7.
Import ListNotations.
Local Open Scope R_scope.

Lemma fills_phys : forall b pts, proper b -> fills (unit_box (length b)) pts -> fills b (fun n => map (phys b) (pts n)).
Proof.
  intros b pts P (H & C). split.
  - intros n. destruct (H n) as (NE & HI). split; [destruct (pts n); [congruence|discriminate]|]. apply Forall_map. revert HI. apply Forall_impl. intros x. apply phys_inside; auto.
  - intros h v Ch A. apply (Un_cv_ext (fun n => mean (map (fun x => h (phys b x)) (pts n)))); [intros n; rewrite map_map; auto|].
    apply C; [apply phys_continuous; auto|apply average_phys; auto].
Qed.

Lemma phys_length : forall b x, length x = length b -> length (phys b x) = length b.
Proof. intros b. induction b as [|i b IH]; intros [|a x] H; simpl in H; try lia; auto. rewrite phys_cons. simpl. f_equal. apply IH. lia. Qed.
Lemma phys_nth : forall b x j lo hi a, nth_error b j = Some (lo, hi) -> nth_error x j = Some a -> nth_error (phys b x) j = Some (lo + a * (hi - lo)).
Proof.
  intros b. induction b as [|i b IH]; intros x j lo hi a E1 E2; [destruct j; discriminate|]. destruct x as [|c x]; [destruct j; discriminate|]. rewrite phys_cons.
  destruct j as [|j]; cbn in *; [injection E1 as ->; injection E2 as ->; reflexivity|]. apply IH; auto.
Qed.
Lemma physical_phys : forall b a x, length a = length b -> physical (pair_bounds b) a x -> x = phys b a.
Proof.
  intros b a x L (L1 & H). apply nth_error_ext'. intros j. destruct (Nat.lt_ge_cases j (length b)) as [J|J].
  - destruct (nth_error b j) as [[lo hi]|] eqn:E; [|apply nth_error_None in E; lia]. destruct (nth_error a j) as [c|] eqn:E2; [|apply nth_error_None in E2; lia].
    rewrite (phys_nth b a j lo hi c) by auto. apply (H j c lo hi); auto. apply pair_bounds_nth. auto.
  - rewrite (proj2 (nth_error_None x j)) by lia. symmetry. apply nth_error_None. rewrite phys_length; lia.
Qed.
Lemma bounds_at : forall b j lo hi, nth_error b j = Some (lo, hi) -> lower (pair_bounds b) j = lo /\ upper (pair_bounds b) j = hi.
Proof. intros b j lo hi E. apply pair_bounds_nth in E. unfold lower, upper. rewrite (nth_error_nth _ _ [] E). auto. Qed.

Lemma inside_nth : forall b x, length x = length b -> (forall j, (j < length b)%nat -> lower (pair_bounds b) j <= nth j x 0 <= upper (pair_bounds b) j) -> inside b x.
Proof.
  intros b. induction b as [|[lo hi] b IH]; intros [|a x] L H; simpl in L; try lia; constructor.
  - specialize (H 0%nat ltac:(simpl; lia)). exact H.
  - apply IH; [lia|]. intros j J. apply (H (S j)). simpl. lia.
Qed.

Lemma map_some_inj : forall (a c : list (list R)), map (map Some) a = map (map Some) c -> a = c.
Proof.
  assert (Q : forall (a c : list R), map Some a = map Some c -> a = c).
  { induction a as [|x a IH]; intros [|y c] H; try discriminate; auto. injection H as -> H. f_equal. auto. }
  induction a as [|x a IH]; intros [|y c] H; try discriminate; auto. cbn in H. injection H as H1 H2. f_equal; auto.
Qed.

Lemma stepped_small : forall lo up delta j x r, lo <= nth j x 0 <= up -> 0 <= delta -> stepped lo up delta j x r -> Rabs (nth j r 0 - nth j x 0) <= Rabs (nth j x 0) * delta.
Proof.
  intros lo up delta j x r Hx Hd (_ & Hy & H1 & H2 & H3). set (a := nth j x 0) in *. set (y := nth j r 0) in *.
  replace (Rabs a * delta) with (Rabs (a * delta)) by (rewrite Rabs_mult, (Rabs_right delta); lra).
  destruct (Rle_dec (a + a * delta) up) as [U|U]; [|rewrite (H2 ltac:(lra)); rewrite !Rabs_right; lra].
  destruct (Rle_dec lo (a + a * delta)) as [L|L]; [rewrite (H1 ltac:(lra)); right; f_equal; ring|rewrite (H3 ltac:(lra)); rewrite !Rabs_left1; lra].
Qed.

Lemma box_magnitude : forall b, exists K, 0 < K /\ forall x, inside b x -> Forall (fun a => Rabs a <= K) x.
Proof.
  induction b as [|[lo hi] b (K & K0 & IH)].
  - exists 1. split; [lra|]. intros x Hx. inversion Hx. constructor.
  - exists (K + Rabs lo + Rabs hi). pose proof (Rabs_pos lo). pose proof (Rabs_pos hi). split; [lra|]. intros x Hx. inversion Hx as [|? a ? r Ha Hr]; subst. cbn in Ha. constructor.
    + assert (Rabs a <= Rmax (Rabs lo) (Rabs hi)). { pose proof (Rle_abs hi). pose proof (Rle_abs (- lo)). rewrite Rabs_Ropp in *. unfold Rmax. destruct (Rle_dec (Rabs lo) (Rabs hi)); apply Rabs_le; lra. }
      unfold Rmax in *. destruct (Rle_dec (Rabs lo) (Rabs hi)); lra.
    + specialize (IH r Hr). revert IH. apply Forall_impl. intros; lra.
Qed.

Lemma fd_sample_fills : forall nq tq sobol p b N skip delta base X q,
  plain_problem p -> p_bounds p = pair_bounds b -> p_num_vars p = length b -> proper b ->
  (forall n, sobol (N n + skip)%nat (length b) = Ok (base n) /\ length (base n) = (N n + skip)%nat /\ Forall (fun r => length r = length b /\ Forall (fun x => 0 <= x < 1) r) (base n)) ->
  Forall (fun i => 0 < fst i) b -> (forall n, 0 < delta n) -> Un_cv delta 0 -> fills (unit_box (length b)) (fun n => skipn skip (base n)) ->
  (forall n, fd_sample nq tq sobol p (N n) skip (delta n) = (q n, Ok (map (map Some) (X n)))) ->
  (forall n, difference_design (length b) (N n) (X n)) /\ (forall n, Forall (inside b) (X n)) /\ fills b (fun n => base_points (X n) (length b) (N n)) /\
  forall j, (j < length b)%nat -> steps_vanish X N (length b) j.
Proof.
  intros nq tq sobol p b N skip delta base X q PP EB EN HP HS HL HD HC HF HX.
  assert (SP : forall n, difference_design (length b) (N n) (X n)).
  { intros n. destruct (HS n) as (E1 & E2 & E3). destruct (fd_difference_design nq tq sobol p (N n) skip (delta n) (base n) PP) as (p' & X' & E & Q); auto.
    - rewrite EN. auto. - rewrite EN. auto.
    - intros j J. rewrite EN in J. destruct (nth_error b j) as [[lo hi]|] eqn:EJ; [|apply nth_error_None in EJ; lia]. rewrite EB. destruct (bounds_at b j lo hi EJ) as (-> & _).
      rewrite Forall_forall in HL. apply (HL (lo, hi)). eapply nth_error_In; eauto.
    - rewrite HX in E. injection E as _ E. apply map_some_inj in E. subst X'. rewrite EN in Q. auto. }
  assert (SQ : forall n i, (i < N n)%nat -> exists a x, nth_error (base n) (skip + i) = Some a /\ nth_error (X n) (i * (length b + 1)) = Some x /\ x = phys b a /\ length x = length b /\
      (forall j, (j < length b)%nat -> lower (p_bounds p) j <= nth j x 0 <= upper (p_bounds p) j) /\
      forall j, (j < length b)%nat -> exists r, nth_error (X n) (i * (length b + 1) + 1 + j) = Some r /\ stepped (lower (p_bounds p) j) (upper (p_bounds p) j) (delta n) j x r).
  { intros n i Hi. destruct (HS n) as (E1 & E2 & E3). rewrite <- EN in E1. destruct (fd_sample_spec nq tq sobol p (N n) skip (delta n) (base n) PP E1) as (p' & X' & E & LX & Q).
    { split; [auto|]. rewrite EN. eapply Forall_impl; [|exact E3]. intros r (L & F). split; auto. eapply Forall_impl; [|exact F]. intros; lra. }
    rewrite HX in E. injection E as _ E. apply map_some_inj in E. subst X'. destruct (Q i Hi) as (a & x & Ea & Ex & Ph & Lx & R1 & R2). rewrite EN in *. exists a, x. do 2 (split; [assumption|]).
    split; [|auto]. apply physical_phys; [|rewrite <- EB; auto]. rewrite Forall_forall in E3. apply (E3 a). eapply nth_error_In; eauto. }
  assert (BI : forall n i a, (i < N n)%nat -> nth_error (X n) (i * (length b + 1)) = Some a -> inside b a).
  { intros n i a Hi Ea. destruct (SQ n i Hi) as (c & x & _ & Ex & _ & Lx & R1 & _). rewrite Ex in Ea. injection Ea as <-. apply inside_nth; auto. rewrite <- EB. auto. }
  split; [exact SP|]. split; [|split].
  - intros n. apply Forall_forall. intros r Hr. apply In_nth_error in Hr. destruct Hr as (k & Hk).
    assert (KL : (k < N n * (length b + 1))%nat). { destruct (SP n) as (L & _). rewrite <- L. apply nth_error_Some. congruence. }
    set (i := (k / (length b + 1))%nat). set (o := (k mod (length b + 1))%nat).
    assert (K : k = (i * (length b + 1) + o)%nat) by (unfold i, o; rewrite (Nat.div_mod k (length b + 1)) at 1 by lia; lia).
    assert (OL : (o < length b + 1)%nat) by (apply Nat.mod_upper_bound; lia). assert (I : (i < N n)%nat) by (apply Nat.div_lt_upper_bound; lia).
    destruct o as [|o]; [rewrite Nat.add_0_r in K; rewrite K in Hk; apply (BI n i r); auto|].
    destruct (SQ n i I) as (a & x & _ & Ex & _ & Lx & R1 & R2). destruct (R2 o ltac:(lia)) as (r' & Er' & St). replace (i * (length b + 1) + 1 + o)%nat with k in Er' by lia.
    rewrite Hk in Er'. injection Er' as <-. destruct St as ((L & AG) & Hy & _). apply inside_nth; [lia|]. rewrite <- EB. intros j J.
    destruct (Nat.eq_dec j o) as [->|NE]; auto. specialize (AG j NE).
    replace (nth j r 0) with (nth j x 0); [apply R1; auto|].
    rewrite (nth_error_nth' x 0) in AG by lia. symmetry. apply nth_error_nth. auto.
  - assert (EP : forall n, base_points (X n) (length b) (N n) = map (phys b) (skipn skip (base n))).
    { intros n. unfold base_points. apply nth_error_ext'. intros k. rewrite !nth_error_map', nth_error_skipn. destruct (HS n) as (_ & L & _).
      destruct (Nat.lt_ge_cases k (N n)) as [K|K].
      - rewrite nth_error_seq, (proj2 (Nat.ltb_lt k (N n)) K). cbn [option_map]. rewrite Nat.add_0_l. destruct (SQ n k K) as (a & x & Ea & Ex & Ep & _). rewrite Ea. cbn. rewrite (nth_error_nth _ _ [] Ex), Ep. reflexivity.
      - rewrite (proj2 (nth_error_None (seq 0 (N n)) k)) by (rewrite seq_length; lia). rewrite (proj2 (nth_error_None (base n) (skip + k))) by lia. reflexivity. }
    destruct (fills_phys b _ HP HF) as (F1 & F2). split; [intros n; rewrite EP; auto|]. intros h v Ch A. apply (Un_cv_ext (fun n => mean (map h (map (phys b) (skipn skip (base n)))))); [intros n; rewrite EP; auto|]. auto.
  - intros j J eps He. destruct (box_magnitude b) as (K & K0 & HK). destruct (HC (eps / K)) as (n0 & H0); [apply Rdiv_lt_0_compat; auto|]. exists n0. intros n i Hn Hi.
    specialize (H0 n Hn). unfold R_dist in H0. rewrite Rminus_0_r, Rabs_right in H0 by (apply Rle_ge, Rlt_le; auto).
    destruct (SQ n i Hi) as (a & x & _ & Ex & _ & Lx & R1 & R2). destruct (R2 j J) as (r & Er & St). unfold step_of. rewrite (nth_error_nth _ _ [] Er), (nth_error_nth _ _ [] Ex).
    eapply Rle_trans; [apply (stepped_small _ _ _ _ _ _ (R1 j J) (Rlt_le _ _ (HD n)) St)|].
    assert (XK : Rabs (nth j x 0) <= K). { specialize (HK x (BI n i x Hi Ex)). rewrite Forall_forall in HK. apply HK. apply nth_In. lia. }
    apply Rle_trans with (K * delta n); [apply Rmult_le_compat_r; auto; left; auto|]. apply Rle_trans with (K * (eps / K)); [apply Rmult_le_compat_l; lra|]. right. field. lra.
Qed.
