(** * The coordinates of Morris samples in double precision are well separated. *)
From Coq Require Import Reals String List Arith ZArith Bool Lia Lra Psatz Permutation Sorted.
From Flocq Require Import Core.
From Verif Require Import Base Arrays ListFacts ModelGroups ModelScale Stats Sums SpecGroups SpecSobol SpecFF ModelMorris ModelMorrisAnalyze SpecMorris ModelDouble ModelDouble4 ModelSingle SpecSingle.
From Verif Require Import ProofsGroups ProofsMorris1 ProofsMorris2 ProofsDouble ProofsDouble2 ProofsDouble3 ProofsSingle3.
Import ListNotations.
Local Open Scope R_scope.

Definition level_value (levels : nat) (x : R) : Prop :=
  exists s, (s < levels / 2)%nat /\ (x = grid_value levels s \/ x = grid_value levels s + step levels).

Lemma sample_values : forall ls N levels draws X, (2 <= levels)%nat -> valid_draws ls levels draws -> sample_morris ls N levels draws = Ok X ->
  forall x, In x (concat X) -> level_value levels x.
Proof.
  intros ls N levels draws X L2 (G & HG & Hd) E x Hx. apply distinct_count_unique in HG.
  unfold sample_morris in E. destruct (compute_groups_matrix_total ls) as [m Hm]. rewrite Hm in E. cbn [bind fst snd] in E.
  destruct (mapM _ _) as [Ts|] eqn:EM in E; [|discriminate]. cbn [bind] in E. injection E as <-.
  apply in_concat in Hx. destruct Hx as (row & Hr & Hx). apply in_concat in Hr. destruct Hr as (Tr & Ht & Hr).
  assert (exists t, generate_trajectory m (length (pd_unique ls)) levels (draws t) = Ok Tr) as (t & Et).
  { clear - EM Ht. revert Ts EM Ht. induction (seq 0 N) as [|t l IH]; intros Ts' EM Ht; simpl in *; [injection EM as <-; destruct Ht|].
    destruct (generate_trajectory _ _ _ _) eqn:E1; [|discriminate]. cbn [bind] in EM. destruct (mapM _ l) as [r|] eqn:ER; [|discriminate]. cbn [bind] in EM. injection EM as <-.
    destruct Ht as [<-|Ht]; eauto. }
  destruct (Hd t) as [HP Hst]. rewrite HG in HP.
  destruct (generate_trajectory_eq ls m (pd_unique ls) levels (draws t) L2 Hm (conj HP Hst)) as (grp & Hg & E). rewrite E in Et. injection Et as <-.
  unfold tab in Hr. apply in_map_iff in Hr. destruct Hr as (i & <- & _). apply in_map_iff in Hx. destruct Hx as (j & <- & _).
  exists (t_start (draws t) j). split; [apply Hst|]. unfold traj_point. destruct (Bool.eqb _ _); [right; auto|left; lra].
Qed.

Section Gaps.
Variable levels : nat.
Hypothesis L2 : (2 <= levels)%nat.

Lemma grid_gap : forall s t, (s < levels / 2)%nat -> (t < levels / 2)%nat -> s <> t -> / (INR levels - 1) <= Rabs (grid_value levels s - grid_value levels t).
Proof.
  intros s t Hs Ht NE. unfold grid_value. destruct (Nat.eqb_spec (levels / 2) 1) as [|N1]; [lia|].
  assert (D : (2 * (levels / 2) <= levels)%nat) by (pose proof (Nat.div_mod levels 2 ltac:(lia)); lia).
  assert (H2 : (2 <= levels / 2)%nat) by lia. assert (4 <= levels)%nat by lia.
  assert (RD : 2 * INR (levels / 2) <= INR levels). { change 2 with (INR 2). rewrite <- mult_INR. apply le_INR. auto. }
  assert (RH : 2 <= INR (levels / 2)) by (change 2 with (INR 2); apply le_INR; auto).
  set (h := INR (levels / 2)) in *. set (L := INR levels) in *.
  assert (C : / (L - 1) <= (1 - step levels) / (h - 1)).
  { unfold step. fold L. replace (1 - L / (2 * (L - 1))) with ((L - 2) / 2 * / (L - 1)) by (field; lra). unfold Rdiv.
    assert (0 < / (L - 1)) by (apply Rinv_0_lt_compat; lra).
    apply (Rmult_le_reg_r (h - 1)); [lra|]. rewrite Rmult_assoc, Rinv_l by lra. nra. }
  rewrite <- Rmult_minus_distr_r, Rabs_mult.
  assert (P : 0 < / (L - 1)) by (apply Rinv_0_lt_compat; lra). rewrite (Rabs_pos_eq ((1 - step levels) / (h - 1))) by lra.
  assert (Q : 1 <= Rabs (INR s - INR t)). { rewrite !INR_IZR_INZ, <- minus_IZR, <- abs_IZR. apply IZR_le. lia. }
  set (c := (1 - step levels) / (h - 1)) in *. nra.
Qed.
Lemma level_gap : forall x y, level_value levels x -> level_value levels y -> x <> y -> / (INR levels - 1) <= Rabs (x - y).
Proof.
  assert (LR : 2 <= INR levels) by (change 2 with (INR 2); apply le_INR; auto).
  assert (ST : 2 * step levels - 1 = / (INR levels - 1)) by (unfold step; field; lra).
  assert (PI : 0 < / (INR levels - 1)) by (apply Rinv_0_lt_compat; lra).
  assert (W : forall s t, (s < levels / 2)%nat -> (t < levels / 2)%nat -> / (INR levels - 1) <= Rabs (grid_value levels s - (grid_value levels t + step levels))).
  { intros s t Hs Ht. pose proof (grid_range levels s L2 Hs). pose proof (grid_range levels t L2 Ht). rewrite Rabs_left1 by lra. lra. }
  intros x y (s & Hs & [->| ->]) (t & Ht & [->| ->]) NE.
  - apply grid_gap; auto; intros ->; apply NE; auto.
  - apply W; auto.
  - rewrite Rabs_minus_sym. apply W; auto.
  - replace (grid_value levels s + step levels - (grid_value levels t + step levels)) with (grid_value levels s - grid_value levels t) by ring. apply grid_gap; auto; intros ->; apply NE; auto.
Qed.
End Gaps.

Theorem sample_separated : forall ls N levels draws, (2 <= levels)%nat -> (Z.of_nat levels <= 2 ^ 48)%Z -> valid_draws ls levels draws ->
  exists X, sample_morris_fl ls N levels draws = Ok X /\ separated (bpow radix2 (-60)) X.
Proof.
  intros ls N levels draws L2 LU V. assert (LU' : (Z.of_nat levels <= 2 ^ 52)%Z) by lia.
  destruct (sample_fl levels L2 LU' ls N draws V) as (Ts & E & L & T & F & P).
  eexists. split; [exact F|]. rewrite <- concat_map. intros x y j a b Hx Hy Ha Hb.
  apply in_map_iff in Hx. destruct Hx as (x0 & <- & Hx). apply in_map_iff in Hy. destruct Hy as (y0 & <- & Hy).
  rewrite nth_error_map' in Ha, Hb. destruct (nth_error x0 j) as [u|] eqn:Eu; [|discriminate]. destruct (nth_error y0 j) as [v|] eqn:Ev; [|discriminate].
  injection Ha as <-. injection Hb as <-. apply nth_error_In in Eu. apply nth_error_In in Ev.
  assert (Iu : In u (concat (concat Ts))) by (apply in_concat; eauto). assert (Iv : In v (concat (concat Ts))) by (apply in_concat; eauto).
  destruct (Req_dec u v) as [->|NE]; [left; auto|right].
  pose proof (level_gap levels L2 u v (sample_values _ _ _ _ _ L2 V E u Iu) (sample_values _ _ _ _ _ L2 V E v Iv) NE) as G.
  destruct (P u Iu) as (_ & _ & Pu). destruct (P v Iv) as (_ & _ & Pv).
  assert (B : bpow radix2 (-48) <= / (INR levels - 1)).
  { change (-48)%Z with (- (48))%Z. rewrite bpow_opp. apply Rinv_le_contravar.
    - assert (2 <= INR levels) by (change 2 with (INR 2); apply le_INR; auto). lra.
    - rewrite INR_IZR_INZ. apply IZR_le in LU. change (bpow radix2 48) with (IZR (2 ^ 48)). lra. }
  assert (K : bpow radix2 (-60) + 2 * bpow radix2 (-51) <= bpow radix2 (-48)) by (simpl; lra).
  replace (phi levels u - phi levels v) with ((phi levels u - u) + ((u - v) - (phi levels v - v))) by ring.
  assert (T1 : Rabs (u - v) <= Rabs (phi levels u - u + (u - v - (phi levels v - v))) + Rabs (phi levels u - u) + Rabs (phi levels v - v)).
  { replace (u - v) with ((phi levels u - u + (u - v - (phi levels v - v))) + (- (phi levels u - u)) + (phi levels v - v)) at 1 by ring.
    eapply Rle_trans; [apply Rabs_triang|]. apply Rplus_le_compat_r. eapply Rle_trans; [apply Rabs_triang|]. rewrite Rabs_Ropp. lra. }
  lra.
Qed.

Lemma sample_shape : forall ls N levels draws G X, (2 <= levels)%nat -> (Z.of_nat levels <= 2 ^ 52)%Z -> valid_draws ls levels draws -> distinct_count ls G ->
  ls <> [] -> sample_morris_fl ls N levels draws = Ok X -> trajectories_of N (G + 1) (length ls) X.
Proof.
  intros ls N levels draws G X L2 LU V HG NE E. apply distinct_count_unique in HG.
  destruct (sample_fl levels L2 LU ls N draws V) as (Ts & _ & L & T & F & _). rewrite F in E. injection E as <-.
  assert (S : List.Forall (fun T => length T = (G + 1)%nat /\ List.Forall (fun r => length r = length ls) T) (map (map (map (phi levels))) Ts)).
  { rewrite List.Forall_forall in *. intros T0 H. apply in_map_iff in H. destruct H as (T1 & <- & H). destruct (T T1 H) as (order & O1 & O2 & O3 & O4 & _).
    rewrite map_length, O3. split.
    - f_equal. rewrite HG. apply distinct_count_unique. exists order. auto.
    - rewrite List.Forall_forall in *. intros r Hr. apply in_map_iff in Hr. destruct Hr as (r0 & <- & Hr). rewrite map_length. auto. }
  assert (L' : length (map (map (map (phi levels))) Ts) = N) by (rewrite map_length; auto).
  set (Us := map (map (map (phi levels))) Ts) in *. clearbody Us. clear - S L' NE. split; [|split; [|split]].
  - subst N. induction S as [|T Us (A & _) S IH]; [simpl; lia|]. cbn [concat length]. rewrite app_length, IH, A. nia.
  - rewrite List.Forall_forall in *. intros r Hr. apply in_concat in Hr. destruct Hr as (T & H1 & H2). destruct (S T H1) as (_ & Q). rewrite List.Forall_forall in Q. auto.
  - destruct ls; [congruence|simpl; lia].
  - lia.
Qed.

Theorem sample_near : forall a1 a2 a3 chunk ls N levels draws G k, arrangement a1 -> arrangement a2 -> arrangement a3 ->
  (2 <= levels)%nat -> (Z.of_nat levels <= 2 ^ 48)%Z -> valid_draws ls levels draws -> distinct_count ls G -> ls <> [] ->
  (1 <= k <= N)%nat -> (1 <= chunk)%nat -> (Z.of_nat (length ls + (G + 1) * (G + 1)) <= 2 ^ 20)%Z -> (k <= 10)%nat ->
  exists X c s, sample_morris_fl ls N levels draws = Ok X /\ brute_force_fl a1 a2 a3 chunk X G N k = Ok c /\ selection N k c /\
    is_spread (fun x => x) length_of X (G + 1) c s /\
    forall c' s', selection N k c' -> is_spread (fun x => x) length_of X (G + 1) c' s' -> s' <= (1 + bpow radix2 (-17)) * s.
Proof.
  intros a1 a2 a3 chunk ls N levels draws G k A1 A2 A3 L2 LU V HG NE Hk Hc HD K.
  destruct (sample_separated ls N levels draws L2 LU V) as (X & E & S).
  destruct (brute_force_fl_near a1 a2 a3 chunk X G N k (length ls) A1 A2 A3) as (c & s & Q); auto.
  - apply (sample_shape ls N levels draws); auto. lia.
  - exists X, c, s. tauto.
Qed.
