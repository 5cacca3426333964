(** * np.linspace and Morris trajectories in double precision. *)
From Coq Require Import Reals String List Arith ZArith Bool Lia Lra Psatz Permutation.
From Flocq Require Import Core Plus_error Relative Sterbenz.
From Verif Require Import Base Arrays ListFacts ModelGroups ModelMorris SpecMorris ProofsGroups ProofsMorris1 ModelDouble ProofsDouble.
Import ListNotations.
Local Open Scope R_scope.

Lemma u_small : bpow radix2 (-53) = / 9007199254740992.
Proof. reflexivity. Qed.

(** Multiples of the rounded step. *)
Lemma step_facts : forall d n k, 0 < d -> bpow radix2 (-900) <= d -> (1 <= n)%nat -> (Z.of_nat n <= 2 ^ 51)%Z -> (1 <= k)%nat ->
  exists e1 e2, Rabs e1 <= bpow radix2 (-53) /\ Rabs e2 <= bpow radix2 (-53) /\ 0 < fl (d / INR n) /\
    fl (INR k * fl (d / INR n)) = INR k * (d / INR n) * (1 + e1) * (1 + e2).
Proof.
  intros d n k D B N NB K. assert (N1 : 1 <= INR n) by (change 1 with (INR 1); apply le_INR; auto).
  assert (K1 : 1 <= INR k) by (change 1 with (INR 1); apply le_INR; auto).
  assert (NU : INR n <= bpow radix2 51) by (rewrite INR_IZR_INZ; change (bpow radix2 51) with (IZR (2 ^ 51)); apply IZR_le; auto).
  assert (Q : bpow radix2 (-951) <= d / INR n).
  { apply (Rmult_le_reg_r (INR n)); [lra|]. unfold Rdiv. rewrite Rmult_assoc, Rinv_l, Rmult_1_r by lra.
    eapply Rle_trans; [|exact B]. replace (bpow radix2 (-900)) with (bpow radix2 (-951) * bpow radix2 51) by (rewrite <- bpow_plus; reflexivity).
    apply Rmult_le_compat_l; auto. apply bpow_ge_0. }
  pose proof (bpow_gt_0 radix2 (-951)) as P1.
  destruct (fl_rel (d / INR n)) as (e1 & E1 & F1).
  { rewrite Rabs_pos_eq by lra. eapply Rle_trans; [|exact Q]. apply bpow_le. lia. }
  assert (P : bpow radix2 (-951) <= fl (d / INR n)) by (apply fl_ge; auto; apply generic_format_FLT_bpow; [reflexivity|lia]).
  destruct (fl_rel (INR k * fl (d / INR n))) as (e2 & E2 & F2).
  { rewrite Rabs_pos_eq by (apply Rmult_le_pos; lra). apply Rle_trans with (bpow radix2 (-951)); [apply bpow_le; lia|].
    rewrite <- (Rmult_1_l (bpow radix2 (-951))). apply Rmult_le_compat; lra. }
  exists e1, e2. split; auto. split; auto. split; [lra|]. rewrite F2, F1. ring.
Qed.

Lemma step_below : forall d n k, 0 < d -> bpow radix2 (-900) <= d -> (Z.of_nat n <= 2 ^ 51)%Z -> (k < n)%nat -> 0 <= fl (INR k * fl (d / INR n)) <= d.
Proof.
  intros d n k D B NB K. destruct k as [|k].
  { simpl. rewrite Rmult_0_l, (fl_double 0 double_0). lra. }
  destruct (step_facts d n (S k) D B ltac:(lia) NB ltac:(lia)) as (e1 & e2 & E1 & E2 & P & F).
  split. { apply fl_pos, Rmult_le_pos; [apply pos_INR|lra]. }
  rewrite F. rewrite u_small in *. apply Rabs_le_inv in E1, E2.
  assert (N2 : INR (S k) <= INR n - 1) by (replace (INR n - 1) with (INR (n - 1)) by (rewrite minus_INR by lia; simpl; lra); apply le_INR; lia).
  pose proof (pos_INR k) as PK. rewrite S_INR in *.
  assert (NU : INR n <= 2251799813685248) by (rewrite INR_IZR_INZ; apply (IZR_le _ 2251799813685248); exact NB).
  set (u := / 9007199254740992) in *.
  assert (U : u = / 9007199254740992) by reflexivity.
  assert (A1 : (1 + e1) * (1 + e2) <= (1 + u) * (1 + u)) by (apply Rmult_le_compat; lra).
  assert (A2 : (INR k + 1) / INR n <= 1 - / INR n).
  { apply (Rmult_le_reg_r (INR n)); [lra|]. unfold Rdiv. rewrite Rmult_assoc, Rinv_l by lra. rewrite Rmult_minus_distr_r, Rinv_l by lra. lra. }
  assert (A3 : / 2251799813685248 <= / INR n) by (apply Rinv_le; lra).
  replace ((INR k + 1) * (d / INR n) * (1 + e1) * (1 + e2)) with (d * (((INR k + 1) / INR n) * ((1 + e1) * (1 + e2)))) by (field; lra).
  rewrite <- (Rmult_1_r d) at 2. apply Rmult_le_compat_l; [lra|].
  apply Rle_trans with ((1 - / 2251799813685248) * ((1 + u) * (1 + u))).
  - apply Rmult_le_compat; [apply Rmult_le_pos; [lra|left; apply Rinv_0_lt_compat; lra]|apply Rmult_le_pos; lra|lra|exact A1].
  - rewrite U. lra.
Qed.

(** How far multiples of the rounded step are from the exact ones. *)
Lemma step_close : forall d n k, 0 < d -> bpow radix2 (-900) <= d -> (Z.of_nat n <= 2 ^ 51)%Z -> (k < n)%nat ->
  Rabs (fl (INR k * fl (d / INR n)) - INR k * (d / INR n)) <= d * (9 / 4 * bpow radix2 (-53)).
Proof.
  intros d n k D B NB K. destruct k as [|k].
  { simpl INR. rewrite !Rmult_0_l, (fl_double 0 double_0), Rminus_0_r, Rabs_R0. apply Rmult_le_pos; [lra|]. pose proof (bpow_gt_0 radix2 (-53)). lra. }
  destruct (step_facts d n (S k) D B ltac:(lia) NB ltac:(lia)) as (e1 & e2 & E1 & E2 & P & F). rewrite F.
  set (x := INR (S k) * (d / INR n)). replace (x * (1 + e1) * (1 + e2) - x) with (x * (e1 + e2 + e1 * e2)) by ring.
  assert (N0 : 0 < INR n) by (apply lt_0_INR; lia).
  assert (X0 : 0 <= x) by (apply Rmult_le_pos; [apply pos_INR|apply Rmult_le_pos; [lra|left; apply Rinv_0_lt_compat; auto]]).
  assert (XD : x <= d).
  { unfold x. replace (INR (S k) * (d / INR n)) with (d * (INR (S k) / INR n)) by (field; lra). rewrite <- (Rmult_1_r d) at 2. apply Rmult_le_compat_l; [lra|].
    apply (Rmult_le_reg_r (INR n)); auto. unfold Rdiv. rewrite Rmult_assoc, Rinv_l, Rmult_1_l, Rmult_1_r by lra. apply le_INR. lia. }
  rewrite Rabs_mult, (Rabs_pos_eq x) by auto. apply Rmult_le_compat; auto; [apply Rabs_pos|].
  eapply Rle_trans; [apply Rabs_triang|]. rewrite Rabs_mult. eapply Rle_trans; [apply Rplus_le_compat_r, Rabs_triang|].
  pose proof (Rabs_pos e1). pose proof (Rabs_pos e2).
  assert (Rabs e1 * Rabs e2 <= bpow radix2 (-53) * bpow radix2 (-53)) by (apply Rmult_le_compat; auto).
  rewrite u_small in *. lra.
Qed.

(** ** The step and the grid *)
Lemma fl_unit : forall x, / 2 <= x <= 1 -> Rabs (fl x - x) <= bpow radix2 (-54).
Proof.
  intros x (A & B). destruct (Req_dec x 1) as [->|NE]. { rewrite (fl_double 1 double_1), Rminus_diag_eq, Rabs_R0 by auto. apply bpow_ge_0. }
  eapply Rle_trans; [apply error_le_half_ulp; auto with typeclass_instances|].
  rewrite ulp_neq_0 by lra. unfold cexp. rewrite (mag_unique radix2 x 0).
  - change (FLT_exp (-1074) 53 0) with (-53)%Z. rewrite u_small. change (bpow radix2 (-54)) with (/ 18014398509481984). lra.
  - rewrite Rabs_pos_eq by lra. change (bpow radix2 (0 - 1)) with (/ 2). simpl. lra.
Qed.

Section Step.
Variable levels : nat.
Hypothesis L2 : (2 <= levels)%nat.
Hypothesis LU : (Z.of_nat levels <= 2 ^ 52)%Z.

Lemma levels_real : 2 <= INR levels <= bpow radix2 52.
Proof.
  split; [change 2 with (INR 2); apply le_INR; auto|]. rewrite INR_IZR_INZ. change (bpow radix2 52) with (IZR (2 ^ 52)). apply IZR_le; auto.
Qed.

Lemma delta_is : delta_fl levels = fl (step levels).
Proof.
  unfold delta_fl, step. do 2 f_equal. apply fl_double.
  replace (2 * (INR levels - 1)) with (IZR (2 * (Z.of_nat levels - 1))) by (rewrite mult_IZR, minus_IZR, <- INR_IZR_INZ; reflexivity).
  apply double_Z. change (2 ^ 53)%Z with (2 * 2 ^ 52)%Z. lia.
Qed.

Lemma step_half : / 2 <= step levels <= 1.
Proof.
  destruct levels_real as (A & B). split; [|apply levels_facts; auto]. unfold step.
  apply (Rmult_le_reg_r (2 * (INR levels - 1))); [lra|]. unfold Rdiv. rewrite Rmult_assoc, Rinv_l by lra. lra.
Qed.

Lemma delta_range : / 2 <= delta_fl levels <= 1.
Proof.
  pose proof step_half. rewrite delta_is. split; [|apply fl_le; [apply double_1|lra]].
  apply fl_ge; [|lra]. change (/ 2) with (bpow radix2 (-1)). apply generic_format_FLT_bpow; [reflexivity|lia].
Qed.
Lemma delta_close : Rabs (delta_fl levels - step levels) <= bpow radix2 (-54).
Proof. rewrite delta_is. apply fl_unit, step_half. Qed.
Lemma delta_double : double (delta_fl levels).
Proof. apply double_fl. Qed.

Lemma rest_double : double (1 - delta_fl levels).
Proof. pose proof delta_range. apply sterbenz; auto with typeclass_instances; [apply double_1|apply delta_double|lra]. Qed.
Lemma rest_pos : delta_fl levels <> 1 -> bpow radix2 (-53) <= 1 - delta_fl levels.
Proof. intros N. pose proof (double_below_one (delta_fl levels) delta_double ltac:(pose proof delta_range; lra)). lra. Qed.

(** The grid. *)
Definition gridfl (s : nat) : R := nth s (linspace_fl 0 (1 - delta_fl levels) (levels / 2)) 0.

Lemma half_bounds : (1 <= levels / 2)%nat /\ (Z.of_nat (levels / 2) <= 2 ^ 51)%Z.
Proof.
  split. { apply Nat.div_le_lower_bound; lia. }
  assert (2 * (levels / 2) <= levels)%nat by (apply Nat.mul_div_le; lia). change (2 ^ 52)%Z with (2 * 2 ^ 51)%Z in LU. lia.
Qed.

Lemma gridfl_get : forall s, (s < levels / 2)%nat -> get (linspace_fl 0 (1 - delta_fl levels) (levels / 2)) s = Ok (gridfl s).
Proof.
  intros s H. unfold get, gridfl. destruct (nth_error _ s) as [x|] eqn:E; [rewrite (nth_error_nth _ _ 0 E); auto|].
  apply nth_error_None in E. unfold linspace_fl in E. rewrite map_length, seq_length in E. lia.
Qed.

Lemma gridfl_eq : forall s, (s < levels / 2)%nat -> gridfl s =
  if (levels / 2 =? 1)%nat then 0 else if (s =? levels / 2 - 1)%nat then 1 - delta_fl levels
  else if Req_EM_T (1 - delta_fl levels) 0 then 0 else fl (INR s * fl ((1 - delta_fl levels) / INR (levels / 2 - 1))).
Proof.
  intros s H. destruct half_bounds as (H1 & H2). unfold gridfl, linspace_fl. set (n := (levels / 2)%nat) in *. set (r := 1 - delta_fl levels).
  pose proof (proj2 (Nat.ltb_lt s n) H) as HB.
  erewrite nth_error_nth by (rewrite nth_error_map', nth_error_seq, HB; reflexivity). simpl (0 + s)%nat.
  assert (DR : fl (r - 0) = r) by (rewrite Rminus_0_r; apply fl_double, rest_double). rewrite DR.
  destruct (Nat.eqb_spec n 1) as [N1|N1].
  - rewrite N1. simpl. assert (s = 0%nat) by lia. subst s. simpl. rewrite Rmult_0_l, Rplus_0_r, (fl_double 0 double_0). apply fl_double, double_0.
  - replace (1 <? n)%nat with true by (symmetry; apply Nat.ltb_lt; lia). simpl andb. destruct (s =? n - 1)%nat; auto.
    rewrite !Rplus_0_r, !(fl_double (fl _)) by apply double_fl.
    destruct (Req_EM_T r 0) as [R0|R0].
    + rewrite R0. unfold Rdiv at 1. rewrite Rmult_0_l, (fl_double 0 double_0), Rmult_0_r. rewrite Req_bool_true by auto. apply fl_double, double_0.
    + assert (RP : bpow radix2 (-53) <= r) by (apply rest_pos; unfold r in R0; lra).
      pose proof (bpow_gt_0 radix2 (-53)).
      destruct (step_facts r (n - 1) 1) as (e1 & e2 & _ & _ & P & _); try lia; try lra.
      { eapply Rle_trans; [apply bpow_le|exact RP]. lia. }
      rewrite Req_bool_false by lra. reflexivity.
Qed.

Lemma gridfl_range : forall s, (s < levels / 2)%nat -> 0 <= gridfl s <= 1 - delta_fl levels.
Proof.
  intros s H. pose proof delta_range. destruct half_bounds as (H1 & H2). rewrite gridfl_eq by auto.
  destruct (Nat.eqb_spec (levels / 2) 1); [lra|]. destruct (Nat.eqb_spec s (levels / 2 - 1)); [lra|].
  destruct (Req_EM_T (1 - delta_fl levels) 0); [lra|].
  assert (RP : bpow radix2 (-53) <= 1 - delta_fl levels) by (apply rest_pos; lra). pose proof (bpow_gt_0 radix2 (-53)).
  apply step_below; try lia; [lra|]. eapply Rle_trans; [apply bpow_le|exact RP]. lia.
Qed.

Lemma gridfl_double : forall s, (s < levels / 2)%nat -> double (gridfl s).
Proof.
  intros s H. rewrite gridfl_eq by auto. destruct (_ =? _)%nat; [apply double_0|]. destruct (_ =? _)%nat; [apply rest_double|].
  destruct (Req_EM_T _ _); [apply double_0|apply double_fl].
Qed.

Lemma gridfl_close : forall s, (s < levels / 2)%nat -> Rabs (gridfl s - grid_value levels s) <= 7 / 2 * bpow radix2 (-54).
Proof.
  intros s H. pose proof delta_range as DR. pose proof step_half as SH. pose proof delta_close as DC. destruct half_bounds as (H1 & H2). rewrite gridfl_eq by auto. unfold grid_value.
  pose proof (bpow_gt_0 radix2 (-54)) as B54. assert (E53 : bpow radix2 (-53) = 2 * bpow radix2 (-54)) by (rewrite u_small; change (bpow radix2 (-54)) with (/ 18014398509481984); lra).
  destruct (Nat.eqb_spec (levels / 2) 1) as [|N1]. { rewrite Rminus_0_r, Rabs_R0. lra. }
  assert (NN : 0 < INR (levels / 2) - 1).
  { assert (2 <= INR (levels / 2)) by (change 2 with (INR 2); apply le_INR; lia). lra. }
  assert (EN : INR (levels / 2 - 1) = INR (levels / 2) - 1) by (rewrite minus_INR by lia; simpl; lra).
  apply Rabs_le_inv in DC.
  destruct (Nat.eqb_spec s (levels / 2 - 1)) as [->|NE].
  { rewrite EN. replace ((INR (levels / 2) - 1) * ((1 - step levels) / (INR (levels / 2) - 1))) with (1 - step levels) by (field; lra). apply Rabs_le. lra. }
  assert (F0 : 0 <= INR s / INR (levels / 2 - 1) <= 1).
  { rewrite EN. split; [apply Rmult_le_pos; [apply pos_INR|left; apply Rinv_0_lt_compat; auto]|]. apply (Rmult_le_reg_r (INR (levels / 2) - 1)); auto.
    unfold Rdiv. rewrite Rmult_assoc, Rinv_l, Rmult_1_l, Rmult_1_r by lra. rewrite <- EN. apply le_INR. lia. }
  replace (INR s * ((1 - step levels) / (INR (levels / 2) - 1))) with (INR s / INR (levels / 2 - 1) * (1 - step levels)) by (rewrite EN; field; lra).
  set (t := INR s / INR (levels / 2 - 1)) in *.
  assert (Q : Rabs (t * (1 - delta_fl levels) - t * (1 - step levels)) <= bpow radix2 (-54)).
  { rewrite <- Rmult_minus_distr_l, Rabs_mult, (Rabs_pos_eq t) by lra. rewrite <- (Rmult_1_l (bpow radix2 (-54))). apply Rmult_le_compat; try lra; [apply Rabs_pos|]. apply Rabs_le. lra. }
  destruct (Req_EM_T (1 - delta_fl levels) 0) as [Z|Z].
  { rewrite Z, Rmult_0_r in Q. lra. }
  assert (RP : bpow radix2 (-53) <= 1 - delta_fl levels) by (apply rest_pos; lra).
  pose proof (step_close (1 - delta_fl levels) (levels / 2 - 1) s ltac:(pose proof (bpow_gt_0 radix2 (-53)); lra)) as C.
  assert (C' : bpow radix2 (-900) <= 1 - delta_fl levels) by (eapply Rle_trans; [apply bpow_le|exact RP]; lia).
  specialize (C C' ltac:(lia) ltac:(lia)).
  replace (INR s * ((1 - delta_fl levels) / INR (levels / 2 - 1))) with (t * (1 - delta_fl levels)) in C by (unfold t; field; lra).
  replace (fl _ - _) with ((fl (INR s * fl ((1 - delta_fl levels) / INR (levels / 2 - 1))) - t * (1 - delta_fl levels)) + (t * (1 - delta_fl levels) - t * (1 - step levels))) by ring.
  eapply Rle_trans; [apply Rabs_triang|].
  assert ((1 - delta_fl levels) * (9 / 4 * bpow radix2 (-53)) <= / 2 * (9 / 4 * bpow radix2 (-53))) by (apply Rmult_le_compat_r; lra).
  lra.
Qed.

(** ** Trajectories *)
Definition pointfl (d : draw) (grp : nat -> nat) (i j : nat) : R :=
  fl (gridfl (t_start d j) + if Bool.eqb (nth (grp j) (t_perm d) 0%nat <? i)%nat (t_up d j) then delta_fl levels else 0).

Lemma b_star_fl_entry : forall ls m names d (xs : nat -> R) i j k,
  compute_groups_matrix ls = Ok (m, names) -> Permutation (t_perm d) (seq 0 (length names)) ->
  (j < length ls)%nat -> (i < length names + 1)%nat -> grp_is ls j k -> (k < length names)%nat -> double (xs j) ->
  compute_b_star_fl (length names) (length m) (fun _ _ => 1%R) xs (delta_fl levels)
    (fun i j => if (j <? i)%nat then 1%R else 0%R)
    (fun i j => INR (nth j (nth i m []) 0%nat))
    (fun i j => if (nth i (t_perm d) 0 =? j)%nat then 1%R else 0%R)
    (fun i j => if (i =? j)%nat then (if t_up d i then 1 else -1)%R else 0%R) i j
  = fl (xs j + if Bool.eqb (nth k (t_perm d) 0%nat <? i)%nat (t_up d j) then delta_fl levels else 0).
Proof.
  intros ls m names d xs i j k H HP Hj Hi Hk Hkl Dx.
  pose proof (b_star_entry ls m names (t_perm d) (t_up d) (fun _ => 0) 2 i j k H HP Hj Hi Hk Hkl) as Q.
  unfold compute_b_star in Q. unfold compute_b_star_fl. set (el := mmul (length m) _ _) in *.
  assert (E : el i j + 1 = if Bool.eqb (nth k (t_perm d) 0 <? i)%nat (t_up d j) then 2 else 0) by lra.
  rewrite E, Rmult_1_l, (fl_double (xs j)) by auto.
  pose proof delta_range. assert (HD : fl (delta_fl levels / 2) = delta_fl levels / 2).
  { apply fl_double, double_half; [apply delta_double|]. rewrite Rabs_pos_eq by lra. apply Rle_trans with (/ 2); [|lra]. change (/ 2) with (bpow radix2 (-1)). apply bpow_le. lia. }
  rewrite HD. do 2 f_equal. destruct (Bool.eqb _ _).
  - replace (delta_fl levels / 2 * 2) with (delta_fl levels) by field. apply fl_double, delta_double.
  - rewrite Rmult_0_r. apply fl_double, double_0.
Qed.

Lemma pointfl_range : forall d grp i j, (t_start d j < levels / 2)%nat -> 0 <= pointfl d grp i j <= 1.
Proof.
  intros d grp i j H. pose proof (gridfl_range _ H). pose proof delta_range. unfold pointfl.
  assert (0 <= gridfl (t_start d j) + (if Bool.eqb (nth (grp j) (t_perm d) 0 <? i)%nat (t_up d j) then delta_fl levels else 0) <= 1) by (destruct (Bool.eqb _ _); lra).
  split; [apply fl_pos; lra|apply fl_le; [apply double_1|lra]].
Qed.

Lemma fl_unit_sum : forall x y, double x -> double y -> / 2 <= x + y <= 1 -> Rabs (fl (x + y) - (x + y)) <= bpow radix2 (-54).
Proof. intros. apply fl_unit. auto. Qed.

Lemma pointfl_close : forall d grp i j, (t_start d j < levels / 2)%nat -> Rabs (pointfl d grp i j - traj_point levels (t_perm d) d grp i j) <= bpow radix2 (-51).
Proof.
  intros d grp i j H. pose proof (gridfl_range _ H). pose proof delta_range. unfold pointfl, traj_point. pose proof (gridfl_close _ H) as G. pose proof delta_close as DC.
  pose proof (bpow_gt_0 radix2 (-54)). assert (E51 : bpow radix2 (-51) = 8 * bpow radix2 (-54)) by (change (bpow radix2 (-51)) with (/ 2251799813685248); change (bpow radix2 (-54)) with (/ 18014398509481984); lra).
  destruct (Bool.eqb _ _).
  - pose proof (fl_unit (gridfl (t_start d j) + delta_fl levels) ltac:(lra)) as F. apply Rabs_le_inv in G, DC, F. apply Rabs_le. lra.
  - rewrite !Rplus_0_r, fl_double by (apply gridfl_double; auto). lra.
Qed.
End Step.
