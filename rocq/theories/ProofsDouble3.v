(** * Morris samples in double precision. *)
From Coq Require Import Reals String List Arith ZArith Bool Lia Lra Psatz Permutation.
From Flocq Require Import Core Plus_error Relative Sterbenz.
From Verif Require Import Base Arrays ListFacts ModelGroups ModelMorris SpecMorris ProofsGroups ProofsMorris1 ProofsMorris2 ModelDouble ProofsDouble ProofsDouble2.
Import ListNotations.
Local Open Scope R_scope.

Section Levels.
Variable levels : nat.
Hypothesis L2 : (2 <= levels)%nat.
Hypothesis LU : (Z.of_nat levels <= 2 ^ 52)%Z.

Lemma generate_trajectory_fl_eq : forall ls m names d grp,
  compute_groups_matrix ls = Ok (m, names) -> valid_draw (length names) (levels / 2) d ->
  (forall j, (j < length ls)%nat -> grp_is ls j (grp j) /\ (grp j < length names)%nat) ->
  generate_trajectory_fl m (length names) levels d = Ok (tab (length names + 1) (length ls) (pointfl levels d grp)).
Proof.
  intros ls m names d grp H [HP Hst] Hgrp.
  destruct (compute_groups_matrix_entries _ _ _ H) as (Hnm & Hlm & _).
  unfold generate_trajectory_fl. destruct (Nat.eqb_spec levels 1); [lia|].
  destruct (levels_facts _ L2) as (Hz & _ & _). apply Nat.eqb_neq in Hz. rewrite Hz. cbn [andb].
  rewrite (fl_double (1 - delta_fl levels)) by (apply rest_double; auto).
  rewrite (@mapM_ext nat R _ (fun j => Ok (gridfl levels (t_start d j)))).
  2: { intros j _. apply gridfl_get; auto. }
  rewrite mapM_Ok_map. cbn [bind]. f_equal. rewrite Hlm. apply tab_ext. intros i j Hi Hj.
  destruct (Hgrp j Hj) as [Hg Hgl]. assert (Hlm' : length ls = length m) by auto. rewrite Hlm'.
  assert (EX : nth j (map (fun j => gridfl levels (t_start d j)) (seq 0 (length m))) 0 = gridfl levels (t_start d j)).
  { apply nth_error_nth. rewrite nth_error_map', nth_error_seq.
    assert (Hjb : (j <? length m)%nat = true) by (apply Nat.ltb_lt; lia). rewrite Hjb. reflexivity. }
  rewrite (b_star_fl_entry levels L2 LU ls m names d _ i j (grp j) H HP Hj Hi Hg Hgl).
  - unfold pointfl. rewrite EX. reflexivity.
  - rewrite EX. apply gridfl_double; auto.
Qed.

(** ** The map from levels to doubles *)
Definition phi (x : R) : R :=
  match find (fun s => Req_bool (grid_value levels s) x) (seq 0 (levels / 2)) with
  | Some s => gridfl levels s
  | None => match find (fun s => Req_bool (grid_value levels s + step levels) x) (seq 0 (levels / 2)) with
            | Some s => fl (gridfl levels s + delta_fl levels)
            | None => x end
  end.

Lemma grid_inj : forall s t, (s < levels / 2)%nat -> (t < levels / 2)%nat -> grid_value levels s = grid_value levels t -> s = t.
Proof.
  intros s t Hs Ht E. unfold grid_value in E. destruct (Nat.eqb_spec (levels / 2) 1) as [|N1]; [lia|].
  assert (4 <= levels)%nat.
  { destruct (Nat.lt_ge_cases levels 4); auto. exfalso. assert (levels / 2 < 2)%nat by (apply Nat.div_lt_upper_bound; lia). lia. }
  assert (L4 : 4 <= INR levels) by (replace 4 with (INR 4) by (simpl; lra); apply le_INR; auto).
  assert (ST : step levels < 1).
  { unfold step. apply (Rmult_lt_reg_r (2 * (INR levels - 1))); [lra|]. unfold Rdiv. rewrite Rmult_assoc, Rinv_l by lra. lra. }
  assert (2 <= INR (levels / 2)) by (change 2 with (INR 2); apply le_INR; lia).
  assert (0 < (1 - step levels) / (INR (levels / 2) - 1)) by (apply Rdiv_lt_0_compat; lra).
  apply Rmult_eq_reg_r in E; [|lra]. apply INR_eq in E. auto.
Qed.

Lemma step_above_half : / 2 < step levels.
Proof.
  pose proof (levels_real levels L2 LU). unfold step. apply (Rmult_lt_reg_r (2 * (INR levels - 1))); [lra|]. unfold Rdiv. rewrite Rmult_assoc, Rinv_l by lra. lra.
Qed.

Lemma phi_low : forall s, (s < levels / 2)%nat -> phi (grid_value levels s) = gridfl levels s.
Proof.
  intros s H. unfold phi. destruct (find _ _) as [t|] eqn:F.
  - apply find_some in F. destruct F as (I & E). apply in_seq in I. destruct (Req_bool_spec (grid_value levels t) (grid_value levels s)) as [E'|]; [|discriminate].
    f_equal. apply grid_inj; auto. lia.
  - exfalso. assert (I : In s (seq 0 (levels / 2))) by (apply in_seq; lia). pose proof (find_none _ _ F s I) as Q. cbv beta in Q. rewrite Req_bool_true in Q by auto. discriminate.
Qed.

Lemma phi_high : forall s, (s < levels / 2)%nat -> phi (grid_value levels s + step levels) = fl (gridfl levels s + delta_fl levels).
Proof.
  intros s H. unfold phi. pose proof step_above_half as SA. pose proof (grid_range levels s L2 H) as GS. destruct (find _ _) as [t|] eqn:F.
  - exfalso. apply find_some in F. destruct F as (I & E). apply in_seq in I. destruct (Req_bool_spec (grid_value levels t) (grid_value levels s + step levels)) as [E'|]; [|discriminate].
    pose proof (grid_range levels t L2 ltac:(lia)). lra.
  - clear F. destruct (find _ _) as [t|] eqn:F.
    + apply find_some in F. destruct F as (I & E). apply in_seq in I.
      destruct (Req_bool_spec (grid_value levels t + step levels) (grid_value levels s + step levels)) as [E'|]; [|discriminate].
      do 3 f_equal. apply grid_inj; auto; [lia|lra].
    + exfalso. assert (I : In s (seq 0 (levels / 2))) by (apply in_seq; lia). pose proof (find_none _ _ F s I) as Q. cbv beta in Q. rewrite Req_bool_true in Q by auto. discriminate.
Qed.

Lemma phi_point : forall d grp i j, (t_start d j < levels / 2)%nat -> phi (traj_point levels (t_perm d) d grp i j) = pointfl levels d grp i j.
Proof.
  intros d grp i j H. unfold traj_point, pointfl. destruct (Bool.eqb _ _).
  - apply phi_high; auto.
  - rewrite !Rplus_0_r, fl_double by (apply gridfl_double; auto). apply phi_low; auto.
Qed.

Lemma map_tab : forall (A B : Type) (f : A -> B) n k (c : nat -> nat -> A), map (map f) (tab n k c) = tab n k (fun i j => f (c i j)).
Proof. intros. unfold tab. rewrite map_map. apply map_ext. intros i. rewrite map_map. reflexivity. Qed.

Lemma sample_fl : forall ls N draws, valid_draws ls levels draws ->
  exists Ts, sample_morris ls N levels draws = Ok (concat Ts) /\ length Ts = N /\ Forall (trajectory ls (fun _ => step levels)) Ts /\
    sample_morris_fl ls N levels draws = Ok (concat (map (map (map phi)) Ts)) /\
    forall x, In x (concat (concat Ts)) -> double (phi x) /\ 0 <= phi x <= 1 /\ Rabs (phi x - x) <= bpow radix2 (-51).
Proof.
  intros ls N draws V. destruct (sample_morris_ok ls N levels draws L2 V) as (Ts & E & L & T & _). exists Ts. split; auto. split; auto. split; auto.
  destruct V as (G & HG & Hd). apply distinct_count_unique in HG.
  unfold sample_morris, sample_morris_fl in *. destruct (compute_groups_matrix_total ls) as [m Hm]. rewrite Hm in *. cbn [bind fst snd] in *.
  destruct (mapM _ _) as [Ts'|] eqn:EM in E; [|discriminate]. cbn [bind] in E.
  assert (EC : concat Ts' = concat Ts) by congruence. clear E.
  assert (HT : forall t, exists grp, generate_trajectory m (length (pd_unique ls)) levels (draws t) = Ok (tab (length (pd_unique ls) + 1) (length ls) (traj_point levels (t_perm (draws t)) (draws t) grp)) /\
     generate_trajectory_fl m (length (pd_unique ls)) levels (draws t) = Ok (map (map phi) (tab (length (pd_unique ls) + 1) (length ls) (traj_point levels (t_perm (draws t)) (draws t) grp)))).
  { intros t. destruct (Hd t) as [HP Hst]. rewrite HG in HP.
    destruct (generate_trajectory_eq ls m (pd_unique ls) levels (draws t) L2 Hm (conj HP Hst)) as (grp & Hg & E). exists grp. split; auto.
    rewrite (generate_trajectory_fl_eq ls m (pd_unique ls) (draws t) grp Hm (conj HP Hst) Hg). f_equal.
    rewrite map_tab. apply tab_ext. intros i j _ _. symmetry. apply phi_point; auto. }
  assert (EF : mapM (fun t => generate_trajectory_fl m (length (pd_unique ls)) levels (draws t)) (seq 0 N) = Ok (map (map (map phi)) Ts')).
  { clear EC. revert Ts' EM. induction (seq 0 N) as [|t l IH]; intros Ts' EM; simpl in *; [injection EM as <-; auto|].
    destruct (HT t) as (grp & E1 & E2). rewrite E1 in EM. rewrite E2. cbn [bind] in *. destruct (mapM _ l) as [r|] eqn:ER in EM; [|discriminate]. cbn [bind] in EM. injection EM as <-.
    rewrite (IH r ER). reflexivity. }
  rewrite EF. cbn [bind]. split.
  - f_equal. rewrite <- !concat_map, EC. reflexivity.
  - intros x Hx. rewrite <- EC in Hx. apply in_concat in Hx. destruct Hx as (row & Hr & Hx). apply in_concat in Hr. destruct Hr as (Tr & Ht & Hr).
    assert (exists t, generate_trajectory m (length (pd_unique ls)) levels (draws t) = Ok Tr) as (t & Et).
    { clear - EM Ht. revert Ts' EM Ht. induction (seq 0 N) as [|t l IH]; intros Ts' EM Ht; simpl in *; [injection EM as <-; destruct Ht|].
      destruct (generate_trajectory _ _ _ _) eqn:E1; [|discriminate]. cbn [bind] in EM. destruct (mapM _ l) as [r|] eqn:ER; [|discriminate]. cbn [bind] in EM. injection EM as <-.
      destruct Ht as [<-|Ht]; eauto. }
    destruct (HT t) as (grp & E1 & _). rewrite E1 in Et. injection Et as <-. unfold tab in Hr. apply in_map_iff in Hr. destruct Hr as (i & <- & _).
    apply in_map_iff in Hx. destruct Hx as (j & <- & _). destruct (Hd t) as [_ Hst].
    rewrite phi_point by auto. split; [apply double_fl|]. split; [apply pointfl_range; auto|apply pointfl_close; auto].
Qed.
End Levels.

Lemma scaled_check_ok : forall X, (forall x, In x (concat X) -> 0 <= x <= 1) -> scaled_check X = Ok tt.
Proof.
  intros X H. unfold scaled_check. destruct (existsb _ X) eqn:E; auto. apply existsb_exists in E. destruct E as (r & Hr & E). apply existsb_exists in E. destruct E as (x & Hx & E).
  destruct (H x) as (A & B). { apply in_concat. eauto. }
  rewrite !Rlt_bool_false in E by auto. discriminate.
Qed.

(** Trajectories whose moves have a tolerance. *)
Lemma nearly : forall ls levels T, (2 <= levels)%nat -> trajectory ls (fun _ => step levels) T ->
  forall f tol, (forall x, In x (concat T) -> Rabs (f x - x) <= tol) ->
  exists order, NoDup order /\ (forall x, In x order <-> In x ls) /\ length (map (map f) T) = (length order + 1)%nat /\
    Forall (fun r => length r = length ls) (map (map f) T) /\
    forall r x a b, nth_error order r = Some x -> nth_error (map (map f) T) r = Some a -> nth_error (map (map f) T) (r + 1) = Some b ->
      length b = length a /\ forall j u, nth_error a j = Some u ->
        (nth_error ls j = Some x -> exists v, nth_error b j = Some v /\ Rabs (Rabs (v - u) - step levels) <= 2 * tol) /\
        (nth_error ls j <> Some x -> nth_error b j = Some u).
Proof.
  intros ls levels T L2 (order & N & I & L & W & M) f tol H. exists order. split; auto. split; auto. rewrite map_length. split; auto. split.
  { apply Forall_forall. intros r Hr. apply in_map_iff in Hr. destruct Hr as (r' & <- & Hr). rewrite map_length. eapply Forall_forall in W; eauto. }
  intros r x a b E1 E2 E3. rewrite nth_error_map' in E2, E3. destruct (nth_error T r) as [a'|] eqn:Ea; [|discriminate]. destruct (nth_error T (r + 1)) as [b'|] eqn:Eb; [|discriminate].
  injection E2 as <-. injection E3 as <-. destruct (M r x a' b' E1 Ea Eb) as (LM & Mv). rewrite !map_length. split; auto.
  intros j u Hu. rewrite nth_error_map' in Hu. destruct (nth_error a' j) as [u'|] eqn:Eu; [|discriminate]. injection Hu as <-. destruct (Mv j u' Eu) as (M1 & M2).
  rewrite nth_error_map'. split; intros S.
  - destruct (levels_facts levels L2) as (_ & _ & SP & _).
    assert (IU : In u' (concat T)) by (apply in_concat; exists a'; split; eapply nth_error_In; eauto).
    assert (exists v', nth_error b' j = Some v' /\ Rabs (v' - u') = step levels) as (v' & Ev & D).
    { destruct (M1 S) as [-> | ->]; eexists; (split; [reflexivity|]).
      - replace (u' + step levels - u') with (step levels) by ring. apply Rabs_pos_eq. lra.
      - replace (u' - step levels - u') with (- step levels) by ring. rewrite Rabs_Ropp. apply Rabs_pos_eq. lra. }
    rewrite Ev. eexists. split; [reflexivity|].
    assert (IV : In v' (concat T)) by (apply in_concat; exists b'; split; eapply nth_error_In; eauto).
    pose proof (H _ IU) as HU. pose proof (H _ IV) as HV. rewrite <- D. eapply Rle_trans; [apply Rabs_triang_inv2|].
    replace (f v' - f u' - (v' - u')) with ((f v' - v') - (f u' - u')) by ring. apply Rabs_le_inv in HU, HV. apply Rabs_le. lra.
  - rewrite (M2 S). reflexivity.
Qed.
