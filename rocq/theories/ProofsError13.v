(** * Forward errors of the confidence intervals of Morris in double precision. *)
From Coq Require Import Reals String List Arith ZArith Bool Lia Lra Psatz Permutation.
From Flocq Require Import Core Relative.
From Verif Require Import Base Arrays ListFacts ModelGroups ModelScale ProofsScale SpecGroups Stats Sums ModelFast ModelMorris ModelMorrisAnalyze SpecMorris ModelDouble ModelDouble2 ModelDouble4 ModelDouble5 SpecDouble3 SpecError SpecError3
  ProofsGroups ProofsMorris1 ProofsMorris7 ProofsRidge ProofsDouble ProofsDouble5 ProofsDouble10 ProofsDouble13 ProofsDouble14 ProofsDouble15 ProofsDouble16 ProofsDouble17 ProofsDouble19 ProofsDouble20 ProofsError ProofsError3 ProofsError6 ProofsError7 ProofsError8 ProofsError9 ProofsError10.
From Verif Require ProofsDouble21.
Import ListNotations.
Local Open Scope R_scope.

Lemma boot_off : forall arr (ee : list fval) E N k idx, arrangement arr -> idx <> [] -> (forall t, In t idx -> (t < N)%nat) ->
  (forall i, (i < N)%nat -> exists v, nth i ee None = Some v /\ double v /\ off k (Rabs (E i) + tiny) (E i) v) ->
  exists m, fmean_fl arr (map (fun t => fabs (nth t ee None)) idx) = Some m /\ double m /\
    off (k + length idx) (Rabs (mean (map (fun t => Rabs (E t)) idx)) + tiny) (mean (map (fun t => Rabs (E t)) idx)) m.
Proof.
  intros arr ee E N k idx A NE I H. set (g := fun t => match nth t ee None with Some v => v | None => 0 end).
  assert (G : forall t, In t idx -> nth t ee None = Some (g t) /\ double (g t) /\ off k (Rabs (E t) + tiny) (E t) (g t)).
  { intros t T. destruct (H t (I t T)) as (v & F & D & O). unfold g. rewrite F. auto. }
  unfold fmean_fl. rewrite (all_some_total _ _ (fun t => Rabs (g t))) by (intros t T; rewrite (proj1 (G t T)); auto). cbn [option_map]. eexists. split; [reflexivity|]. split; [apply double_fl|].
  rewrite (Rabs_pos_eq (mean _)) by (apply mean_nonneg; intros x Hx; apply in_map_iff in Hx as (t & <- & _); apply Rabs_pos). rewrite <- mean_plus by auto.
  apply (mean_off arr A nat (fun i => Rabs (E i)) (fun i => Rabs (g i)) (fun i => Rabs (E i) + tiny) k); auto. intros i Hi. destruct (G i Hi) as (_ & D & O).
  split; [apply generic_format_abs; exact D|]. split; [rewrite Rabs_Rabsolu; lra|apply off_abs; auto].
Qed.

Lemma indexed : forall (f : list nat -> R) idxs, map f idxs = map (fun r => f (nth r idxs [])) (seq 0 (length idxs)).
Proof.
  intros f idxs. apply nth_ext with 0 0; [rewrite !map_length, seq_length; auto|]. intros n Hn. rewrite map_length in Hn.
  rewrite ProofsDouble21.nth_seq_fun, (proj2 (Nat.ltb_lt _ _)) by auto. rewrite (nth_indep _ 0 (f [])) by (rewrite map_length; auto). apply map_nth.
Qed.

Lemma conf_off : forall S nq cl idxs ee E N k s, arrangement (s_over S) -> arrangement (s_again S) -> (0 < N)%nat -> (forall idx, In idx idxs -> length idx = N /\ forall t, In t idx -> (t < N)%nat) ->
  (forall i, (i < N)%nat -> exists v, nth i ee None = Some v /\ double v /\ off k (Rabs (E i) + tiny) (E i) v) -> sd1 (boot E idxs) = Some s ->
  let z := nq (fl (/ 2 + fl (cl / 2))) in
  let w := Rabs z * (3 * rms (boot E idxs) + bpow radix2 (-455)) + tiny in
  exists v, conf_fl S nq cl idxs ee = Some v /\ double v /\ Rabs (z * s) + tiny <= w /\ off (2 * length idxs + N + k + 6) w (z * s) v.
Proof.
  intros S nq cl idxs ee E N k s AO AA PN HI HE Hs z w. set (R := length idxs). pose proof tiny_pos as T.
  assert (R2 : (2 <= R)%nat). { unfold sd1, boot in Hs. rewrite map_length in Hs. fold R in Hs. destruct (R <? 2)%nat eqn:L; [discriminate|]. apply Nat.ltb_ge in L. auto. }
  set (F := fun idx => fmean_fl (s_over S) (map (fun t => fabs (nth t ee None)) idx)).
  set (g := fun r => match F (nth r idxs []) with Some m => m | None => 0 end). set (B := fun r => mean (map (fun t => Rabs (E t)) (nth r idxs []))).
  assert (GB : forall r, In r (seq 0 R) -> F (nth r idxs []) = Some (g r) /\ double (g r) /\ off (k + N) (Rabs (B r) + tiny) (B r) (g r)).
  { intros r I. apply in_seq in I. assert (II : In (nth r idxs []) idxs) by (apply nth_In; unfold R in I; lia). destruct (HI _ II) as (L & IL).
    destruct (boot_off (s_over S) ee E N k (nth r idxs []) AO) as (m & E1 & E2 & E3); auto; [intros Z; rewrite Z in L; simpl in L; lia|].
    unfold g, F. rewrite E1. rewrite L in E3. auto. }
  assert (EB : boot E idxs = map B (seq 0 R)) by (unfold boot; apply (indexed (fun idx => mean (map (fun t => Rabs (E t)) idx)))).
  assert (EF : all_some (map F idxs) = Some (map g (seq 0 R))).
  { replace (map F idxs) with (map (fun r => F (nth r idxs [])) (seq 0 R)); [apply all_some_total; intros r I; apply GB; auto|].
    apply nth_ext with None None; [rewrite !map_length, seq_length; auto|]. intros n Hn. rewrite map_length, seq_length in Hn.
    rewrite (nth_indep _ None (F [])) by (rewrite map_length, seq_length; auto). rewrite (nth_indep (map F idxs) None (F [])) by (rewrite map_length; auto).
    rewrite (map_nth F idxs). rewrite (nth_indep _ (F []) (F (nth 0%nat idxs []))) by (rewrite map_length, seq_length; auto).
    rewrite (map_nth (fun r => F (nth r idxs [])) (seq 0 R) 0%nat), seq_nth by auto. reflexivity. }
  unfold conf_fl. fold F z. unfold fsd1_fl. rewrite EF.
  destruct (std1_fl (s_again S) (map g (seq 0 R))) as [v|] eqn:V.
  2:{ unfold std1_fl in V. rewrite map_length, seq_length in V. destruct (R <? 2)%nat eqn:LL; [apply Nat.ltb_lt in LL; lia|discriminate]. }
  destruct (sd_off (s_again S) g B (k + N) (seq 0 R) v AA) as (O & W); [rewrite seq_length; auto|intros i I; destruct (GB i I); tauto|exact V|]. rewrite seq_length in O, W.
  assert (QE : size2 (INR (R - 1)) B (seq 0 R) = rms (boot E idxs)) by (unfold rms, size2; rewrite EB, map_map, map_length, seq_length; reflexivity).
  assert (SE : spread (INR (R - 1)) B (seq 0 R) = s).
  { unfold sd1 in Hs. rewrite EB, map_length, seq_length in Hs. destruct (R <? 2)%nat; [discriminate|]. injection Hs as <-. rewrite map_map. reflexivity. }
  rewrite QE, SE in O, W. cbn [fmul_fl]. eexists. split; [reflexivity|]. split; [apply double_fl|].
  assert (SP : 0 <= s) by (rewrite <- SE; apply sqrt_pos). assert (C : Rabs (z * s) + tiny <= w).
  { unfold w. rewrite Rabs_mult, (Rabs_pos_eq s) by auto. pose proof (Rabs_pos z). apply Rplus_le_compat_r. apply Rmult_le_compat_l; auto. lra. }
  split; auto. replace (2 * R + N + k + 6)%nat with (Datatypes.S (2 * R + 5 + (k + N))) by lia. apply off_fl; auto.
  apply off_weaken with (2 * R + 5 + (k + N))%nat (Rabs z * (3 * rms (boot E idxs) + bpow radix2 (-455))); auto; [|unfold w; lra|apply off_scale; exact O].
  apply Rmult_le_pos; [apply Rabs_pos|]. lra.
Qed.

Lemma morris_conf_off : forall S nq p ls G N X Y cl levels resample out k x js E R s, proper p ls G N X Y -> (2 <= levels)%nat -> (Z.of_nat levels <= 2 ^ 52)%Z -> 0 < cl < 1 ->
  snd (morris_analyze_fl S nq p X Y cl false levels resample) = Ok out -> nth_error (m_names out) k = Some x -> members_of ls x js ->
  arrangement (s_einsum S) -> arrangement (s_over S) -> arrangement (s_within S) -> arrangement (s_again S) -> (forall r x, In r (rows X) -> In x r -> double x) -> (forall y, In y Y -> double y) ->
  (forall j, In j js -> one_move (G + 1) (rows X) j /\ forall i, (i < N)%nat -> is_effect (step levels) (block (rows X) (G + 1) i) (block Y (G + 1) i) j (E i j)) ->
  (forall j, In j js -> length (resample j) = R /\ forall idx, In idx (resample j) -> length idx = N /\ forall t, In t idx -> (t < N)%nat) ->
  (forall j, In j js -> sd1 (boot (fun t => E t j) (resample j)) = Some (s j)) ->
  let z := nq (fl (/ 2 + fl (cl / 2))) in
  exists conf, nth_error (m_conf out) k = Some (Some conf) /\
    off (2 * R + N + p_num_vars p + 10) (mean (map (fun j => Rabs z * (3 * rms (boot (fun t => E t j) (resample j)) + bpow radix2 (-455))) js) + tiny) (mean (map (fun j => z * s j) js)) conf.
Proof.
  intros S nq p ls G N X Y cl levels resample out k x js E R s (H1 & H2 & H3 & H4 & H5 & H6 & H7 & H8) L1 L2 Hc Ho Hk Hjs AE AO AW AA DX DY H HR Hs z.
  assert (NL : levels <> 1%nat) by lia.
  destruct (trend S nq p ls G N X Y cl false levels resample out k x H1 H2 H3 H4 H5 NL Hc H6 H7 H8 Ho Hk) as (m & Lm & Hm & Kk & Q). cbv zeta in Q.
  destruct Q as (_ & _ & _ & Q). pose proof (members_of_perm _ _ _ _ Hm Hjs) as PJ. assert (LG : length m = p_num_vars p) by lia.
  assert (JN : forall j, In j (members m k) -> (j < p_num_vars p)%nat). { intros j J. apply filter_In in J. destruct J as [J _]. apply in_seq in J. lia. }
  assert (NE : members m k <> []).
  { intros Z. rewrite Z in Hm. destruct Hm as [_ Hm]. assert (IN : In x ls).
    { destruct (shaped S nq p ls G N X Y cl false levels resample) as (p1 & m' & Em & EG & _ & Q'); auto. cbv zeta in Q'. rewrite Q' in Ho. cbn [snd] in Ho. injection Ho as <-. cbn [m_names] in Hk.
      apply nth_error_In in Hk. apply (proj1 (pd_unique_In ls x)). exact Hk. }
    apply In_nth_error in IN. destruct IN as (j & Ej). apply Hm in Ej. destruct Ej. }
  set (W := fun j => Rabs z * (3 * rms (boot (fun t => E t j) (resample j)) + bpow radix2 (-455)) + tiny).
  destruct (grouped_off (s_within S) (map (fun j => conf_fl S nq cl (resample j) (col_fl S G (rows X) Y levels false N j)) (seq 0 (p_num_vars p))) m k (fun j => z * s j) W (2 * R + N + 4 + 6) AW NE) as (c & E1 & O1).
  { intros j J. pose proof (Permutation_in _ PJ J) as J'. destruct (H j J') as (OM & HE). destruct (HR j J') as (LR & HI).
    destruct (conf_off S nq cl (resample j) (col_fl S G (rows X) Y levels false N j) (fun t => E t j) N 4 (s j) AO AA H8 HI) as (v & V1 & V2 & V3 & V4); auto.
    - intros i I. destruct (effect_off S (G + 1) (rows X) Y AE ltac:(lia) DX DY levels i j (E i j) L1 L2 OM (HE i I)) as (v & F & D & O). exists v. split; auto.
      apply nth_error_nth. unfold col_fl. rewrite nth_error_map', nth_error_seq, (proj2 (Nat.ltb_lt _ _) I). cbn [option_map Nat.add]. rewrite F. reflexivity.
    - exists v. rewrite LR in V4. split; [|auto]. apply nth_error_nth. rewrite nth_error_map', nth_error_seq, (proj2 (Nat.ltb_lt _ _) (JN j J)). cbn [option_map Nat.add]. rewrite V1. reflexivity. }
  exists c. split; [rewrite Q; f_equal; exact E1|]. unfold W in O1. rewrite mean_plus in O1 by auto. rewrite !(mean_perm _ _ _ _ PJ) in O1. rewrite LG in O1.
  replace (2 * R + N + p_num_vars p + 10)%nat with (2 * R + N + 4 + 6 + p_num_vars p)%nat by lia. exact O1.
Qed.

(** Three trajectories with effects 1, 3 and 5. *)
Definition odd_Y : list R := [0; 1; 0; 3; 0; 5].
Definition odds : list R := [1; 3; 5].
Lemma odd_at : forall i, (i < 3)%nat -> x_at 2 (rows three_X) i 0 0 = 0 /\ x_at 2 (rows three_X) i 1 0 = 1 /\ y_at 2 odd_Y i 0 = 0 /\ y_at 2 odd_Y i 1 = nth i odds 0.
Proof. intros i H. do 3 (destruct i as [|i]; [repeat split; reflexivity|]). lia. Qed.
Lemma odd_double : forall i, double (nth i odds 0).
Proof. intros i. do 3 (destruct i as [|i]; [cbn; apply double_Z; discriminate|]). destruct i; apply double_0. Qed.
Lemma odd_effect : forall i, (i < 3)%nat -> effect_fl left_sums 2 (rows three_X) odd_Y (delta_fl 2) false i 0 = Some (nth i odds 0).
Proof.
  intros i H. destruct (odd_at i H) as (X0 & X1 & Y0 & Y1). unfold effect_fl, difference_fl, reorganize_fl, picked, pad_before, pad_after. cbn [seq map Nat.sub Nat.ltb Nat.leb andb s_einsum left_sums left_to_right comb tsum nth].
  unfold increased_fl, decreased_fl. cbn [Nat.add]. rewrite X0, X1, Rminus_0_r, fl_one, Y0, Y1. rewrite (proj2 (Rltb_true 0 1)) by lra. rewrite (proj2 (Rltb_false 1 0)) by lra. cbn [orb andb].
  pose proof (odd_double i) as D. set (v := nth i odds 0) in *. rewrite !Rplus_0_l, ?Rplus_0_r, ?fl_0, ?Rminus_0_r, !(fl_double v D). unfold fdiv_fl. rewrite delta_two.
  destruct (Reqb 1 0) eqn:Z; [apply Reqb_true in Z; lra|]. replace (v / 1) with v by field. rewrite (fl_double v D). reflexivity.
Qed.
Definition odd_resample : list (list nat) := [[0; 0; 0]; [1; 1; 1]; [2; 2; 2]]%nat.
Lemma odd_result : exists out, snd (morris_analyze_fl left_sums (fun _ => 2) six_p three_X odd_Y (/ 2) false 2 (fun _ => odd_resample)) = Ok out /\ m_conf out = [Some 4].
Proof.
  assert (Z : forall z, (Z.abs z <= 2 ^ 53)%Z -> fl (IZR z) = IZR z) by (intros z Hz; apply fl_double, double_Z; exact Hz).
  assert (P : proper six_p ["a"%string] 1 3 three_X odd_Y) by (split; [apply six_labels|]; split; [apply six_count|]; cbn; repeat split; lia). destruct P as (H1 & H2 & H3 & H4 & H5 & H6 & H7 & H8).
  destruct (shaped left_sums (fun _ => 2) six_p ["a"%string] 1 3 three_X odd_Y (/ 2) false 2 (fun _ => odd_resample)) as (p1 & m & Em & _ & _ & E); auto; [lra|].
  cbv zeta in E. rewrite E. vm_compute in Em. injection Em as <-. cbn [snd]. eexists. split; [reflexivity|]. cbn [m_conf six_p p_num_vars seq map].
  assert (C : col_fl left_sums 1 (rows three_X) odd_Y 2 false 3 0 = map Some odds) by (unfold col_fl; cbn [seq map]; rewrite !odd_effect by lia; reflexivity). rewrite C.
  assert (F : conf_fl left_sums (fun _ => 2) (/ 2) odd_resample (map Some odds) = Some 4).
  { assert (M : forall z, (0 <= z <= 5)%Z -> mean_fl left_to_right [IZR z; IZR z; IZR z] = IZR z).
    { intros z Hz. unfold mean_fl, sum_fl, left_to_right. cbn [length Nat.sub comb tsum nth]. rewrite <- plus_IZR, Z by lia. rewrite <- plus_IZR, Z by lia.
      replace (IZR (z + z + z) / INR 3) with (IZR z) by (rewrite !plus_IZR; simpl; field). apply Z. lia. }
    assert (B : map (fun idx => fmean_fl (s_over left_sums) (map (fun t => fabs (nth t (map Some odds) None)) idx)) odd_resample = [Some 1; Some 3; Some 5]).
    { unfold odd_resample, odds. cbn [map nth fabs option_map]. rewrite !Rabs_pos_eq by lra. unfold fmean_fl. cbn [all_some option_map left_sums s_over]. rewrite (M 1%Z), (M 3%Z), (M 5%Z) by lia. reflexivity. }
    unfold conf_fl. rewrite B. unfold fsd1_fl. cbn [all_some option_map left_sums s_again]. unfold std1_fl. cbn [length Nat.ltb Nat.leb Nat.sub].
    assert (M3 : mean_fl left_to_right [1; 3; 5] = 3).
    { unfold mean_fl, sum_fl, left_to_right. cbn [length Nat.sub comb tsum nth]. replace (1 + 3) with (IZR 4) by ring. rewrite (Z 4%Z) by discriminate. replace (4 + 5) with (IZR 9) by ring. rewrite (Z 9%Z) by discriminate.
      replace (9 / INR 3) with (IZR 3) by (simpl; field). apply (Z 3%Z). discriminate. }
    rewrite M3. unfold squares_fl, sum_fl, left_to_right. cbn [map length Nat.sub comb tsum nth]. replace (1 - 3) with (IZR (-2)) by ring. replace (3 - 3) with (IZR 0) by ring. replace (5 - 3) with (IZR 2) by ring.
    rewrite (Z (-2)%Z), (Z 0%Z), (Z 2%Z) by discriminate. replace (-2 * -2) with (IZR 4) by ring. replace (0 * 0) with (IZR 0) by ring. replace (2 * 2) with (IZR 4) by ring. rewrite (Z 4%Z), (Z 0%Z) by discriminate.
    rewrite Rplus_0_r, (Z 4%Z) by discriminate. replace (4 + 4) with (IZR 8) by ring. rewrite (Z 8%Z) by discriminate. replace (8 / INR 2) with (IZR 4) by (simpl; field). rewrite (Z 4%Z) by discriminate.
    replace (sqrt 4) with (IZR 2) by (replace 4 with (2 * 2) by ring; rewrite sqrt_square; lra). rewrite (Z 2%Z) by discriminate. cbn [fmul_fl]. replace (2 * 2) with (IZR 4) by ring. rewrite (Z 4%Z) by discriminate. reflexivity. }
  rewrite F. unfold grouped_metric_fl, grouped_fl. cbn. do 2 f_equal. replace (4 / 1) with (IZR 4) by field. apply (Z 4%Z). discriminate.
Qed.
