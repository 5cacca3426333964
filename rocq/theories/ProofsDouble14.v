(** * Zeros, signs and scales of the whole analysis. *)
From Coq Require Import Reals String List Arith ZArith Bool Lia Lra.
From Flocq Require Import Core.
From Verif Require Import Base Arrays ListFacts ModelGroups ModelScale ProofsScale Stats ModelSobol SpecSobol ProofsSobol ProofsSobol2 ProofsSobol4 ProofsSobol5 ModelDouble ModelDouble3 ModelDouble4 SpecDouble2 ProofsDouble ProofsDouble5
  ProofsDouble10 ProofsDouble11 ProofsDouble12 ProofsDouble13.
From Verif Require PropertiesSobol.
Import ListNotations.
Local Open Scope nat_scope.

Lemma conf_zero : forall arr z A B e r v, (forall l x, e = Columns l -> In (Some x) l -> x = 0%R) ->
  (if Reqb (ptp_fl (concat (gather A r) ++ concat (gather B r))) 0 then Some 0%R else confidence_fl arr z e) = Some v -> v = 0%R.
Proof. intros arr z A B e r v H. destruct (Reqb _ 0); [intros X; injection X as <-; auto|apply confidence_zero; auto]. Qed.

Lemma first2_zero : forall arr A B l x, first2_fl arr A A B = Columns l -> In (Some x) l -> x = 0%R.
Proof. intros arr A B l x. unfold first2_fl. destruct (Reqb _ 0); [discriminate|]. intros E. injection E as <-. intros H. apply map3_same in H. destruct H as (a & b & H). symmetry in H. eapply first_col_zero; eauto. Qed.
Lemma total2_zero : forall arr A B l x, total2_fl arr A A B = Columns l -> In (Some x) l -> x = 0%R.
Proof. intros arr A B l x. unfold total2_fl. destruct (Reqb _ 0); [discriminate|]. intros E. injection E as <-. intros H. apply map3_same in H. destruct H as (a & b & H). symmetry in H. eapply total_col_zero; eauto. Qed.
Lemma second2_zero : forall arr A B l x, second2_fl arr A A A B B = Columns l -> In (Some x) l -> x = 0%R.
Proof. intros arr A B l x. unfold second2_fl. destruct (Reqb _ 0); [discriminate|]. intros E. injection E as <-. intros H. apply map5_same in H. destruct H as (a & b & H). symmetry in H. eapply second_col_zero; eauto. Qed.

Lemma total_first_none : forall arr A AB AB' B, total_fl arr A AB B = None -> first_fl arr A AB' B = None.
Proof. intros arr A AB AB' B. unfold total_fl, first_fl, total_col_fl, first_col_fl, fdiv_fl. destruct (Reqb (ptp_fl _) 0); [discriminate|]. destruct (Reqb _ 0); [auto|discriminate]. Qed.

Lemma silent_first : forall arr arr2 Zq resample p Y second conf s j, sobol_fl arr arr2 Zq resample p Y second conf = Ok s ->
  let G := snd (extract_group_names p) in
  j < G -> silent G second Y j ->
  (forall v, nth_error (S1 s) j = Some (Some v) \/ nth_error (ST s) j = Some (Some v) \/ nth_error (S1_conf s) j = Some (Some v) \/ nth_error (ST_conf s) j = Some (Some v) -> v = 0%R) /\
  (exists x, nth_error (S1 s) j = Some x) /\ (exists x, nth_error (ST s) j = Some x) /\
  (nth_error (S1 s) j = Some None \/ nth_error (ST s) j = Some None -> forall k, k < G -> nth_error (S1 s) k = Some None /\ nth_error (ST s) k = Some None).
Proof.
  intros arr arr2 Zq resample p Y second conf s j H G J S. apply sobol_fl_parts in H. cbv zeta in H. fold G in H. destruct H as [(n & ->)|(n & A & B & AB & BA & L & E & H)].
  - unfold all_nan. cbn [S1 ST S1_conf ST_conf].
    assert (X : forall k, k < G -> nth_error (repeat (@None R) G) k = Some None) by (intros k K; rewrite nth_error_repeat, (proj2 (Nat.ltb_lt _ _) K); auto).
    split; [|split; [|split]]; [intros v; rewrite !X by auto; intros [V|[V|[V|V]]]; discriminate|eauto|eauto|auto].
  - destruct H as (-> & -> & -> & -> & _). destruct (silent_columns n Y G second _ A B AB BA j L S J E) as (LA & NA & _ & _). rewrite !nth_error_map', NA. cbn [option_map].
    split; [|split; [eauto|split; [eauto|]]].
    + intros v [V|[V|[V|V]]]; injection V as V; [eapply first_zero; eauto|eapply total_zero; eauto| |]; eapply conf_zero; try exact V; intros l x; [apply first2_zero|apply total2_zero].
    + intros V k K. rewrite !nth_error_map'. destruct (nth_error AB k) as [ab|] eqn:EK; [|apply nth_error_None in EK; lia]. cbn [option_map].
      assert (F : first_fl arr A ab B = None) by (destruct V as [V|V]; injection V as V; [eapply first_none; eauto|eapply total_first_none; eauto]).
      rewrite F, (first_total_none _ _ _ ab _ F). auto.
Qed.

Lemma entry_table : forall (f : nat -> nat -> fval) G j k, j < G -> k < G -> entry (map (fun j => map (f j) (seq 0 G)) (seq 0 G)) j k = Some (f j k).
Proof.
  intros f G j k J K. unfold entry. rewrite nth_error_map', nth_error_seq. rewrite (proj2 (Nat.ltb_lt _ _) J). cbn [option_map].
  rewrite nth_error_map', nth_error_seq, (proj2 (Nat.ltb_lt _ _) K). reflexivity.
Qed.

Lemma silent_pair : forall arr arr2 Zq resample p Y conf s j k, sobol_fl arr arr2 Zq resample p Y true conf = Ok s ->
  let G := snd (extract_group_names p) in
  j < k < G -> silent G true Y j -> silent G true Y k ->
  exists m c, S2 s = Some m /\ S2_conf s = Some c /\ forall v, entry m j k = Some (Some v) \/ entry c j k = Some (Some v) -> v = 0%R.
Proof.
  intros arr arr2 Zq resample p Y conf s j k H G J Sj Sk. apply sobol_fl_parts in H. cbv zeta in H. fold G in H. destruct H as [(n & ->)|(n & A & B & AB & BA & L & E & H)].
  - unfold all_nan. cbn [S2 S2_conf]. eexists _, _. split; [reflexivity|]. split; [reflexivity|]. unfold entry.
    intros v. rewrite nth_error_repeat, (proj2 (Nat.ltb_lt j G)), nth_error_repeat, (proj2 (Nat.ltb_lt k G)) by lia. intros [V|V]; discriminate.
  - destruct H as (_ & _ & _ & _ & -> & ->).
    destruct (silent_columns n Y G true _ A B AB BA j L Sj) as (_ & _ & Aj & Bj); [lia|auto|].
    destruct (silent_columns n Y G true _ A B AB BA k L Sk) as (_ & _ & Ak & _); [lia|auto|].
    assert (X : exists ba, BA = Some ba).
    { rewrite separate_map in E. destruct (separate_ok _ Y G _ true L) as (a & b & ab & ba & E' & _ & _ & _ & _ & Hba & _). rewrite E' in E. injection E as _ _ _ <-.
      destruct (Hba eq_refl) as (ba' & -> & _). cbn. eauto. }
    destruct X as (ba & ->). cbn [option_map]. eexists _, _. split; [reflexivity|]. split; [reflexivity|]. intros v.
    rewrite !(entry_table (fun j k => if j <? k then _ else _)) by lia. rewrite (proj2 (Nat.ltb_lt j k)) by lia. rewrite Aj, Ak, (Bj ba eq_refl).
    intros [V|V]; injection V as V; [eapply second_zero; eauto|eapply confidence_zero; [|exact V]]. intros l x. apply second2_zero.
Qed.

Lemma signs : forall arr arr2 Zq resample p Y second conf s, sobol_fl arr arr2 Zq resample p Y second conf = Ok s -> (0 <= Zq conf)%R ->
  forall v, In (Some v) (ST s) \/ In (Some v) (S1_conf s) \/ In (Some v) (ST_conf s) \/ (exists c row, S2_conf s = Some c /\ In row c /\ In (Some v) row) -> (0 <= v)%R.
Proof.
  intros arr arr2 Zq resample p Y second conf s H Z v. apply sobol_fl_parts in H. cbv zeta in H. set (G := snd (extract_group_names p)) in *.
  destruct H as [(n & ->)|(n & A & B & AB & BA & L & E & H)].
  - unfold all_nan. cbn [ST S1_conf ST_conf S2_conf]. intros [V|[V|[V|V]]]; try (apply repeat_spec in V; discriminate).
    destruct V as (c & row & V & Hr & Hv). destruct second; [|discriminate]. injection V as <-. apply repeat_spec in Hr. subst row. apply repeat_spec in Hv. discriminate.
  - destruct H as (_ & -> & -> & -> & _ & ->).
    assert (C : forall e, (if Reqb (ptp_fl (concat (gather A (resample (length Y / block_size G second))) ++ concat (gather B (resample (length Y / block_size G second))))) 0
        then Some 0%R else confidence_fl arr (Zq conf) e) = Some v -> (0 <= v)%R).
    { intros e. destruct (Reqb _ 0); [intros X; injection X as <-; lra|apply confidence_pos; auto]. }
    intros [V|[V|[V|V]]].
    + apply in_map_iff in V. destruct V as (ab & V & _). eapply total_pos; eauto.
    + apply in_map_iff in V. destruct V as (ab & V & _). eapply C; eauto.
    + apply in_map_iff in V. destruct V as (ab & V & _). eapply C; eauto.
    + destruct V as (c & row & V & Hr & Hv). destruct BA as [ba|]; [|discriminate]. injection V as <-. apply in_map_iff in Hr. destruct Hr as (j & <- & _).
      apply in_map_iff in Hv. destruct Hv as (k & V & _). destruct (j <? k); [|discriminate]. eapply confidence_pos; eauto.
Qed.

Lemma powerRZ_2 : forall e, powerRZ 2 e = bpow radix2 e.
Proof. intros e. rewrite bpow_powerRZ. reflexivity. Qed.
Lemma scaled : forall arr arr2 Zq resample p Y second conf c e, c = powerRZ 2 e \/ c = (- powerRZ 2 e)%R -> (Z.of_nat (length Y) <= 2 ^ 53)%Z ->
  (forall y, In y Y -> moderate y /\ moderate (c * y)%R) ->
  sobol_fl arr arr2 Zq resample p (map (fun y => c * y)%R Y) second conf = sobol_fl arr arr2 Zq resample p Y second conf.
Proof.
  intros arr arr2 Zq resample p Y second conf c e C L H. rewrite !powerRZ_2 in C.
  assert (M : forall y, In y Y -> moderate y /\ moderate (bpow radix2 e * y)%R).
  { intros y Hy. destruct (H y Hy) as (M & M'). split; auto. destruct C as [-> | ->]; auto. destruct M' as (D & B).
    replace (bpow radix2 e * y)%R with (- (- bpow radix2 e * y))%R by ring. split; [apply generic_format_opp; auto|]. rewrite Rabs_Ropp. destruct B; [left; lra|auto]. }
  destruct C as [-> | ->]; [apply sobol_fl_scale; auto|].
  replace (map (fun y => - bpow radix2 e * y)%R Y) with (opp (map (fun y => bpow radix2 e * y)%R Y)).
  - rewrite sobol_fl_opp. apply sobol_fl_scale; auto.
  - unfold opp. rewrite map_map. apply map_ext. intros y. ring.
Qed.

Lemma silent_out : forall Y G j i, silent G true Y j -> i < length Y / block_size G true ->
  out Y G true i (1 + j) = out Y G true i 0 /\ out Y G true i (1 + G + j) = out Y G true i (block_size G true - 1).
Proof.
  intros Y G j i H I. destruct (H i I) as (E1 & E2). specialize (E2 eq_refl). unfold out. rewrite Nat.add_0_r.
  assert (X : forall a b, nth_error Y a = nth_error Y b -> nth a Y 0%R = nth b Y 0%R).
  { intros a b E. destruct (nth_error Y b) as [y|] eqn:Eb.
    - rewrite (nth_error_nth _ _ 0%R E), (nth_error_nth _ _ 0%R Eb). reflexivity.
    - apply nth_error_None in E, Eb. rewrite !nth_overflow by auto. reflexivity. }
  split; apply X; auto.
Qed.
Lemma second_exact : forall mu sigma Zq resample cpus p Y conf keep workers s j k, sigma <> 0%R -> analyze_with mu sigma Zq resample cpus p Y true conf keep workers = Ok s ->
  let G := snd (extract_group_names p) in
  j < k < G -> silent G true Y j -> exists m, S2 s = Some m /\ entry m j k = Some (Some 0%R).
Proof.
  intros mu sigma Zq resample cpus p Y conf keep workers s j k Hs H G J S. destruct (PropertiesSobol.C63_index_formulas _ _ _ _ _ _ _ _ _ _ _ _ Hs H) as (C & V). fold G in C, V.
  match type of C with ?X -> _ => destruct (Classical_Prop.classic X) as [D|D] end.
  - destruct (C D) as (_ & Q). apply Q; auto; lia.
  - destruct (V D) as (_ & Q). destruct (Q eq_refl j k) as (m & Em & E); [lia|lia|]. exists m. split; auto. rewrite E. do 2 f_equal.
    set (N := length Y / block_size G true) in *.
    replace (map _ (seq 0 N)) with (map (fun i => (out Y G true i (block_size G true - 1) - mu) * (out Y G true i (1 + k) - out Y G true i 0))%R (seq 0 N)) at 1.
    2:{ apply map_ext_in. intros i Hi. apply in_seq in Hi. destruct (silent_out Y G j i S) as (_ & ->); [fold N; lia|]. ring. }
    replace (mean (map (fun i => (out Y G true i (block_size G true - 1) - mu) * (out Y G true i (1 + j) - out Y G true i 0))%R (seq 0 N))) with 0%R; [unfold Rdiv; ring|].
    symmetry. unfold mean. assert (Z : forall l, (forall x, In x l -> x = 0%R) -> Rsum l = 0%R).
    { induction l as [|x l IH]; intros Hl; [reflexivity|]. cbn [Rsum fold_right]. rewrite (Hl x (or_introl eq_refl)), Rplus_0_l. apply IH. intros y Hy. apply Hl. right. auto. }
    rewrite Z; [unfold Rdiv; ring|]. intros x Hx. apply in_map_iff in Hx. destruct Hx as (i & <- & Hi). apply in_seq in Hi. destruct (silent_out Y G j i S) as (-> & _); [fold N; lia|]. ring.
Qed.

Lemma wit_silent : silent 2 true wit_Y 0.
Proof. intros i Hi. cbn in Hi. assert (i = 0) by lia. subst i. split; intros; reflexivity. Qed.
Lemma wit_moderate : forall y, In y wit_Y -> moderate y.
Proof.
  intros y Hy. assert (X : exists z : Z, y = IZR z /\ (Z.abs z <= 4)%Z) by (cbn in Hy; decompose [or] Hy; try contradiction; subst y; [exists (-3)%Z|exists (-3)%Z|exists (-2)%Z|exists 4%Z|exists 0%Z|exists 4%Z]; split; auto; lia).
  destruct X as (z & -> & Z). split; [apply double_Z; lia|]. destruct (Z.eq_dec z 0) as [-> |N]; [left; auto|right]. rewrite powerRZ_2, <- abs_IZR.
  apply Rle_trans with 1%R; [change 1%R with (bpow radix2 0); apply bpow_le; lia|apply IZR_le; lia].
Qed.
Lemma second_refuted : ~ (forall arr arr2 Zq resample p Y conf s j k v m, arrangement arr -> arrangement arr2 -> (forall y, In y Y -> moderate y) ->
  sobol_fl arr arr2 Zq resample p Y true conf = Ok s -> j < k < snd (extract_group_names p) -> silent (snd (extract_group_names p)) true Y j ->
  S2 s = Some m -> entry m j k = Some (Some v) -> v = 0%R).
Proof.
  intros H. destruct (wit_analysis (fun _ => 2%R)) as (s & m & E & Em & En & _).
  assert (X : (- (IZR 1 / IZR 18014398509481984))%R = 0%R); [|lra].
  apply (H left_to_right left_to_right (fun _ => 2%R) (fun _ => [[0]; [0]]) wit_p wit_Y (/ 2)%R s 0 1 _ m); auto using left_arrangement, wit_moderate.
  - exact wit_silent.
  - unfold entry. rewrite En. reflexivity.
Qed.
Lemma example : silent 2 true wit_Y 0 /\ exists s, sobol_fl left_to_right left_to_right (fun _ => 2%R) (fun _ => [[0]; [0]]) wit_p wit_Y true (/ 2) = Ok s /\
  nth_error (S1 s) 0 = Some (Some 0%R) /\ nth_error (ST s) 0 = Some (Some 0%R).
Proof.
  split; [exact wit_silent|]. destruct (wit_analysis (fun _ => 2%R)) as (s & m & E & _ & _ & (x & X) & (y & Y)). exists s. split; auto.
  destruct (silent_first _ _ _ _ _ _ _ _ _ 0 E) as (Z & _); [cbn; lia|exact wit_silent|].
  assert (x = 0%R) by auto. assert (y = 0%R) by auto. subst. auto.
Qed.
