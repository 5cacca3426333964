(** * Morris: in single precision the local strategy can miss the best pair. *)
From Coq Require Import Reals String List Arith ZArith Bool Lia Lra Psatz Permutation Sorted.
From Flocq Require Import Core.
From Verif Require Import Base Arrays ListFacts ModelGroups ModelScale ProofsScale Stats Sums SpecGroups SpecSobol SpecFF
  ProofsGroups ModelMorris ModelMorrisAnalyze SpecMorris ModelDouble ModelDouble4 ModelSingle SpecSingle ModelLocalSingle
  ProofsSingle ProofsSingle2 ProofsSingle3 ProofsSingle4 ProofsMorris1 ProofsMorris3 ProofsMorris4 ProofsMorris5 ProofsMorris9
  ProofsLocal ProofsLocal4.
Import ListNotations.
Local Open Scope R_scope.

(** The trajectories of [close_X] with the last two exchanged. *)
Definition mirror_X : list (list R) :=
  [[q26 0]; [q26 33554432]; [q26 16777217]; [q26 50331649]; [q26 16777216]; [q26 50331648]].
Lemma mirror_shape : trajectories_of 3 2 1 mirror_X.
Proof. split; [reflexivity|]. split; [repeat constructor|lia]. Qed.
Lemma mirror_coarse : coarse mirror_X.
Proof.
  intros x a Hx Ha. apply (close_coarse x a); auto. unfold mirror_X in Hx. unfold close_X. simpl in *. tauto.
Qed.

Lemma rounded_up : f32 (q26 100663298) = 3 / 2.
Proof.
  replace (q26 100663298) with (IZR 12582912 * bpow radix2 (-23) + bpow radix2 (-25)) by (unfold q26; simpl; lra).
  rewrite f32_down by lia. simpl; lra.
Qed.
Lemma rounded_even : f32 (q26 100663296) = 3 / 2.
Proof. change (q26 100663296) with (q26 (8 * 12582912)). rewrite single_q by lia. simpl; lra. Qed.
Lemma rounded_one : f32 (q26 67108866) = 1.
Proof.
  replace (q26 67108866) with (IZR 8388608 * bpow radix2 (-23) + bpow radix2 (-25)) by (unfold q26; simpl; lra).
  rewrite f32_down by lia. simpl; lra.
Qed.

Definition tied : list (list R) := [[0; 3 / 2; 3 / 2]; [3 / 2; 0; 1]; [3 / 2; 1; 0]].
Lemma close_tied : local_matrix_fl left_to_right left_to_right close_X 1 3 = tied.
Proof.
  unfold local_matrix_fl, tab. cbn [seq map Nat.ltb Nat.leb]. rewrite !traj_block. unfold block, close_X. cbn [Nat.mul Nat.add skipn firstn].
  rewrite !two_points by (simpl; lia).
  unfold tied. repeat f_equal; try exact rounded_up; try exact rounded_even; try exact rounded_one.
Qed.
Lemma mirror_tied : local_matrix_fl left_to_right left_to_right mirror_X 1 3 = tied.
Proof.
  unfold local_matrix_fl, tab. cbn [seq map Nat.ltb Nat.leb]. rewrite !traj_block. unfold block, mirror_X. cbn [Nat.mul Nat.add skipn firstn].
  rewrite !two_points by (simpl; lia).
  unfold tied. repeat f_equal; try exact rounded_up; try exact rounded_even; try exact rounded_one.
Qed.

Lemma mirror_spreads : is_spread (fun x => x) length_of mirror_X 2 [0; 2]%nat (3 / 2) /\
  is_spread (fun x => x) length_of mirror_X 2 [0; 1]%nat (3 / 2 + / 33554432).
Proof.
  assert (L : forall d, 0 <= d -> length_of [d] = d). { intros d P. unfold length_of. cbn [map fold_right]. rewrite Rplus_0_r. apply sqrt_square. auto. }
  split; eexists [_]; (split; [constructor; [|constructor]; cbn [fst snd]; unfold block, mirror_X; cbn [Nat.mul Nat.add skipn firstn]; apply two_exact; lia|]).
  - change (q26 _) with (q26 100663296). replace (q26 100663296) with (3 / 2) by (unfold q26; simpl; lra). rewrite L; lra.
  - change (q26 _) with (q26 100663298). replace (q26 100663298) with (3 / 2 + / 33554432) by (unfold q26; simpl; lra). rewrite L; lra.
Qed.

Lemma single_32 : single (3 / 2).
Proof. replace (3 / 2) with (IZR 3 * bpow radix2 (-1)) by (simpl; lra). apply single_F; lia. Qed.
Lemma score_32 : score_fl left_to_right [3 / 2] = 3 / 2.
Proof.
  apply score_one; [|lra|apply single_32].
  replace (3 / 2 * (3 / 2)) with (IZR 9 * bpow radix2 (-2)) by (simpl; lra). apply single_F; lia.
Qed.

Lemma tied_search : forall argsort, valid_argsort argsort ->
  local_search (score_fl left_to_right) argsort tied 2 = Ok [0; 1]%nat \/ local_search (score_fl left_to_right) argsort tied 2 = Ok [0; 2]%nat.
Proof.
  intros argsort AS.
  destruct (argsort_max argsort AS [0; 3 / 2; 3 / 2] ltac:(discriminate)) as (t0 & E0 & L0 & M0).
  destruct (argsort_max argsort AS [3 / 2; 0; 1] ltac:(discriminate)) as (t1 & E1 & L1 & M1).
  destruct (argsort_max argsort AS [3 / 2; 1; 0] ltac:(discriminate)) as (t2 & E2 & L2 & M2).
  destruct (argsort_max argsort AS [3 / 2; 3 / 2; 3 / 2] ltac:(discriminate)) as (b & Eb & Lb & _).
  destruct (argsort_max argsort AS [3 / 2] ltac:(discriminate)) as (z & Ez & Lz & _).
  simpl in L0, L1, L2, Lb, Lz. assert (z = 0%nat) by lia. subst z.
  assert (t1 = 0%nat). { specialize (M1 0%nat ltac:(simpl; lia)). destruct t1 as [|[|[|]]]; simpl in M1; try lia; lra. }
  assert (t2 = 0%nat). { specialize (M2 0%nat ltac:(simpl; lia)). destruct t2 as [|[|[|]]]; simpl in M2; try lia; lra. }
  subst t1 t2.
  assert (T : t0 = 1%nat \/ t0 = 2%nat). { specialize (M0 1%nat ltac:(simpl; lia)). destruct t0 as [|[|[|]]]; simpl in M0; try lia; lra. }
  assert (SD : forall u v, dm_at tied u v = 3 / 2 -> sum_distances (score_fl left_to_right) tied [u; v] = Ok (3 / 2)).
  { intros u v H. unfold sum_distances. cbn [combinations map app nth]. rewrite H. rewrite score_32. reflexivity. }
  unfold local_search. cbn [Nat.sub seq mapM]. unfold local_round. change (seq 0 (length tied)) with (seq 0 3).
  cbn [seq map nth tied]. rewrite E0, E1, E2. cbn [rev app mapM Nat.sub extend_set].
  change [[0; 3 / 2; 3 / 2]; [3 / 2; 0; 1]; [3 / 2; 1; 0]] with tied.
  rewrite (SD t0 0%nat), (SD 0%nat 1%nat), (SD 0%nat 2%nat) by (try destruct T as [-> | ->]; reflexivity). cbn [bind].
  unfold get_max_sum_ind at 1 3. cbn [length Nat.eqb negb]. rewrite Eb.
  assert (B : exists best, get [[t0; 0%nat]; [0%nat; 1%nat]; [0%nat; 2%nat]] b = Ok best /\
     (best = [1; 0] \/ best = [2; 0] \/ best = [0; 1] \/ best = [0; 2])%nat).
  { destruct b as [|[|[|]]]; try lia; eexists; (split; [reflexivity|]); [destruct T as [-> | ->]|..]; tauto. }
  destruct B as (best & -> & B). cbn [bind extend_set mapM].
  assert (SB : sum_distances (score_fl left_to_right) tied best = Ok (3 / 2)).
  { destruct B as [->|[->|[->| ->]]]; apply SD; reflexivity. }
  rewrite SB. cbn [bind]. unfold get_max_sum_ind. cbn [length Nat.eqb negb]. rewrite Ez. cbn [get bind nth_error].
  destruct B as [->|[->|[->| ->]]]; cbn; tauto.
Qed.

Theorem local_fl_misses : forall argsort, valid_argsort argsort -> exists X c c' s s',
  trajectories_of 3 2 1 X /\ coarse X /\ local_optimisation_fl left_to_right left_to_right left_to_right argsort X 1 3 2 = Ok c /\
  selection 3 2 c' /\ is_spread (fun x => x) length_of X 2 c s /\ is_spread (fun x => x) length_of X 2 c' s' /\ s < s'.
Proof.
  intros argsort AS.
  assert (Z : 3 / 2 < 3 / 2 + / 33554432) by lra.
  destruct (tied_search argsort AS) as [H|H].
  - exists close_X, [0; 1]%nat, [0; 2]%nat, (3 / 2), (3 / 2 + / 33554432).
    split; [apply close_shape|]. split; [apply close_coarse|]. split.
    { unfold local_optimisation_fl. rewrite (check_input_ok close_X 1 3 1 close_shape) by lia. cbn [bind]. rewrite close_tied. exact H. }
    split; [split; [reflexivity|]; split; [simpl; intros x [<-|[<-|[]]]; lia|repeat constructor]|].
    destruct close_spreads. auto.
  - exists mirror_X, [0; 2]%nat, [0; 1]%nat, (3 / 2), (3 / 2 + / 33554432).
    split; [apply mirror_shape|]. split; [apply mirror_coarse|]. split.
    { unfold local_optimisation_fl. rewrite (check_input_ok mirror_X 1 3 1 mirror_shape) by lia. cbn [bind]. rewrite mirror_tied. exact H. }
    split; [split; [reflexivity|]; split; [simpl; intros x [<-|[<-|[]]]; lia|repeat constructor]|].
    destruct mirror_spreads. auto.
Qed.

Lemma close_distinct : forall a b, (a < b)%nat -> (b < 3)%nat -> block close_X 2 a <> block close_X 2 b.
Proof.
  intros a b A B E. assert (Q : (a = 0 /\ b = 1 \/ a = 0 /\ b = 2 \/ a = 1 /\ b = 2)%nat) by lia.
  destruct Q as [(-> & ->)|[(-> & ->)|(-> & ->)]]; unfold block, close_X in E; cbn [Nat.mul Nat.add skipn firstn] in E; injection E as E _; apply q26_inj in E; lia.
Qed.
Lemma close_local : forall argsort, valid_argsort argsort ->
  local_optimisation_fl left_to_right left_to_right left_to_right argsort close_X 1 3 2 = Ok [0; 1]%nat \/
  local_optimisation_fl left_to_right left_to_right left_to_right argsort close_X 1 3 2 = Ok [0; 2]%nat.
Proof.
  intros argsort AS. unfold local_optimisation_fl. rewrite (check_input_ok close_X 1 3 1 close_shape) by lia. cbn [bind].
  rewrite close_tied. apply tied_search. auto.
Qed.
