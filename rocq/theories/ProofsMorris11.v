(** * Morris trajectories level by level. *)
From Coq Require Import Reals String List Arith ZArith Bool Lia Lra Permutation.
From Verif Require Import Base Arrays ListFacts ModelGroups ModelScale Stats Sums SpecGroups SpecSobol SpecFF
  ProofsGroups ProofsSobol6 ProofsFF2 ModelMorris SpecMorris SpecExpect SpecMorris2 ProofsMorris1 ProofsMorris2.
Import ListNotations.
Local Open Scope nat_scope.

(** The level of parameter [j] in row [i]. *)
Definition level (n : nat) (d : draw) (grp : nat -> nat) (i j : nat) : nat :=
  t_start d j + if Bool.eqb (nth (grp j) (t_perm d) 0 <? i) (t_up d j) then n else 0.
Definition level_row (n D : nat) (d : draw) (grp : nat -> nat) (i : nat) : list nat := map (level n d grp i) (seq 0 D).
Definition level_traj (bounds : list (list R)) (n G : nat) (d : draw) (grp : nat -> nat) : list (list R) :=
  map (fun i => grid_point bounds (2 * n) (level_row n (length bounds) d grp i)) (seq 0 (G + 1)).

(** The group of each parameter. *)
Definition grouping (ls : list string) (grp : nat -> nat) : Prop :=
  forall j, j < length ls -> grp_is ls j (grp j) /\ grp j < length (pd_unique ls).

Lemma grp_unique : forall ls j k k', grp_is ls j k -> grp_is ls j k' -> k = k'.
Proof.
  intros ls j k k' (x & H1 & H2) (y & H3 & H4). rewrite H1 in H3. injection H3 as <-.
  apply (proj1 (NoDup_nth_error (pd_unique ls)) (pd_unique_NoDup ls)); [eapply nth_error_Some_lt; eauto|congruence].
Qed.

Lemma grouping_ex : forall ls, exists grp, grouping ls grp.
Proof.
  intros ls. unfold grouping.
  assert (H : forall n, n <= length ls -> exists grp, forall j, j < n -> grp_is ls j (grp j) /\ grp j < length (pd_unique ls)).
  { induction n as [|n IH]; intros L; [exists (fun _ => 0); intros; lia|]. destruct IH as (grp & Hg); [lia|].
    destruct (grp_exists ls n ltac:(lia)) as (k & K1 & K2). exists (fun j => if j =? n then k else grp j). intros j J.
    destruct (Nat.eqb_spec j n) as [->|Q]; [auto|apply Hg; lia]. }
  apply H. lia.
Qed.

Lemma point_level : forall n d grp i j, 1 <= n -> t_start d j < n ->
  traj_point (2 * n) (t_perm d) d grp i j = (INR (level n d grp i j) / (INR (2 * n) - 1))%R.
Proof.
  intros n d grp i j N S. unfold traj_point, level. rewrite grid_even by auto.
  assert (Q : (INR (2 * n) - 1 > 0)%R) by (destruct (levels_facts (2 * n)) as (_ & Q & _); [lia|exact Q]).
  destruct (Bool.eqb _ _).
  - unfold step. rewrite plus_INR. rewrite mult_INR in *. simpl (INR 2) in *. field. lra.
  - rewrite Nat.add_0_r. ring.
Qed.

Lemma physical_levels : forall bounds v n d grp i, scaler bounds v -> 1 <= n -> (forall j, t_start d j < n) ->
  to_physical v (map (traj_point (2 * n) (t_perm d) d grp i) (seq 0 (length bounds)))
  = grid_point bounds (2 * n) (level_row n (length bounds) d grp i).
Proof.
  intros bounds v n d grp i (Lv & Hv) N S. apply nth_error_ext'. intros j. rewrite to_physical_nth. unfold grid_point. rewrite !nth_error_map_seq.
  destruct (Nat.ltb_spec j (length bounds)) as [J|J].
  - rewrite (Hv j J). f_equal. rewrite point_level by auto. unfold level_row, ranges.
    rewrite (nth_error_nth (map (level n d grp i) (seq 0 (length bounds))) j 0 (x := level n d grp i j)).
    + ring.
    + rewrite nth_error_map_seq. apply Nat.ltb_lt in J. rewrite J. reflexivity.
  - reflexivity.
Qed.

(** The whole sample. *)
Lemma sample_levels : forall rnd score argsort nq tq chunk p ls grp n N opt local draws,
  morris_problem p ls -> 1 <= n -> valid_draws ls (2 * n) draws -> opt = None \/ opt = Some 0%Z -> grouping ls grp ->
  exists p', morris_sample rnd score argsort nq tq chunk p N (2 * n) opt local draws
    = (p', Ok (InPlace (mkMat (p_num_vars p) (concat (map (fun t => level_traj (p_bounds p) n (length (pd_unique ls)) (draws t) grp) (seq 0 N)))))).
Proof.
  intros rnd score argsort nq tq chunk p ls grp n N opt local draws HP Hn Hd Ho Hg.
  destruct (morris_sample_plain rnd score argsort nq tq chunk p ls N (2 * n) opt local draws HP ltac:(lia) Hd Ho)
    as (p' & v & Ts & Hv & ES & LT & _ & _ & EX).
  exists p'. rewrite EX. do 4 f_equal. 
  destruct HP as (Hls & HL & Hp & HB & _ & _).
  unfold sample_morris in ES. destruct (compute_groups_matrix_total ls) as [m Hm]. rewrite Hm in ES. cbn [bind fst snd] in ES.
  destruct Hd as (G & HG & Hd). apply distinct_count_unique in HG.
  assert (E2 : 2 * n / 2 = n) by (rewrite Nat.mul_comm; apply Nat.div_mul; lia).
  rewrite (@mapM_ext nat (list (list R)) _ (fun t => Ok (tab (length (pd_unique ls) + 1) (length ls) (traj_point (2 * n) (t_perm (draws t)) (draws t) grp)))) in ES.
  2: { intros t _. destruct (generate_trajectory_eq ls m (pd_unique ls) (2 * n) (draws t) ltac:(lia) Hm) as (grp' & Hg' & E).
       { rewrite <- HG. apply Hd. }
       rewrite E. f_equal. apply tab_ext. intros i j Hi Hj. unfold traj_point. rewrite (grp_unique ls j (grp' j) (grp j)); [reflexivity|apply Hg'; auto|apply Hg; auto]. }
  rewrite mapM_Ok_map in ES. cbn [bind] in ES. injection ES as <-. rewrite concat_map, map_map. f_equal. apply map_ext_in. intros t _.
  unfold tab, level_traj. rewrite map_map. apply map_ext_in. intros i _. rewrite HL, <- HB. apply physical_levels; auto.
  intros j. rewrite <- E2. apply Hd.
Qed.

(** Rows are determined by levels. *)
Lemma grid_point_inj : forall bounds levels z z', good_box bounds -> 2 <= levels -> length z = length bounds -> length z' = length bounds ->
  grid_point bounds levels z = grid_point bounds levels z' -> z = z'.
Proof.
  intros bounds levels z z' HB HL Lz Lz' E. apply nth_error_ext'. intros j.
  destruct (Nat.lt_ge_cases j (length bounds)) as [J|J]; [|rewrite !(proj2 (nth_error_None _ _)) by lia; auto].
  apply (f_equal (fun l => nth_error l j)) in E. unfold grid_point in E. rewrite !nth_error_map_seq in E. assert (JB := J). apply Nat.ltb_lt in JB. rewrite JB in E.
  injection E as E. destruct (good_box_nth bounds j HB J) as [_ Hlt]. fold (lower bounds j) (upper bounds j) in Hlt.
  destruct (levels_facts levels HL) as (_ & Q & _).
  assert (E' : (INR (nth j z 0%nat) = INR (nth j z' 0%nat))%R).
  { unfold ranges in E. apply Rplus_eq_reg_l in E. apply Rmult_eq_reg_r in E; [|lra]. unfold Rdiv in E. apply Rmult_eq_reg_r in E; [exact E|]. apply Rinv_neq_0_compat. lra. }
  apply INR_eq in E'. rewrite (nth_error_nth' z 0) by lia. rewrite (nth_error_nth' z' 0) by lia. congruence.
Qed.

Lemma concat_block : forall A (F : nat -> list A) w N t r, (forall t, length (F t) = w) -> t < N -> r < w ->
  nth_error (concat (map F (seq 0 N))) (t * w + r) = nth_error (F t) r.
Proof.
  intros A F w N t r HF. revert F HF t. induction N as [|N IH]; intros F HF t T R; [lia|]. cbn [seq map concat].
  destruct t as [|t].
  - rewrite nth_error_app1 by (rewrite HF; lia). f_equal.
  - rewrite nth_error_app2 by (rewrite HF; lia). rewrite HF. replace (S t * w + r - w) with (t * w + r) by lia.
    rewrite <- seq_shift, map_map. apply (IH (fun t => F (S t))); [intros; apply HF|lia|lia].
Qed.

Lemma level_traj_length : forall bounds n G d grp, length (level_traj bounds n G d grp) = G + 1.
Proof. intros. unfold level_traj. rewrite map_length, seq_length. reflexivity. Qed.
Lemma level_traj_nth : forall bounds n G d grp i, i <= G ->
  nth_error (level_traj bounds n G d grp) i = Some (grid_point bounds (2 * n) (level_row n (length bounds) d grp i)).
Proof. intros. unfold level_traj. rewrite nth_error_map_seq. destruct (Nat.ltb_spec i (G + 1)); [reflexivity|lia]. Qed.

(** Every row of a trajectory, for a given order: each grid point comes from one choice. *)
Theorem point_choice : forall p ls G n order r z,
  morris_problem p ls -> distinct_count ls G -> 1 <= n -> Permutation order (seq 0 G) -> r <= G -> on_levels (p_num_vars p) (2 * n) z ->
  exists up start, (forall j, start j < n) /\
    forall rnd score argsort nq tq chunk N opt local draws t p' X,
      valid_draws ls (2 * n) draws -> opt = None \/ opt = Some 0%Z -> t < N -> t_perm (draws t) = order ->
      morris_sample rnd score argsort nq tq chunk p N (2 * n) opt local draws = (p', Ok (InPlace X)) ->
      (nth_error (rows X) (t * (G + 1) + r) = Some (grid_point (p_bounds p) (2 * n) z) <->
       forall j, j < p_num_vars p -> t_up (draws t) j = up j /\ t_start (draws t) j = start j).
Proof.
  intros p ls G n order r z HP HG Hn HO HR (Lz & Hz). assert (HG' := distinct_count_unique _ _ HG).
  destruct (grouping_ex ls) as (grp & Hg). assert (HP' := HP). destruct HP' as (Hls & HL & Hp & HB & HGB & _).
  assert (Z : forall j, nth j z 0 < 2 * n).
  { intros j. destruct (Nat.lt_ge_cases j (length z)) as [J|J]; [apply Hz, nth_In; auto|rewrite nth_overflow by lia; lia]. }
  exists (fun j => Bool.eqb (nth (grp j) order 0 <? r) (n <=? nth j z 0)), (fun j => if n <=? nth j z 0 then nth j z 0 - n else nth j z 0).
  split. { intros j. specialize (Z j). destruct (Nat.leb_spec n (nth j z 0)); lia. }
  intros rnd score argsort nq tq chunk N opt local draws t p' X Hd Ho HT Et ES.
  destruct (sample_levels rnd score argsort nq tq chunk p ls grp n N opt local draws HP Hn Hd Ho Hg) as (q & EX).
  rewrite EX in ES. injection ES as _ <-. cbn [rows]. rewrite <- HG'.
  rewrite (concat_block _ (fun t => level_traj (p_bounds p) n G (draws t) grp) (G + 1) N t r) by (lia || (intros; apply level_traj_length)).
  rewrite level_traj_nth by lia.
  assert (E2 : 2 * n / 2 = n) by (rewrite Nat.mul_comm; apply Nat.div_mul; lia).
  destruct Hd as (G0 & _ & Hd). destruct (Hd t) as (_ & Hs). rewrite E2 in Hs.
  assert (LV : forall j, level n (draws t) grp r j = nth j z 0 <->
     t_up (draws t) j = Bool.eqb (nth (grp j) order 0 <? r) (n <=? nth j z 0) /\
     t_start (draws t) j = if n <=? nth j z 0 then nth j z 0 - n else nth j z 0).
  { intros j. unfold level. rewrite Et. specialize (Hs j). specialize (Z j). set (c := nth j z 0) in *. set (s := t_start (draws t) j) in *.
    destruct (nth (grp j) order 0 <? r), (t_up (draws t) j), (Nat.leb_spec n c); cbn [Bool.eqb];
      (split; [intros E; split; first [reflexivity | lia | exfalso; lia] | intros (E1 & E3); first [discriminate | lia]]). }
  split.
  - intros E. injection E as E. apply grid_point_inj in E; [|auto|lia| |lia].
    + intros j J. apply LV. rewrite <- E. symmetry. apply nth_error_nth. unfold level_row. rewrite nth_error_map_seq.
      rewrite HB. apply Nat.ltb_lt in J. rewrite J. reflexivity.
    + unfold level_row. rewrite map_length, seq_length. reflexivity.
  - intros H. do 2 f_equal. apply nth_error_ext'. intros j. unfold level_row. rewrite nth_error_map_seq, HB. destruct (Nat.ltb_spec j (p_num_vars p)) as [J|J].
    + rewrite (nth_error_nth' z 0) by lia. f_equal. apply LV, H, J.
    + symmetry. apply nth_error_None. lia.
Qed.
