(** * Repeated rows at the start of the Sobol' sequence. *)
From Coq Require Import Reals List Arith NArith ZArith Bool Lia Lra.
From Verif Require Import Base Arrays ListFacts ModelGroups SpecGroups ModelScale ModelSobol SpecSobol ModelSobolSeq SpecSobolSeq ProofsSobolSeq ProofsSobolSeq2
  ProofsSobol ProofsSobol6 ModelWarnings.
Import ListNotations.
Local Open Scope nat_scope.

Lemma dir_one : forall v, dir 1 v -> v = (2 ^ 30)%N.
Proof.
  intros v (T & F). apply N.bits_inj. intros b. rewrite N.pow2_bits_eqb. change (31 - N.of_nat 1)%N with 30%N in *.
  destruct (N.eqb_spec 30 b) as [<-|NE]; auto. apply F. lia.
Qed.

Lemma map_const : forall A B (f : A -> B) c l, (forall x, In x l -> f x = c) -> map f l = repeat c (length l).
Proof. induction l as [|x l IH]; intros H; simpl; auto. rewrite H by (left; auto). f_equal. apply IH. intros. apply H. right; auto. Qed.

Lemma second_row : forall table N D bits rs, Forall good_row table -> enough_bits bits N -> sequence_sample bits table N D = Ok rs -> 2 <= N ->
  nth_error rs 1 = Some (repeat (/ 2)%R D).
Proof.
  intros table N D bits rs HT HB H N2. destruct (sequence_columns table N D bits rs HT HB H) as (H1 & H2 & H3 & Vs & HV & ->).
  unfold tab. rewrite nth_error_map_seq, (proj2 (Nat.ltb_lt 1 N)) by lia. f_equal.
  rewrite (map_const _ _ _ (/ 2)%R), seq_length; auto. intros c Hc. apply in_seq in Hc.
  assert (B1 : 1 <= bits N). { unfold enough_bits in HB. destruct (bits N); [simpl in HB; lia|lia]. }
  destruct (HV c ltac:(lia)) as (L & F). destruct (F 1 ltac:(lia)) as (v & E & D1). apply dir_one in D1. subst v.
  change (0 + 1) with 1. cbn [point N.of_nat lsz]. rewrite (nth_error_nth _ _ _ E), N.lxor_0_l. unfold to_unit.
  change (IZR (Z.of_N (2 ^ 30))) with (IZR 1073741824). simpl. lra.
Qed.

(** The points 0 and 1. *)
Lemma early_rows : forall N D bits rs s, enough_bits bits N -> sequence_sample bits directions N D = Ok rs -> s <= 1 -> s < N ->
  nth_error rs s = Some (repeat (INR s / 2)%R D).
Proof.
  intros N D bits rs s HB H S1 SN. destruct s as [|[|s]]; [| |lia].
  - destruct (sequence_range directions N D bits rs directions_good HB H) as (_ & _ & E). rewrite E. simpl. do 2 f_equal. lra.
  - rewrite (second_row directions N D bits rs directions_good HB H ltac:(lia)). simpl. do 2 f_equal. lra.
Qed.

Lemma physical_unique : forall bounds a x y, length bounds = length a -> good_box bounds -> physical bounds a x -> physical bounds a y -> x = y.
Proof.
  intros bounds a x y L G (Lx & X) (Ly & Y). apply nth_error_ext'. intros j.
  destruct (nth_error a j) as [v|] eqn:E.
  - destruct (nth_error bounds j) as [b|] eqn:EB.
    + unfold good_box in G. rewrite Forall_forall in G. destruct (G b (nth_error_In _ _ EB)) as (lo & up & -> & _).
      rewrite (X j v lo up E EB), (Y j v lo up E EB). auto.
    + apply nth_error_None in EB. apply nth_error_Some_lt in E. lia.
  - apply nth_error_None in E. rewrite !(proj2 (nth_error_None _ _)) by lia. auto.
Qed.

Lemma replaced_same : forall p G k (a r : list R), labelled p -> group_count p G -> k < G -> length a = p_num_vars p -> replaced (in_group p k) a a r -> r = a.
Proof.
  intros p G k a r HL HG K La (L & H). apply nth_error_ext'. intros j.
  destruct (sampler_groups_ok p) as (G' & names & E & HG' & _). assert (G' = G) by (eapply group_count_fun; eauto). subst G'.
  destruct (Nat.ltb_spec j (p_num_vars p)) as [Q|Q].
  - destruct (takes_other_spec p G names k j HL E K Q) as ([|] & _ & T).
    + apply (proj1 (H j)). apply T. auto.
    + apply (proj2 (H j)). intros W. apply T in W. discriminate.
  - rewrite !(proj2 (nth_error_None _ _)) by lia. auto.
Qed.

Lemma one_block : forall p G second (a : list R) row, labelled p -> group_count p G -> length a = p_num_vars p -> saltelli_block p G second a a row ->
  forall t, t < block_size G second -> row t = Some a.
Proof.
  intros p G second a row HL HG La (A & B & C & D) t T.
  destruct (Nat.eq_dec t 0) as [->|]; auto. destruct (Nat.eq_dec t (block_size G second - 1)) as [->|]; auto.
  destruct (Nat.leb_spec t G).
  - destruct (C (t - 1) ltac:(lia)) as (r & E & F). replace (1 + (t - 1)) with t in E by lia.
    rewrite E. f_equal. apply (replaced_same p G (t - 1)); auto. lia.
  - destruct second; unfold block_size in *; [|lia].
    destruct (D eq_refl (t - 1 - G) ltac:(lia)) as (r & E & F). replace (1 + G + (t - 1 - G)) with t in E by lia.
    rewrite E. f_equal. apply (replaced_same p G (t - 1 - G)); auto. lia.
Qed.

Lemma duplicates : forall nq tq bits p N second z rs, (0 <= z <= 1)%Z -> 0 < N -> enough_bits bits (N + Z.to_nat z) ->
  sequence_sample bits directions (N + Z.to_nat z) (2 * p_num_vars p) = Ok rs ->
  labelled p -> p_dists p = None -> 0 < p_num_vars p -> length (p_bounds p) = p_num_vars p -> good_box (p_bounds p) ->
  exists p' m G r, saltelli_sample nq tq (drawn_sequence bits directions (p_num_vars p)) p N second (Some z) = (p', Ok (InPlace m)) /\
    group_count p G /\ length (rows m) = N * block_size G second /\
    (forall t, t < block_size G second -> nth_error (rows m) t = Some r) /\
    (forall j lo up, nth_error (p_bounds p) j = Some [lo; up] -> nth_error r j = Some (lo + IZR z / 2 * (up - lo))%R).
Proof.
  intros nq tq bits p N second z rs Z1 N1 HB E HL Hd Hn HBl HBx.
  assert (SK : saltelli_skip N (Some z) = Ok (Z.to_nat z)).
  { unfold saltelli_skip. rewrite (proj2 (Z.ltb_ge z 0)) by lia. destruct N; [lia|]. cbn [Nat.eqb]. rewrite ?andb_false_r. auto. }
  destruct (sequence_range directions _ _ bits rs directions_good HB E) as (LR & FR & _).
  destruct (saltelli_public nq tq (drawn_sequence bits directions (p_num_vars p)) p N second (Some z) (Z.to_nat z) SK HL Hd Hn HBl HBx)
    as (p' & m & G & S & HG & LM & _ & BL).
  { intros i Hi. apply in_seq in Hi. unfold drawn_sequence. rewrite E.
    destruct (nth_error_lt_Some rs (i := i)) as (b & Eb); [lia|]. exists b. split; auto.
    rewrite Forall_forall in FR. apply (FR b). eapply nth_error_In; eauto. }
  set (c := (INR (Z.to_nat z) / 2)%R) in *.
  assert (CZ : c = (IZR z / 2)%R) by (unfold c; rewrite INR_IZR_INZ, Z2Nat.id by lia; auto).
  pose proof (early_rows _ _ bits rs (Z.to_nat z) HB E ltac:(lia) ltac:(lia)) as ER. fold c in ER.
  replace (2 * p_num_vars p) with (p_num_vars p + p_num_vars p) in ER by lia. rewrite repeat_app in ER.
  destruct (BL 0 (repeat c (p_num_vars p)) (repeat c (p_num_vars p))) as (a & b & PA & PB & SB); auto.
  { unfold drawn_sequence. rewrite E, Nat.add_0_r. exact ER. }
  { apply repeat_length. }
  { apply repeat_length. }
  assert (AB : a = b). { eapply physical_unique; eauto. rewrite repeat_length. auto. }
  subst b. assert (La : length a = p_num_vars p) by (rewrite (proj1 PA); apply repeat_length).
  exists p', m, G, a. split; auto. split; auto. split; auto. split.
  - intros t T. pose proof (one_block p G second a _ HL HG La SB t T) as Q. cbv beta in Q. rewrite (proj2 (Nat.ltb_lt _ _) T) in Q. exact Q.
  - intros j lo up J. rewrite <- CZ. apply (proj2 PA j); auto. rewrite nth_error_repeat.
    apply nth_error_Some_lt in J. rewrite (proj2 (Nat.ltb_lt _ _)) by lia. auto.
Qed.
