(** * Morris: end-to-end statements and worked examples. *)
From Coq Require Import Reals String List Arith ZArith Bool Lia Lra Permutation Sorted.
From Verif Require Import Base Arrays ListFacts ModelGroups ModelScale ProofsScale Stats Sums SpecGroups SpecSobol SpecFF ProofsSobol6
  ProofsGroups ProofsSobol ProofsFF ProofsFF2 ProofsFF3 ModelFast ProofsFast2 ModelMorris ModelMorrisAnalyze SpecMorris
  ProofsMorris1 ProofsMorris2 ProofsMorris3 ProofsMorris4 ProofsMorris5 ProofsMorris6 ProofsMorris7 ProofsMorris8 ProofsMorris9.
Import ListNotations.
Local Open Scope nat_scope.

Theorem linear_pipeline : forall rnd score argsort nq tq chunk p q ls N levels opt local draws p' out (c0 : R) (c : nat -> R)
    conf_level resample,
  morris_problem p ls -> NoDup ls -> 2 <= levels -> valid_draws ls levels draws ->
  valid_argsort argsort -> (forall x, (0 < x)%R -> (0 < rnd x)%R) -> 1 <= chunk -> 0 < N ->
  morris_sample rnd score argsort nq tq chunk p N levels opt local draws = (p', Ok out) ->
  labels_of q ls -> p_num_vars q = p_num_vars p -> (0 < conf_level < 1)%R ->
  (forall n j, valid_resample n (resample n j)) ->
  exists n X r, out = InPlace (mkMat (p_num_vars p) X) /\ 0 < n /\
    snd (morris_analyze nq q (mkMat (p_num_vars p) X)
       (map (fun x => c0 + linear (p_num_vars p) c x)%R X) conf_level false levels (resample n)) = Ok r /\
    m_names r = ls /\
    forall j, j < p_num_vars p ->
      nth_error (m_mu r) j = Some (Some (c j * ranges (p_bounds p) j)%R) /\
      nth_error (m_mu_star r) j = Some (Some (Rabs (c j) * ranges (p_bounds p) j)%R) /\
      (2 <= n -> nth_error (m_sigma r) j = Some (Some 0%R)).
Proof.
  intros rnd score argsort nq tq chunk p q ls N levels opt local draws p' out c0 c conf_level resample
    HP HND Hl Hd HA Hr Hc HN H Hq Hqn Hcl HV.
  destruct (sample_design rnd score argsort nq tq chunk p ls N levels opt local draws p' out HP Hl Hd HA Hr Hc H)
    as (n & X & -> & HX & Hn0 & Hnk).
  assert (Hn : 0 < n).
  { destruct opt as [k|]; [|rewrite Hn0; auto]. destruct (Z.eq_dec k 0) as [->|Hk]; [rewrite Hn0; auto|].
    rewrite (Hnk k eq_refl Hk). destruct Hd as (G & HG & Hdd).
    pose proof (proj1 (morris_sample_optimised rnd score argsort nq tq chunk p ls N levels k local draws G HP HG Hl
      (ex_intro _ G (conj HG Hdd)) HA Hr Hc Hk)) as Hbad. cbv beta zeta in Hbad. rewrite H in Hbad. cbn [snd] in Hbad.
    destruct (Z_lt_ge_dec k 2); [discriminate Hbad; auto|lia]. }
  destruct HP as (Hls & Hlen & Hpos & Lb & HB & _).
  destruct (levels_facts levels Hl) as (_ & _ & Hst).
  destruct (linear_recovered nq q ls (fun j => step levels * ranges (p_bounds p) j)%R n X c0 c conf_level levels (resample n))
    as (r & Er & Hnames & Hj); auto; try lia.
  - intros j Hj. apply Rmult_lt_0_compat; [lra|]. destruct (good_box_nth (p_bounds p) j HB ltac:(lia)) as [_ Hlt].
    unfold ranges. lra.
  - exists n, X, r. split; auto. split; auto. split; [rewrite <- Hqn; exact Er|]. split; auto.
    intros j Hjl. destruct (Hj j ltac:(lia)) as (A & B & C & _). split; [rewrite A; do 2 f_equal; field; lra|].
    split; auto. rewrite B. do 2 f_equal. field. lra.
Qed.

Theorem uneven_accepted : forall nq p ls G X Y conf_level scaled levels resample,
  labels_of p ls -> distinct_count ls G -> length ls = p_num_vars p -> 0 < p_num_vars p -> 2 <= levels ->
  cols X = p_num_vars p -> (0 < conf_level < 1)%R -> length (rows X) = length Y ->
  (G + 1 < length Y < 2 * (G + 1)) \/ (G = 2 /\ length Y = 8) ->
  (length Y) mod (G + 1) <> 0 /\
  exists out, snd (morris_analyze nq p X Y conf_level scaled levels resample) = Ok out.
Proof.
  intros nq p ls G X Y conf_level scaled levels resample H1 H2 H3 H4 H5 H6 H7 H8 Hn.
  pose proof (morris_lengths nq p ls G X Y conf_level scaled levels resample H1 H2 H3 H4 H5 H6 H7) as HL.
  cbv zeta in HL. pose proof (proj2 (proj2 (proj2 HL))) as Hok. clear HL.
  destruct Hn as [Hn|[-> Hn]].
  - split.
    + intros Z. apply Nat.mod_divide in Z; [|lia]. destruct Z as [z Hz]. destruct z as [|[|z]]; nia.
    + apply Hok; [lia|auto|].
      assert (E : length Y / (G + 1) = 1). { symmetry. apply Nat.div_unique with (r := length Y - (G + 1)); lia. }
      rewrite E, Nat.div_1_r. apply Nat.mod_same. lia.
  - split; [rewrite Hn; discriminate|]. apply Hok; [lia|auto|]. rewrite Hn. reflexivity.
Qed.


Lemma brute_scores : forall rnd score chunk X g N k D, trajectories_of N (g + 1) D X -> 1 <= k <= N -> 1 <= chunk ->
  find_most_distant rnd score chunk X g N k
  = Ok (map (combo_score score (distance_matrix rnd X g N false) (combinations 2 (seq 0 k))) (combinations k (seq 0 N))).
Proof.
  intros rnd score chunk X g N k D HX Hk Hc.
  unfold find_most_distant. rewrite (check_input_ok X g N D HX) by lia. cbn [bind].
  set (M := distance_matrix rnd X g N false). set (cs := combinations k (seq 0 N)).
  set (f := combo_score score M (combinations 2 (seq 0 k))).
  assert (Hne : cs <> []).
  { intros E. assert (Q : In (seq 0 k) cs).
    { apply combinations_selection. split; [apply seq_length|]. split.
      - intros x Hx. apply in_seq in Hx. lia.
      - clear. generalize 0. induction k; intros a; simpl; constructor; auto.
        apply Forall_forall. intros x Hx. apply in_seq in Hx. lia. }
    rewrite E in Q. auto. }
  assert (Hpos : 0 < length cs) by (destruct cs; [congruence|simpl; lia]).
  set (ch := if length cs <? chunk then length cs else chunk).
  assert (Hch : 0 < ch) by (unfold ch; destruct (length cs <? chunk); lia).
  destruct (grouper_scores _ _ f 0%R ch Hch (length cs) cs [] 0 (Nat.le_refl _) eq_refl) as [n Hn].
  cbn [app] in Hn. rewrite Hn. reflexivity.
Qed.

Theorem brute_force_chunks : forall rnd score chunk chunk' X g N k D, trajectories_of N (g + 1) D X ->
  1 <= k <= N -> 1 <= chunk -> 1 <= chunk' ->
  brute_force rnd score chunk X g N k = brute_force rnd score chunk' X g N k.
Proof.
  intros rnd score chunk chunk' X g N k D HX Hk Hc Hc'. unfold brute_force.
  rewrite (brute_scores rnd score chunk X g N k D), (brute_scores rnd score chunk' X g N k D) by auto. reflexivity.
Qed.

(** ** Worked examples *)
Definition morris_ex2 : problem := mkProblem 2 ["a"; "b"]%string [[0; 1]; [0; 2]]%R None None false.

Ltac concrete_step :=
  repeat match goal with
    | H : nth_error (?x :: ?l) ?r = Some _ |- _ => destruct r; cbn in H
    | H : nth_error [] ?r = Some _ |- _ => destruct r; discriminate
    | H : Some _ = Some _ |- _ => injection H as <-
    | H : None = Some _ |- _ => discriminate
    end.

Lemma step4 : step 4 = (2 / 3)%R.
Proof. unfold step. replace (INR 4) with 4%R by (simpl; lra). field. Qed.

Example morris_example : exists r,
  snd (morris_analyze (fun _ => 2%R) morris_ex2
    (mkMat 2 [[0; 0]; [2/3; 0]; [2/3; 4/3]; [1; 2]; [1; 2/3]; [1/3; 2/3]]%R)
    [0; 4/3; -8/3; -4; 0; -4/3]%R (1/2) false 4 (fun _ => [[0; 1]; [1; 1]])) = Ok r /\
  map (nth_error (m_mu r)) [0; 1] = [Some (Some 2); Some (Some (-6))]%R /\
  map (nth_error (m_mu_star r)) [0; 1] = [Some (Some 2); Some (Some 6)]%R /\
  map (nth_error (m_sigma r)) [0; 1] = [Some (Some 0); Some (Some 0)]%R.
Proof.
  set (h := fun j => match j with 0 => (2/3)%R | _ => (4/3)%R end).
  set (Ts := [[[0; 0]; [2/3; 0]; [2/3; 4/3]]; [[1; 2]; [1; 2/3]; [1/3; 2/3]]]%R).
  set (c := fun j => match j with 0 => 2%R | _ => (-3)%R end).
  assert (HD : morris_design ["a"; "b"]%string h 2 (concat Ts)).
  { exists Ts. split; auto. split; auto. constructor; [|constructor; [|constructor]].
    - exists ["a"; "b"]%string. split; [repeat constructor; simpl; intuition discriminate|]. split; [tauto|].
      split; auto. split; [repeat constructor|]. intros r x a b Hx Ha Hb.
      destruct r as [|[|r]]; cbn in Hx, Ha, Hb; concrete_step;
        (split; [reflexivity|]; intros [|[|j]] v Hv; cbn in Hv; concrete_step; cbn;
         split; intros Q; try discriminate; try (exfalso; apply Q; reflexivity); try reflexivity;
         try (left; f_equal; unfold h; lra); try (right; f_equal; unfold h; lra)).
    - exists ["b"; "a"]%string. split; [repeat constructor; simpl; intuition discriminate|]. split; [simpl; tauto|].
      split; auto. split; [repeat constructor|]. intros r x a b Hx Ha Hb.
      destruct r as [|[|r]]; cbn in Hx, Ha, Hb; concrete_step;
        (split; [reflexivity|]; intros [|[|j]] v Hv; cbn in Hv; concrete_step; cbn;
         split; intros Q; try discriminate; try (exfalso; apply Q; reflexivity); try reflexivity;
         try (left; f_equal; unfold h; lra); try (right; f_equal; unfold h; lra)). }
  destruct (linear_recovered (fun _ => 2%R) morris_ex2 ["a"; "b"]%string h 2 (concat Ts) 0%R c (1/2)%R 4 (fun _ => [[0; 1]; [1; 1]]))
    as (r & Er & Hn & Hr); cbn [p_num_vars morris_ex2 length]; try lia; auto; try lra.
  - right. auto.
  - repeat constructor; simpl; intuition discriminate.
  - intros j _. unfold h. destruct j; lra.
  - intros j. repeat constructor.
  - exists r. split.
    + rewrite <- Er. f_equal. f_equal.
      cbn -[Rplus Rminus Rmult Rdiv IZR]. unfold linear. cbn -[Rplus Rminus Rmult Rdiv IZR]. unfold Rsum. cbn -[Rplus Rminus Rmult Rdiv IZR].
      repeat (f_equal; try (unfold c; lra)).
    + destruct (Hr 0 ltac:(cbn; lia)) as (A & B & C & _). destruct (Hr 1 ltac:(cbn; lia)) as (A' & B' & C' & _).
      cbn [map]. rewrite A, B, C, A', B', C' by lia. rewrite step4. unfold c, h.
      split; [|split; [|reflexivity]].
      * repeat f_equal; lra.
      * rewrite Rabs_right by lra. rewrite Rabs_left by lra. repeat f_equal; lra.
Qed.

Definition morris_ex3 : problem :=
  mkProblem 3 ["x"; "y"; "z"]%string [[0; 1]; [0; 1]; [0; 1]]%R (Some ["a"; "b"; "a"]%string) None false.

Lemma list2 : forall A (l : list A) a b, length l = 2 -> nth_error l 0 = Some a -> nth_error l 1 = Some b -> l = [a; b].
Proof.
  intros A l a b HL Ha Hb. destruct l as [|x [|y [|z l]]]; try discriminate. cbn in Ha, Hb. congruence.
Qed.

Example morris_group_example : exists r,
  snd (morris_analyze (fun _ => 2%R) morris_ex3
    (mkMat 3 [[2/3; 1; 0]; [2/3; 1/3; 0]; [0; 1/3; 2/3]]%R)
    [2/3; 2/3; 0]%R (1/2) false 4 (fun _ => [[0]; [0]])) = Ok r /\
  m_names r = ["a"; "b"]%string /\
  m_mu r = [Some 0; Some 0]%R /\ m_mu_star r = [Some 1; Some 0]%R /\ m_sigma r = [None; None].
Proof.
  set (ls := ["a"; "b"; "a"]%string).
  set (h := fun _ : nat => (2/3)%R).
  set (T := [[2/3; 1; 0]; [2/3; 1/3; 0]; [0; 1/3; 2/3]]%R).
  set (y := [2/3; 2/3; 0]%R).
  assert (HT : trajectory ls h T).
  { exists ["b"; "a"]%string. split; [repeat constructor; simpl; intuition discriminate|]. split; [simpl; tauto|].
    split; auto. split; [repeat constructor|]. intros r x a b Hx Ha Hb.
    destruct r as [|[|r]]; cbn in Hx, Ha, Hb; concrete_step;
      (split; [reflexivity|]; intros [|[|[|j]]] v Hv; cbn in Hv; concrete_step; cbn;
       split; intros Q; try discriminate; try (exfalso; apply Q; reflexivity); try reflexivity;
       try (left; f_equal; unfold h; lra); try (right; f_equal; unfold h; lra)). }
  destruct (effects_reported (fun _ => 2%R) morris_ex3 ls h [T] [y] (1/2)%R 4 (fun _ => [[0]; [0]]))
    as (E & r & Er & (HF & L1 & L2 & L3 & _ & HS) & He); auto; try lra; cbn [p_num_vars morris_ex3]; try lia.
  - left. do 2 eexists. split; reflexivity.
  - discriminate.
  - split; repeat constructor; auto.
  - intros j _. unfold h. lra.
  - intros j. repeat constructor.
  - exists r. split; [exact Er|].
    assert (Hn : m_names r = ["a"; "b"]%string).
    { apply (first_appearance_unique ls); [apply HF|]. apply (first_appearance_pd_unique ls). }
    rewrite Hn in *. cbn [length] in *.
    assert (E0 : E 0 0 = 1%R).
    { symmetry. apply He; [lia|cbn; lia|]. exists 1. do 2 eexists. split; [reflexivity|]. split; [reflexivity|].
      right. cbn. rewrite step4. split; lra. }
    assert (E1 : E 0 1 = 0%R).
    { symmetry. apply He; [lia|cbn; lia|]. exists 0. do 2 eexists. split; [reflexivity|]. split; [reflexivity|].
      right. cbn. rewrite step4. split; lra. }
    assert (E2 : E 0 2 = (-1)%R).
    { symmetry. apply He; [lia|cbn; lia|]. exists 1. do 2 eexists. split; [reflexivity|]. split; [reflexivity|].
      left. cbn. rewrite step4. split; lra. }
    destruct (HS 0 "a"%string [0; 2] eq_refl) as (A1 & A2 & _ & A4 & _).
    { split; [repeat constructor; simpl; intuition discriminate|]. intros j. destruct j as [|[|[|j]]]; cbn; split; intros Q;
        try discriminate; auto; try (destruct Q as [Q|[Q|[]]]; discriminate). destruct j; discriminate. }
    destruct (HS 1 "b"%string [1] eq_refl) as (B1 & B2 & B3 & B4 & _).
    { split; [repeat constructor; simpl; intuition discriminate|]. intros j. destruct j as [|[|[|j]]]; cbn; split; intros Q;
        try discriminate; auto; try (destruct Q as [Q|[]]; discriminate). destruct j; discriminate. }
    split; auto. split; [|split].
    + apply list2; auto.
      * etransitivity; [exact A1|]. cbn -[Rplus Rmult Rdiv]. rewrite E0, E2. unfold mean. cbn. do 2 f_equal. lra.
      * etransitivity; [exact B1|]. cbn -[Rplus Rmult Rdiv]. rewrite E1. unfold mean. cbn. do 2 f_equal. lra.
    + apply list2; auto.
      * etransitivity; [exact A2|]. cbn -[Rplus Rmult Rdiv Rabs]. rewrite E0, E2, Rabs_R1. rewrite Rabs_left by lra. unfold mean. cbn. do 2 f_equal. lra.
      * etransitivity; [exact B2|]. cbn -[Rplus Rmult Rdiv Rabs]. rewrite E1, Rabs_R0. unfold mean. cbn. do 2 f_equal. lra.
    + apply list2; [exact L3| |].
      * apply A4. cbn. lia.
      * etransitivity; [exact (B3 1 eq_refl)|]. reflexivity.
Qed.

Example brute_example : brute_force (fun x => x) Rsum 2 [[0]; [1]; [0]; [1]; [1]; [0]]%R 1 3 2 = Ok [0; 2].
Proof.
  set (X := [[0]; [1]; [0]; [1]; [1]; [0]]%R).
  unfold brute_force. rewrite (brute_scores _ _ 2 X 1 3 2 1); [|split; [reflexivity|split; [repeat constructor|lia]]|lia|lia].
  cbn [bind].
  set (M := distance_matrix (fun x => x) X 1 3 false).
  assert (A : compute_distance (fun x => x) [[0]; [1]]%R [[0]; [1]]%R = 0%R).
  { unfold compute_distance. rewrite list_all2_refl. auto. }
  assert (B : (0 < compute_distance (fun x => x) [[0]; [1]]%R [[1]; [0]]%R)%R).
  { unfold compute_distance. cbn [list_all2]. rewrite (proj2 (Reqb_false 0 1)) by lra. cbn [andb].
    unfold Rsum, euclid. cbn -[Rplus Rminus Rmult sqrt].
    assert (P : forall z, (0 <= sqrt z)%R) by apply sqrt_pos.
    assert (S1 : (0 < sqrt ((0 - 1) * ((0 - 1) * 1) + 0))%R) by (apply sqrt_lt_R0; lra).
    repeat match goal with |- context [sqrt ?z] =>
       lazymatch goal with H : (0 <= sqrt z)%R |- _ => fail | _ => pose proof (P z); generalize dependent (sqrt z); intros end end.
    lra. }
  cbn -[compute_distance Rsum M].
  unfold combo_score. cbn -[compute_distance Rsum M].
  change (dm_at M 1 0) with (compute_distance (fun x => x) [[0]; [1]]%R [[0]; [1]]%R).
  change (dm_at M 2 0) with (compute_distance (fun x => x) [[0]; [1]]%R [[1]; [0]]%R).
  change (dm_at M 2 1) with (compute_distance (fun x => x) [[0]; [1]]%R [[1]; [0]]%R).
  rewrite A. generalize dependent (compute_distance (fun x => x) [[0]; [1]]%R [[1]; [0]]%R). intros d Hd.
  unfold find_maximum, argmax. cbn -[Rplus Rsum].
  rewrite (proj2 (Rltb_true (Rsum [0%R]) (Rsum [d]))) by (cbn; lra).
  rewrite (proj2 (Rltb_false (Rsum [d]) (Rsum [d]))) by lra. reflexivity.
Qed.

Ltac rows := repeat match goal with |- _ :: _ = _ :: _ => f_equal | |- [] = [] => reflexivity end.
