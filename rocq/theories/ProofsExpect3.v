(** * The expected Sobol' terms. *)
From Coq Require Import Reals String List Arith Bool Lia Lra.
From Verif Require Import Base Arrays ModelGroups ModelScale Stats ModelSobol SpecGroups SpecSobol ProofsSobol ProofsSobol2 ProofsSobol3 ProofsSobol4 ProofsSobol5 ProofsSobol6 ProofsSobol7 SpecExpect SpecExpect2 ProofsExpect ProofsExpect2.
Import ListNotations.
Local Open Scope R_scope.

Section Terms.
Context {A : Type}.
Variables (zero : A) (p : problem) (G : nat) (second : bool) (f : list A -> R) (u : nat -> nat -> bool) (ds : list (@law A)).
Let D := p_num_vars p.
Let step := block_size G second.
Hypothesis HL : labelled p.
Hypothesis HG : group_count p G.
Hypothesis HU : forall k j, (k < G)%nat -> (j < D)%nat -> (u k j = true <-> in_group p k j).
Hypothesis HD : length ds = D.
Hypothesis HP : Forall probability ds.

Let bo := block_out p G second f u.

Lemma HPP : Forall probability (ds ++ ds).
Proof. apply Forall_app. split; assumption. Qed.

(** One base point is a pair of independent points. *)
Lemma expect_pair : forall K : list A -> list A -> R, expect (ds ++ ds) (fun x => K (firstn D x) (skipn D x)) = expect2 ds K.
Proof.
  intros K. rewrite expect_app. unfold expect2. apply expect_ext. intros a La. apply expect_ext. intros b Lb.
  rewrite <- HD, <- La. rewrite firstn_app, firstn_all, Nat.sub_diag, firstn_O, app_nil_r, skipn_app, skipn_all, Nat.sub_diag. reflexivity.
Qed.

Lemma bo_a : forall x, bo x 0 = f (firstn D x).
Proof. reflexivity. Qed.
Lemma bo_ab : forall x k, (k < G)%nat -> bo x (1 + k) = f (mix (u k) (skipn D x) (firstn D x)).
Proof.
  intros x k K. unfold bo, block_out. destruct (Nat.eqb_spec (1 + k) 0); [lia|]. destruct (Nat.leb_spec (1 + k) G); [|lia].
  replace (1 + k - 1)%nat with k by lia. reflexivity.
Qed.
Lemma bo_b : forall x, bo x (step - 1) = f (skipn D x).
Proof.
  intros x. unfold bo, block_out. fold step. assert (G < step - 1)%nat by (unfold step, block_size; destruct second; lia).
  destruct (Nat.eqb_spec (step - 1) 0); [lia|]. destruct (Nat.leb_spec (step - 1) G); [lia|]. rewrite Nat.eqb_refl. reflexivity.
Qed.
Lemma bo_ba : forall x k, second = true -> (k < G)%nat -> bo x (1 + G + k) = f (mix (u k) (firstn D x) (skipn D x)).
Proof.
  intros x k T K. unfold bo, block_out. destruct (Nat.eqb_spec (1 + G + k) 0); [lia|]. destruct (Nat.leb_spec (1 + G + k) G); [lia|].
  destruct (Nat.eqb_spec (1 + G + k) (block_size G second - 1)); [unfold block_size in *; rewrite T in *; lia|].
  replace (1 + G + k - 1 - G)%nat with k by lia. reflexivity.
Qed.

Lemma shaped_base : forall N base, shaped N (ds ++ ds) base -> length base = N /\ Forall (fun x => length x = (2 * D)%nat) base.
Proof. intros N base (L & F). split; [assumption|]. revert F. apply Forall_impl. intros x H. rewrite H, app_length. lia. Qed.

(** A mean over the base points of terms of the outputs of each. *)
Lemma term_points : forall N (T : (nat -> R) -> R) base, shaped N (ds ++ ds) base ->
  (forall g h, (forall o, (o < step)%nat -> g o = h o) -> T g = T h) ->
  mean (map (fun i => T (out (outputs zero p second f N base) G second i)) (seq 0 N)) = mean (map (fun x => T (bo x)) base).
Proof.
  intros N T base SH HT. destruct (shaped_base N base SH) as (L & F).
  destruct (design_out p G second f u HL HG HU zero N base L F) as (rows & E & Lr & O).
  unfold outputs. rewrite E. f_equal. rewrite <- (map_nth_base A R (fun x => T (bo x)) N base L). apply map_ext_in. intros i I.
  apply in_seq in I. apply HT. intros o Ho. apply O; [lia|assumption].
Qed.
Lemma mean_points : forall N base, (0 < N)%nat -> shaped N (ds ++ ds) base ->
  mean (outputs zero p second f N base) = mean (map (block_mean p G second f u) base).
Proof.
  intros N base N0 SH. destruct (shaped_base N base SH) as (L & F).
  destruct (design_out p G second f u HL HG HU zero N base L F) as (rows & E & Lr & O).
  unfold outputs. rewrite E. eapply design_mean; eassumption.
Qed.

Lemma step_facts : (0 < step)%nat /\ (step - 1 < step)%nat /\ (forall k, (k < G)%nat -> (1 + k < step)%nat) /\ (second = true -> forall k, (k < G)%nat -> (1 + G + k < step)%nat).
Proof.
  unfold step, block_size. destruct second; repeat split; intros; try lia.
Qed.

(** ** First order *)
Lemma expected_first : forall N c k, (0 < N)%nat -> (k < G)%nat ->
  expect_points N (ds ++ ds) (fun base => first_term (outputs zero p second f N base) G second N c k) = closed_effect ds f (u k).
Proof.
  intros N c k N0 K. destruct step_facts as (S0 & S1 & S2 & _).
  rewrite (points_ext N (ds ++ ds) _ (fun base => mean (map (fun x => (bo x (step - 1) - c) * (bo x (1 + k)%nat - bo x 0%nat)) base))).
  - rewrite points_mean by (exact HPP || assumption). rewrite <- (first_identity ds f (u k) c HP), <- expect_pair. apply expect_ext. intros x _.
    rewrite bo_a, bo_ab, bo_b by assumption. reflexivity.
  - intros base SH. unfold first_term. apply (term_points N (fun g => (g (step - 1)%nat - c) * (g (1 + k)%nat - g 0%nat)) base SH).
    intros g h E. rewrite !E by (first [assumption | apply S2; assumption]). reflexivity.
Qed.
Lemma expected_first_centred : forall k, (k < G)%nat -> exists C, forall N, (0 < N)%nat ->
  expect_points N (ds ++ ds) (fun base => let Y := outputs zero p second f N base in first_term Y G second N (mean Y) k) = closed_effect ds f (u k) + C / INR N.
Proof.
  intros k K. destruct step_facts as (S0 & S1 & S2 & _).
  exists (- expect (ds ++ ds) (fun x => block_mean p G second f u x * (bo x (1 + k)%nat - bo x 0%nat))). intros N N0. cbv zeta.
  assert (n0 : INR N <> 0) by (apply not_0_INR; lia).
  rewrite (points_ext N (ds ++ ds) _ (fun base => mean (map (fun x => bo x (step - 1) * (bo x (1 + k)%nat - bo x 0%nat)
     - mean (map (block_mean p G second f u) base) * (bo x (1 + k)%nat - bo x 0%nat)) base))).
  - rewrite points_centred; [|exact HPP|assumption|].
    + rewrite <- (first_identity ds f (u k) 0 HP), <- expect_pair. unfold Rdiv. rewrite Ropp_mult_distr_l_reverse. unfold Rminus at 1. f_equal. apply expect_ext. intros x _.
      rewrite bo_a, bo_ab, bo_b by assumption. ring.
    + rewrite (expect_ext _ _ (fun x => f (mix (u k) (skipn D x) (firstn D x)) - f (firstn D x))) by (intros; rewrite bo_ab by assumption; reflexivity).
      rewrite (expect_pair (fun a b => f (mix (u k) b a) - f a)), expect2_minus, expect2_swap, expect2_mix, expect2_fst by assumption. ring.
  - intros base SH. rewrite (mean_points N base N0 SH). set (m := mean (map _ base)).
    rewrite (map_ext (fun x => bo x (step - 1) * (bo x (1 + k)%nat - bo x 0%nat) - m * (bo x (1 + k)%nat - bo x 0%nat)) (fun x => (bo x (step - 1) - m) * (bo x (1 + k)%nat - bo x 0%nat))) by (intros; ring).
    unfold first_term. apply (term_points N (fun g => (g (step - 1)%nat - m) * (g (1 + k)%nat - g 0%nat)) base SH).
    intros g h E. rewrite !E by (first [assumption | apply S2; assumption]). reflexivity.
Qed.

(** ** Total order *)
Lemma expected_total : forall N k, (0 < N)%nat -> (k < G)%nat ->
  expect_points N (ds ++ ds) (fun base => total_term (outputs zero p second f N base) G second N k) = total_effect ds f (u k).
Proof.
  intros N k N0 K. destruct step_facts as (S0 & S1 & S2 & _).
  rewrite (points_ext N (ds ++ ds) _ (fun base => / 2 * mean (map (fun x => (bo x 0%nat - bo x (1 + k)%nat) ^ 2) base))).
  - rewrite points_scal, points_mean by (exact HPP || assumption).
    rewrite (expect_ext _ _ (fun x => (f (firstn D x) - f (mix (u k) (skipn D x) (firstn D x))) ^ 2)) by (intros; rewrite bo_ab by assumption; reflexivity).
    rewrite (expect_pair (fun a b => (f a - f (mix (u k) b a)) ^ 2)), total_identity by assumption. field.
  - intros base SH. unfold total_term. rewrite (term_points N (fun g => (g 0%nat - g (1 + k)%nat) ^ 2) base SH).
    + unfold Rdiv. apply Rmult_comm.
    + intros g h E. rewrite !E by (first [assumption | apply S2; assumption]). reflexivity.
Qed.

(** ** Second order *)
Hypothesis HX : forall j k i, j <> k -> u j i = true -> u k i = false.

Lemma expected_pair : forall N c j k, second = true -> (0 < N)%nat -> (j < G)%nat -> (k < G)%nat -> j <> k ->
  expect_points N (ds ++ ds) (fun base => pair_term (outputs zero p second f N base) G second N c j k) = closed_effect ds f (fun i => u j i || u k i).
Proof.
  intros N c j k T N0 J K JK. destruct step_facts as (S0 & S1 & S2 & S3). specialize (S3 T).
  rewrite (points_ext N (ds ++ ds) _ (fun base => mean (map (fun x => (bo x (1 + G + j)%nat - c) * (bo x (1 + k)%nat - c) - (bo x 0%nat - c) * (bo x (step - 1)%nat - c)) base))).
  - rewrite points_mean by (exact HPP || assumption). rewrite <- (second_identity ds f (u j) (u k) c HP) by (intros i; apply HX; assumption).
    rewrite <- expect_pair. apply expect_ext. intros x _. rewrite bo_a, bo_ab, bo_b, bo_ba by assumption. reflexivity.
  - intros base SH. unfold pair_term.
    apply (term_points N (fun g => (g (1 + G + j)%nat - c) * (g (1 + k)%nat - c) - (g 0%nat - c) * (g (step - 1)%nat - c)) base SH).
    intros g h E. rewrite !E by (first [assumption | apply S3; assumption | apply S2; assumption]). reflexivity.
Qed.
Lemma expected_pair_centred : forall j k, second = true -> (j < G)%nat -> (k < G)%nat -> j <> k -> exists C, forall N, (0 < N)%nat ->
  expect_points N (ds ++ ds) (fun base => let Y := outputs zero p second f N base in pair_term Y G second N (mean Y) j k)
  = closed_effect ds f (fun i => u j i || u k i) + C / INR N.
Proof.
  intros j k T J K JK. destruct step_facts as (S0 & S1 & S2 & S3). specialize (S3 T).
  set (d := fun x => bo x (1 + G + j)%nat + bo x (1 + k)%nat - bo x 0%nat - bo x (step - 1)%nat).
  exists (- expect (ds ++ ds) (fun x => block_mean p G second f u x * d x)). intros N N0. cbv zeta.
  assert (n0 : INR N <> 0) by (apply not_0_INR; lia).
  rewrite (points_ext N (ds ++ ds) _ (fun base => mean (map (fun x => (bo x (1 + G + j)%nat * bo x (1 + k)%nat - bo x 0%nat * bo x (step - 1)%nat)
     - mean (map (block_mean p G second f u) base) * d x) base))).
  - rewrite points_centred; [|exact HPP|assumption|].
    + rewrite <- (second_identity ds f (u j) (u k) 0 HP) by (intros i; apply HX; assumption). rewrite <- expect_pair.
      unfold Rdiv. rewrite Ropp_mult_distr_l_reverse. unfold Rminus at 1. f_equal. apply expect_ext. intros x _.
      rewrite bo_a, bo_ab, bo_b, bo_ba by assumption. ring.
    + rewrite (expect_ext _ _ (fun x => f (mix (u j) (firstn D x) (skipn D x)) + f (mix (u k) (skipn D x) (firstn D x)) - f (firstn D x) - f (skipn D x)))
        by (intros; unfold d; rewrite bo_ab, bo_b, bo_ba by assumption; reflexivity).
      rewrite (expect_pair (fun a b => f (mix (u j) a b) + f (mix (u k) b a) - f a - f b)).
      rewrite (expect2_minus ds (fun a b => f (mix (u j) a b) + f (mix (u k) b a) - f a)), (expect2_minus ds (fun a b => f (mix (u j) a b) + f (mix (u k) b a))), expect2_plus.
      rewrite (expect2_swap ds (fun a b => f (mix (u k) b a))), !expect2_mix, expect2_fst, expect2_snd by assumption. ring.
  - intros base SH. rewrite (mean_points N base N0 SH). set (m := mean (map _ base)).
    rewrite (map_ext (fun x => (bo x (1 + G + j)%nat * bo x (1 + k)%nat - bo x 0%nat * bo x (step - 1)%nat) - m * d x)
      (fun x => (bo x (1 + G + j)%nat - m) * (bo x (1 + k)%nat - m) - (bo x 0%nat - m) * (bo x (step - 1)%nat - m))) by (intros; unfold d; ring).
    unfold pair_term. apply (term_points N (fun g => (g (1 + G + j)%nat - m) * (g (1 + k)%nat - m) - (g 0%nat - m) * (g (step - 1)%nat - m)) base SH).
    intros g h E. rewrite !E by (first [assumption | apply S3; assumption | apply S2; assumption]). reflexivity.
Qed.

Lemma expected_second : forall N c j k, second = true -> (0 < N)%nat -> (j < G)%nat -> (k < G)%nat -> j <> k ->
  expect_points N (ds ++ ds) (fun base => second_term (outputs zero p second f N base) G second N c j k) = interaction ds f (u j) (u k).
Proof.
  intros N c j k T N0 J K JK. unfold second_term. rewrite !points_minus, !expected_first, expected_pair by assumption. reflexivity.
Qed.
Lemma expected_second_centred : forall j k, second = true -> (j < G)%nat -> (k < G)%nat -> j <> k -> exists C, forall N, (0 < N)%nat ->
  expect_points N (ds ++ ds) (fun base => let Y := outputs zero p second f N base in second_term Y G second N (mean Y) j k) = interaction ds f (u j) (u k) + C / INR N.
Proof.
  intros j k T J K JK. destruct (expected_first_centred j J) as (Cj & Ej). destruct (expected_first_centred k K) as (Ck & Ek).
  destruct (expected_pair_centred j k T J K JK) as (C & E). exists (C - Cj - Ck). intros N N0.
  specialize (Ej N N0). specialize (Ek N N0). specialize (E N N0). cbv zeta in *. unfold second_term. rewrite !points_minus, Ej, Ek, E. unfold interaction.
  field. apply not_0_INR. lia.
Qed.

(** ** The variance *)
Lemma expected_variance : forall N, (0 < N)%nat ->
  expect_points N (ds ++ ds) (fun base => var (base_outputs (outputs zero p second f N base) G second N)) = (1 - / (2 * INR N)) * variance ds f.
Proof.
  intros N N0. destruct step_facts as (S0 & S1 & _).
  rewrite (points_ext N (ds ++ ds) _ (fun base => var (map (fun x => f (firstn D x)) base ++ map (fun x => f (skipn D x)) base))).
  - rewrite points_var; [|exact HPP|assumption| | |].
    + rewrite variance_alt by assumption. rewrite (expect_pair (fun a b => f a ^ 2)), (expect_pair (fun a b => f a)).
      rewrite (expect2_fst ds (fun a => f a ^ 2)), expect2_fst by assumption. reflexivity.
    + rewrite (expect_pair (fun a b => f a)), (expect_pair (fun a b => f b)), expect2_fst, expect2_snd by assumption. reflexivity.
    + rewrite (expect_pair (fun a b => f a ^ 2)), (expect_pair (fun a b => f b ^ 2)), (expect2_fst ds (fun a => f a ^ 2)), (expect2_snd ds (fun a => f a ^ 2)) by assumption. reflexivity.
    + rewrite (expect_pair (fun a b => f a * f b)), (expect_pair (fun a b => f a)), (expect_pair (fun a b => f b)), expect2_product, expect2_fst, expect2_snd by assumption. reflexivity.
  - intros base SH. f_equal. unfold base_outputs. destruct (shaped_base N base SH) as (L & F).
    destruct (design_out p G second f u HL HG HU zero N base L F) as (rows & E & Lr & O). unfold outputs. rewrite E.
    rewrite <- (map_nth_base A R (fun x => f (firstn D x)) N base L), <- (map_nth_base A R (fun x => f (skipn D x)) N base L).
    f_equal; apply map_ext_in; intros i I; apply in_seq in I; rewrite O by (assumption || lia); [apply bo_a|apply bo_b].
Qed.
End Terms.

(** ** Groups do not overlap *)
Lemma in_group_unique : forall p j k i, in_group p j i -> in_group p k i -> j = k.
Proof.
  intros p j k i [(g & ns & x & Hg & F & J & I)|(U & J)] [(g' & ns' & x' & Hg' & F' & K & I')|(U' & K)].
  - assert (g' = g) by (destruct Hg as (E & _), Hg' as (E' & _); congruence). subst g'.
    assert (x' = x) by congruence. subst x'. assert (ns' = ns) by (eapply first_appearance_unique; eassumption). subst ns'.
    destruct F as (ND & _). apply (proj1 (NoDup_nth_error ns) ND j k); [apply nth_error_Some; congruence|congruence].
  - exfalso. eapply U'; eassumption.
  - exfalso. eapply U; eassumption.
  - congruence.
Qed.

(** ** The reported indices *)
Lemma reported : forall (zero : R) p G second f N base Zq resample cpus conf keep workers s,
  consistent p -> group_count p G -> (0 < N)%nat -> length base = N -> Forall (fun x => length x = (2 * p_num_vars p)%nat) base ->
  let Y := outputs zero p second f N base in
  sd Y <> 0 -> analyze Zq resample cpus p Y second conf keep workers = Ok s ->
  ~ (forall x y, In x (base_outputs Y G second N) -> In y (base_outputs Y G second N) -> x = y) ->
  (forall k, (k < G)%nat ->
     nth_error (S1 s) k = Some (Some (first_term Y G second N (mean Y) k / var (base_outputs Y G second N))) /\
     nth_error (ST s) k = Some (Some (total_term Y G second N k / var (base_outputs Y G second N)))) /\
  (second = true -> forall j k, (j < k)%nat -> (k < G)%nat ->
     exists m, S2 s = Some m /\ entry m j k = Some (Some (second_term Y G second N (mean Y) j k / var (base_outputs Y G second N)))).
Proof.
  intros zero p G second f N base Zq resample cpus conf keep workers s HC HG N0 LB FB Y HS HA HV.
  assert (EG : snd (extract_group_names p) = G) by (apply consistent_groups; assumption).
  assert (PB : forall i, In i (seq 0 N) -> exists b, nth_error base i = Some b /\ length b = (2 * p_num_vars p)%nat).
  { intros i I. apply in_seq in I. destruct (nth_error base i) as [b|] eqn:E.
    - exists b. split; [reflexivity|]. rewrite Forall_forall in FB. apply FB. eapply nth_error_In. exact E.
    - apply nth_error_None in E. lia. }
  destruct (cross_sample_layout zero base (seq 0 N) p second (proj1 HC) PB) as (rows & G' & E & HG' & HLen & _ & _).
  assert (G' = G) by (eapply group_count_fun; eassumption). subst G'. rewrite seq_length in HLen.
  assert (LY : (length Y / block_size G second)%nat = N).
  { unfold Y, outputs. rewrite E, map_length, HLen. apply Nat.div_mul. unfold block_size. destruct second; lia. }
  destruct (analyze_formulas (mean Y) (sd Y) Zq resample cpus p Y second conf keep workers s HS HA) as (_ & H).
  rewrite EG, LY in H. destruct (H HV) as (H1 & H2). clear H. split.
  - intros k K. destruct (H1 k K) as (A1 & A2). split; [exact A1|]. rewrite A2. do 2 f_equal. unfold total_term, Rdiv.
    rewrite Rinv_mult. unfold base_outputs. ring.
  - intros T j k JK K. exact (H2 T j k JK K).
Qed.

(** Membership in groups can be decided. *)
Lemma group_selector : forall p, exists u, forall k j, u k j = true <-> in_group p k j.
Proof.
  intros p. destruct (p_groups p) as [g|] eqn:E.
  - destruct (list_eq_dec string_dec g (p_names p)) as [H|H].
    + exists Nat.eqb. intros k j. rewrite Nat.eqb_eq. assert (U : ungrouped p) by (intros g' (E' & H' & _); congruence).
      split; [intros ->; right; split; [assumption|reflexivity]|]. intros [(g' & ns & x & K & _)|(_ & ->)]; [elim (U g' K)|reflexivity].
    + assert (Q : {exists x y, In x g /\ In y g /\ x <> y} + {~ exists x y, In x g /\ In y g /\ x <> y}).
      { destruct g as [|x0 l]; [right; intros (x & y & [] & _)|].
        destruct (Forall_dec (fun y => y = x0) (fun y => string_dec y x0) l) as [F|F].
        - right. intros (x & y & X & Y & N). apply N. rewrite Forall_forall in F. cbn in X, Y.
          assert (x = x0) by (destruct X as [->|X]; [reflexivity|apply F; assumption]).
          assert (y = x0) by (destruct Y as [->|Y]; [reflexivity|apply F; assumption]). congruence.
        - left. assert (X : exists y, In y l /\ y <> x0).
          { clear -F. induction l as [|y l IH]; [elim F; constructor|]. destruct (string_dec y x0) as [->|N].
            - destruct IH as (z & I & N); [intros F'; apply F; constructor; [reflexivity|assumption]|]. exists z. split; [right; assumption|assumption].
            - exists y. split; [left; reflexivity|assumption]. }
          destruct X as (y & I & N). exists y, x0. cbn. tauto. }
      destruct Q as [Q|Q].
      * assert (GG : grouped p g) by (split; [assumption|split; assumption]).
        exists (fun k j => match nth_error (pd_unique g) k, nth_error g j with Some x, Some y => String.eqb x y | _, _ => false end).
        intros k j. split.
        -- destruct (nth_error (pd_unique g) k) as [x|] eqn:K; [|discriminate]. destruct (nth_error g j) as [y|] eqn:J; [|discriminate].
           intros X. apply String.eqb_eq in X. subst y. left. exists g, (pd_unique g), x. split; [assumption|]. split; [apply first_appearance_pd_unique|]. split; assumption.
        -- intros [(g' & ns & x & GG' & F & K & J)|(U & _)]; [|elim (U g GG)].
           assert (g' = g) by (destruct GG' as (E' & _); congruence). subst g'.
           assert (ns = pd_unique g) by (eapply first_appearance_unique; [exact F|apply first_appearance_pd_unique]). subst ns. rewrite K, J. apply String.eqb_refl.
      * exists Nat.eqb. intros k j. rewrite Nat.eqb_eq. assert (U : ungrouped p) by (intros g' (E' & H' & X); assert (g' = g) by congruence; subst; auto).
        split; [intros ->; right; split; [assumption|reflexivity]|]. intros [(g' & ns & x & K & _)|(_ & ->)]; [elim (U g' K)|reflexivity].
  - exists Nat.eqb. intros k j. rewrite Nat.eqb_eq. assert (U : ungrouped p) by (intros g' (E' & _); congruence).
    split; [intros ->; right; split; [assumption|reflexivity]|]. intros [(g' & ns & x & K & _)|(_ & ->)]; [elim (U g' K)|reflexivity].
Qed.
