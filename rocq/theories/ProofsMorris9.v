(** * Morris: shared effects, linear models, ignored groups, lengths, repeated trajectories. *)
From Coq Require Import Reals String List Arith ZArith Bool Lia Lra Permutation Sorted.
From Verif Require Import Base Arrays ListFacts ModelGroups ModelScale ProofsScale Stats Sums SpecGroups SpecSobol SpecFF ProofsSobol6 SpecSobol 
  ProofsGroups ProofsSobol ProofsFF ProofsFF2 ProofsFF3 ModelFast ProofsFast2 ModelMorris ModelMorrisAnalyze SpecMorris
  ProofsMorris1 ProofsMorris2 ProofsMorris3 ProofsMorris4 ProofsMorris5 ProofsMorris6 ProofsMorris7 ProofsMorris8.
Import ListNotations.
Local Open Scope nat_scope.

(** ** The step of a group *)
Lemma group_effect : forall ls h T x, trajectory ls h T -> (forall j, j < length ls -> (0 < h j)%R) -> In x ls ->
  exists r, r + 1 < length T /\
    moves (fun j => nth_error ls j = Some x) h (nth r T []) (nth (r + 1) T []) /\
    forall j, nth_error ls j = Some x -> exists s, (s = 1 \/ s = -1)%R /\
      nth j (nth (r + 1) T []) 0%R = (nth j (nth r T []) 0 + s * h j)%R /\
      forall delta y e, is_effect delta T y j e <-> e = (s * (nth (r + 1)%nat y 0 - nth r y 0) / delta)%R.
Proof.
  intros ls h T x (order & Ho) Hh Hx. pose proof Ho as (HN & HI & HL & HW & HM).
  apply HI in Hx. apply In_nth_error in Hx. destruct Hx as [r Hr].
  assert (Hrl : r < length order) by (eapply nth_error_Some_lt; eauto).
  exists r. split; [lia|]. split.
  { apply (HM r x); auto; apply nth_error_nth'; lia. }
  intros j Hj. destruct (coord_path ls h order T j x r Ho Hj Hr) as (s & a & Hs & Hp).
  exists s. split; auto. split.
  - rewrite !Hp by lia. destruct (Nat.leb_spec r r); [|lia]. destruct (Nat.leb_spec (r + 1) r); [lia|]. auto.
  - intros delta y e. apply (effect_path delta T y j r s a (h j)); auto; try lia.
    apply Hh. eapply nth_error_Some_lt; eauto.
Qed.

(** Members of a group have effects of the same size. *)
Lemma effects_shared : forall ls h T y delta x j j' e e', trajectory ls h T -> (forall j, j < length ls -> (0 < h j)%R) ->
  nth_error ls j = Some x -> nth_error ls j' = Some x -> is_effect delta T y j e -> is_effect delta T y j' e' ->
  Rabs e = Rabs e'.
Proof.
  intros ls h T y delta x j j' e e' HT Hh Hj Hj' He He'.
  destruct (group_effect ls h T x HT Hh) as (r & Hr & _ & H); [eapply nth_error_In; eauto|].
  destruct (H j Hj) as (s & Hs & _ & Hi). destruct (H j' Hj') as (s' & Hs' & _ & Hi').
  apply Hi in He. apply Hi' in He'. subst.
  destruct Hs as [-> | ->], Hs' as [-> | ->]; auto; unfold Rdiv;
    rewrite <- (Rabs_Ropp (_ * (_ - _) * / _)); f_equal; ring.
Qed.

Theorem group_mu_star : forall nq conf_level resample ls h Ts ys delta E out,
  evaluated ls h Ts ys -> (forall j, j < length ls -> (0 < h j)%R) ->
  summarises nq conf_level resample ls (length Ts) E out ->
  (forall i j, i < length Ts -> j < length ls -> is_effect delta (nth i Ts []) (nth i ys []) j (E i j)) ->
  forall k x j, nth_error (m_names out) k = Some x -> nth_error ls j = Some x ->
    nth_error (m_mu_star out) k = Some (Some (mean (map (fun i => Rabs (E i j)) (seq 0 (length Ts))))).
Proof.
  intros nq conf_level resample ls h Ts ys delta E out [HT _] Hh (HF & _ & _ & _ & _ & HS) HE k x j Hk Hj.
  set (js := filter (fun j => match nth_error ls j with Some y => if string_dec y x then true else false | None => false end)
               (seq 0 (length ls))).
  assert (Hjs : members_of ls x js).
  { split; [apply NoDup_filter, seq_NoDup|]. intros i. unfold js. rewrite filter_In, in_seq. split.
    - intros [_ H]. destruct (nth_error ls i) as [y|]; [|discriminate]. destruct (string_dec y x); [congruence|discriminate].
    - intros H. assert (i < length ls) by (eapply nth_error_Some_lt; eauto). split; [lia|]. rewrite H.
      destruct (string_dec x x); congruence. }
  destruct (HS k x js Hk Hjs) as (_ & E2 & _). rewrite E2. do 2 f_equal.
  assert (Hin : In j js) by (apply Hjs; auto).
  rewrite (map_ext_in _ (fun _ => mean (map (fun i => Rabs (E i j)) (seq 0 (length Ts))))).
  - apply mean_const. destruct js; [destruct Hin|discriminate].
  - intros j' Hj'. apply (proj2 Hjs) in Hj'. f_equal. apply map_ext_in. intros i Hi. apply in_seq in Hi.
    rewrite Forall_forall in HT.
    apply (effects_shared ls h (nth i Ts []) (nth i ys []) delta x j' j); auto.
    + apply HT, nth_In. lia.
    + apply HE; [lia|eapply nth_error_Some_lt; eauto].
    + apply HE; [lia|eapply nth_error_Some_lt; eauto].
Qed.

(** ** Models evaluated on designs *)
Lemma evaluated_map : forall ls h Ts (f : list R -> R), Forall (trajectory ls h) Ts -> evaluated ls h Ts (map (map f) Ts).
Proof.
  intros ls h Ts f H. split; auto. clear H. induction Ts; simpl; constructor; auto. apply map_length.
Qed.

Lemma nth_map_map : forall (f : list R -> R) Ts i r, i < length Ts -> r < length (nth i Ts []) ->
  nth r (nth i (map (map f) Ts) []) 0%R = f (nth r (nth i Ts []) []).
Proof.
  intros f Ts i r Hi Hr. rewrite (nth_indep _ [] (map f [])) by (rewrite map_length; auto). rewrite map_nth.
  rewrite (nth_indep _ 0%R (f [])) by (rewrite map_length; auto). apply map_nth.
Qed.

Lemma sd1_const : forall l c, 2 <= length l -> (forall x, In x l -> x = c) -> sd1 l = Some 0%R.
Proof.
  intros l c Hl H. unfold sd1. destruct (Nat.ltb_spec (length l) 2); [lia|]. f_equal.
  assert (Hm : mean l = c) by (apply mean_all; auto; destruct l; [simpl in Hl; lia|discriminate]).
  rewrite (map_ext_in _ (fun _ => 0%R)) by (intros x Hx; rewrite Hm, (H x Hx); ring).
  rewrite Rsum_const, Rmult_0_r. unfold Rdiv. rewrite Rmult_0_l. apply sqrt_0.
Qed.

(** A constant effect [v] of a parameter alone in its group. *)
Lemma constant_effect : forall nq conf_level resample ls N E out j x v,
  summarises nq conf_level resample ls N E out -> 0 < N -> (forall j, valid_resample N (resample j)) ->
  (forall i, i < N -> E i j = v) -> members_of ls x [j] ->
  forall k, nth_error (m_names out) k = Some x ->
    nth_error (m_mu out) k = Some (Some v) /\ nth_error (m_mu_star out) k = Some (Some (Rabs v)) /\
    (2 <= N -> nth_error (m_sigma out) k = Some (Some 0%R)) /\
    (N = 1 -> nth_error (m_sigma out) k = Some None) /\
    (2 <= length (resample j) -> nth_error (m_conf out) k = Some (Some 0%R)).
Proof.
  intros nq conf_level resample ls N E out j x v (HF & _ & _ & _ & _ & HS) HN HV HE Hjs k Hk.
  destruct (HS k x [j] Hk Hjs) as (E1 & E2 & E3 & _ & E4).
  assert (Hne : forall A (f : nat -> A), map f (seq 0 N) <> []) by (intros; destruct N; [lia|discriminate]).
  assert (M1 : mean (map (fun i => E i j) (seq 0 N)) = v).
  { apply mean_all; auto. intros y Hy. apply in_map_iff in Hy. destruct Hy as (i & <- & Hi). apply in_seq in Hi. apply HE. lia. }
  assert (M2 : mean (map (fun i => Rabs (E i j)) (seq 0 N)) = Rabs v).
  { apply mean_all; auto. intros y Hy. apply in_map_iff in Hy. destruct Hy as (i & <- & Hi). apply in_seq in Hi. rewrite HE by lia. auto. }
  assert (Hone : forall z, mean [z] = z) by (intros; unfold mean; simpl; field).
  split; [rewrite E1; cbn [map]; rewrite Hone, M1; auto|].
  split; [rewrite E2; cbn [map]; rewrite Hone, M2; auto|].
  rewrite (E3 j eq_refl). split; [|split].
  - intros H2. f_equal. apply (sd1_const _ v); [rewrite map_length, seq_length; auto|].
    intros y Hy. apply in_map_iff in Hy. destruct Hy as (i & <- & Hi). apply in_seq in Hi. apply HE. lia.
  - intros ->. reflexivity.
  - intros H2. rewrite (E4 [0%R]).
    + rewrite Hone. auto.
    + constructor; [|constructor]. exists 0%R. split; [|ring].
      apply (sd1_const _ (Rabs v)); [rewrite map_length; auto|].
      intros y Hy. apply in_map_iff in Hy. destruct Hy as (idx & <- & Hi).
      pose proof (HV j) as HVj. unfold valid_resample in HVj. rewrite Forall_forall in HVj.
      destruct (HVj idx Hi) as [HL Ht]. apply mean_all.
      * intros Ez. apply map_eq_nil in Ez. subst idx. simpl in HL. lia.
      * intros y Hy. apply in_map_iff in Hy. destruct Hy as (t & <- & Htt). rewrite Forall_forall in Ht.
        rewrite HE by auto. auto.
Qed.

Lemma NoDup_first : forall ls ns, NoDup ls -> first_appearance ls ns -> ns = ls.
Proof.
  intros ls ns HN HF. apply (first_appearance_unique ls); auto. split; auto. split; [tauto|].
  intros i j x y Hij Hi Hj. exists i, j. split; auto.
  assert (Q : forall k z, nth_error ls k = Some z -> first_at ls z k).
  { intros k z Hk. split; auto. intros m Hm E. assert (m = k); [|lia].
    apply (proj1 (NoDup_nth_error ls) HN); [eapply nth_error_Some_lt; eauto|]. congruence. }
  auto.
Qed.

Lemma NoDup_member : forall ls j x, NoDup ls -> nth_error ls j = Some x -> members_of ls x [j].
Proof.
  intros ls j x HN Hj. split; [repeat constructor; simpl; tauto|]. intros i. simpl. split.
  - intros [-> | []]. auto.
  - intros Hi. left. apply (proj1 (NoDup_nth_error ls) HN); [eapply nth_error_Some_lt; eauto|]. congruence.
Qed.

Lemma linear_step : forall (ls : list string) h c0 c x j (a b : list R), nth_error ls j = Some x -> NoDup ls -> length a = length ls ->
  moves (fun j => nth_error ls j = Some x) h a b ->
  ((c0 + linear (length ls) c b) - (c0 + linear (length ls) c a) = c j * (nth j b 0 - nth j a 0))%R.
Proof.
  intros ls h c0 c x j a b Hj HN La [Lb Hm]. unfold linear.
  assert (Q : (Rsum (map (fun i => c i * nth i b 0) (seq 0 (length ls))) - Rsum (map (fun i => c i * nth i a 0) (seq 0 (length ls)))
     = c j * (nth j b 0 - nth j a 0))%R).
  { rewrite <- Rsum_map_minus.
    change (sum (length ls) (fun i => c i * nth i b 0 - c i * nth i a 0)%R = (c j * (nth j b 0 - nth j a 0))%R).
    assert (Hjl : j < length ls) by (eapply nth_error_Some_lt; eauto).
    rewrite (sum_delta (length ls) (fun i => c i * nth i b 0 - c i * nth i a 0)%R j Hjl); [ring|].
    intros i Hi Hne. destruct (nth_error_lt_Some a (i:=i)) as [v Hv]; [lia|].
    destruct (Hm i v Hv) as [_ H2]. rewrite (nth_error_nth _ _ _ Hv).
    rewrite (nth_error_nth b i 0%R (x:=v)); [ring|]. apply H2. intros E. apply Hne.
    apply (proj1 (NoDup_nth_error ls) HN); [eapply nth_error_Some_lt; eauto|]. congruence. }
  lra.
Qed.

Theorem linear_recovered : forall nq p ls h N X (c0 : R) (c : nat -> R) conf_level levels resample,
  labels_of p ls -> NoDup ls -> length ls = p_num_vars p -> 0 < p_num_vars p -> 2 <= levels -> (0 < conf_level < 1)%R ->
  0 < N -> morris_design ls h N X -> (forall j, j < length ls -> (0 < h j)%R) ->
  (forall j, valid_resample N (resample j)) ->
  exists out, snd (morris_analyze nq p (mkMat (p_num_vars p) X)
       (map (fun x => c0 + linear (p_num_vars p) c x)%R X) conf_level false levels resample) = Ok out /\
    m_names out = ls /\
    forall j, j < p_num_vars p ->
      nth_error (m_mu out) j = Some (Some (c j * h j / step levels)%R) /\
      nth_error (m_mu_star out) j = Some (Some (Rabs (c j) * h j / step levels)%R) /\
      (2 <= N -> nth_error (m_sigma out) j = Some (Some 0%R)) /\
      (N = 1 -> nth_error (m_sigma out) j = Some None) /\
      (2 <= length (resample j) -> nth_error (m_conf out) j = Some (Some 0%R)).
Proof.
  intros nq p ls h N X c0 c conf_level levels resample H1 HND H2 H3 H4 H5 HN (Ts & LT & -> & HT) Hh HV.
  set (f := fun x => (c0 + linear (p_num_vars p) c x)%R).
  rewrite concat_map.
  pose proof (evaluated_map ls h Ts f HT) as HE.
  destruct (effects_reported nq p ls h Ts (map (map f) Ts) conf_level levels resample) as (E & out & Eo & Hsum & Heff); auto.
  - destruct Ts; [simpl in LT; lia|discriminate].
  - rewrite LT. auto.
  - exists out. split; auto.
    assert (Hnames : m_names out = ls) by (apply NoDup_first; auto; apply Hsum).
    split; auto. intros j Hj. rewrite LT in *.
    destruct (nth_error_lt_Some ls (i:=j)) as [x Hx]; [lia|].
    destruct (levels_facts levels H4) as (_ & _ & Hst).
    assert (HEj : forall i, i < N -> E i j = (c j * h j / step levels)%R).
    { intros i Hi. symmetry. apply Heff; [auto|lia|].
      rewrite Forall_forall in HT. assert (HTi : trajectory ls h (nth i Ts [])) by (apply HT, nth_In; lia).
      destruct (group_effect ls h _ x HTi Hh) as (r & Hr & Hm & Hg); [eapply nth_error_In; eauto|].
      destruct (Hg j Hx) as (s & Hs & Hc & Hi2). apply Hi2.
      rewrite !nth_map_map by lia. unfold f.
      rewrite <- H2. rewrite (linear_step ls h c0 c x j (nth r (nth i Ts []) []) (nth (r + 1) (nth i Ts []) [])); auto.
      - rewrite Hc. destruct Hs as [-> | ->]; unfold Rdiv; ring.
      - destruct HTi as (order & _ & _ & _ & HW & _). rewrite Forall_forall in HW. apply HW, nth_In. lia. }
    rewrite <- Hnames in Hx at 1.
    destruct (constant_effect nq conf_level resample ls N E out j x (c j * h j / step levels)%R Hsum HN HV HEj) with (k := j)
      as (A & B & C); auto.
    { apply NoDup_member; auto. rewrite <- Hnames. auto. }
    split; auto. split; auto. rewrite B. do 2 f_equal.
    unfold Rdiv. rewrite !Rabs_mult. rewrite (Rabs_right (h j)), (Rabs_right (/ _)); auto.
    + left. apply Rinv_0_lt_compat. lra.
    + left. apply Hh. lia.
Qed.

(** ** Ignored groups *)
Theorem ignored_group : forall nq p ls h N X f x conf_level scaled levels resample,
  labels_of p ls -> length ls = p_num_vars p -> 0 < p_num_vars p -> 2 <= levels -> (0 < conf_level < 1)%R ->
  0 < N -> morris_design ls h N X -> (forall j, j < length ls -> (0 < h j)%R) ->
  (forall j, valid_resample N (resample j)) -> In x ls -> ignores ls x f ->
  exists out k, snd (morris_analyze nq p (mkMat (p_num_vars p) X) (map f X) conf_level scaled levels resample) = Ok out /\
    nth_error (m_names out) k = Some x /\
    nth_error (m_mu out) k = Some (Some 0%R) /\ nth_error (m_mu_star out) k = Some (Some 0%R) /\
    (forall j, members_of ls x [j] -> 2 <= N -> nth_error (m_sigma out) k = Some (Some 0%R)) /\
    (forall j, members_of ls x [j] -> 2 <= length (resample j) -> nth_error (m_conf out) k = Some (Some 0%R)).
Proof.
  intros nq p ls h N X f x conf_level scaled levels resample H1 H2 H3 H4 H5 HN (Ts & LT & -> & HT) Hh HV Hx Hf.
  rewrite concat_map.
  pose proof (evaluated_map ls h Ts f HT) as HE.
  assert (Hne : Ts <> []) by (destruct Ts; [simpl in LT; lia|discriminate]).
  assert (Hzero : forall i j d e, i < N -> nth_error ls j = Some x -> is_effect d (nth i Ts []) (nth i (map (map f) Ts) []) j e -> e = 0%R).
  { intros i j d e Hi Hj He.
    rewrite Forall_forall in HT. assert (HTi : trajectory ls h (nth i Ts [])) by (apply HT, nth_In; lia).
    destruct (group_effect ls h _ x HTi Hh Hx) as (r & Hr & [Lm Hm] & Hg).
    destruct (Hg j Hj) as (s & _ & _ & Hi2). apply Hi2 in He. subst e.
    assert (Hw : forall k, k < length (nth i Ts []) -> length (nth k (nth i Ts []) []) = length ls).
    { intros k Hk. destruct HTi as (order & _ & _ & _ & HW & _). rewrite Forall_forall in HW. apply HW, nth_In. lia. }
    rewrite !nth_map_map by lia.
    rewrite (Hf (nth (r + 1) (nth i Ts []) []) (nth r (nth i Ts []) [])).
    - unfold Rdiv. ring.
    - apply Hw. lia.
    - apply Hw. lia.
    - intros i' Hi'. destruct (nth_error (nth r (nth i Ts []) []) i') as [v|] eqn:Ev.
      + apply (Hm i' v Ev). auto.
      + apply nth_error_None. apply nth_error_None in Ev. lia. }
  assert (HQ : exists E out,
    snd (morris_analyze nq p (mkMat (p_num_vars p) (concat Ts)) (concat (map (map f) Ts)) conf_level scaled levels resample) = Ok out /\
    summarises nq conf_level resample ls N E out /\ (forall i j, i < N -> nth_error ls j = Some x -> E i j = 0%R)).
  { destruct scaled.
    - destruct (scaled_effects_reported nq p ls h Ts (map (map f) Ts) conf_level levels resample) as (E & out & Eo & Hsum & Heff); auto.
      + rewrite LT. auto.
      + exists E, out. split; auto. rewrite LT in *. split; auto. intros i j Hi Hj.
        assert (Hjl : j < length ls) by (eapply nth_error_Some_lt; eauto).
        destruct (Heff i j Hi Hjl) as [A B].
        destruct (Req_dec (sd (nth i (map (map f) Ts) [])) 0) as [Z|Z].
        * apply A. intros u v Hu Hv. apply (proj1 (sd_zero_iff (nth i (map (map f) Ts) []) ltac:(intros Q; rewrite Q in Hu; destruct Hu)) Z); auto.
        * destruct B as (u & Hu & ->).
          { destruct (nth i (map (map f) Ts) []) as [|y0 ys] eqn:Ey.
            - exfalso. apply Z. unfold sd, var, mean. simpl. unfold Rdiv. rewrite Rmult_0_l. apply sqrt_0.
            - destruct (Forall_Exists_dec (fun y => y = y0) (fun y => Req_EM_T y y0) ys) as [HA|HA].
              + exfalso. apply Z. apply sd_zero_iff; [discriminate|]. rewrite Forall_forall in HA.
                assert (Q : forall w, In w (y0 :: ys) -> w = y0) by (intros w [<-|Hw]; auto).
                intros u v Hu Hv. rewrite (Q u Hu), (Q v Hv). auto.
              + apply Exists_exists in HA. destruct HA as (w & Hw & Hwn). exists w, y0.
                split; [right; auto|]. split; [left; auto|auto]. }
          apply Hzero in Hu; auto. subst u. ring.
    - destruct (effects_reported nq p ls h Ts (map (map f) Ts) conf_level levels resample) as (E & out & Eo & Hsum & Heff); auto.
      + rewrite LT. auto.
      + exists E, out. split; auto. rewrite LT in *. split; auto. intros i j Hi Hj.
        apply (Hzero i j (step levels)); auto. apply Heff; auto. eapply nth_error_Some_lt; eauto. }
  destruct HQ as (E & out & Eo & Hsum & HE0). exists out.
  pose proof Hsum as (HF & _ & _ & _ & _ & HS).
  assert (Hxn : In x (m_names out)) by (apply HF; auto).
  apply In_nth_error in Hxn. destruct Hxn as [k Hk]. exists k. split; auto. split; auto.
  set (js := filter (fun j => match nth_error ls j with Some y => if string_dec y x then true else false | None => false end)
               (seq 0 (length ls))).
  assert (Hjs : members_of ls x js).
  { split; [apply NoDup_filter, seq_NoDup|]. intros i. unfold js. rewrite filter_In, in_seq. split.
    - intros [_ H]. destruct (nth_error ls i) as [y|]; [|discriminate]. destruct (string_dec y x); [congruence|discriminate].
    - intros H. assert (i < length ls) by (eapply nth_error_Some_lt; eauto). split; [lia|]. rewrite H.
      destruct (string_dec x x); congruence. }
  destruct (HS k x js Hk Hjs) as (E1 & E2 & _).
  assert (Hm0 : forall g : R -> R, g 0%R = 0%R -> mean (map (fun j => mean (map (fun i => g (E i j)) (seq 0 N))) js) = 0%R).
  { intros g Hg. apply mean_zero. intros y Hy. apply in_map_iff in Hy. destruct Hy as (j & <- & Hj). apply (proj2 Hjs) in Hj.
    apply mean_zero. intros y Hy. apply in_map_iff in Hy. destruct Hy as (i & <- & Hi). apply in_seq in Hi.
    rewrite HE0 by (auto; lia). auto. }
  split; [rewrite E1, (Hm0 (fun z => z)); auto|]. split; [rewrite E2, (Hm0 Rabs); auto; apply Rabs_R0|].
  split; intros j Hj H; apply (constant_effect nq conf_level resample ls N E out j x 0%R Hsum HN HV); auto;
    intros i Hi; apply HE0; auto; apply Hj; left; auto.
Qed.

(** ** Lengths *)
Theorem morris_lengths : forall nq p ls G X Y conf_level scaled levels resample,
  labels_of p ls -> distinct_count ls G -> length ls = p_num_vars p -> 0 < p_num_vars p -> 2 <= levels ->
  cols X = p_num_vars p -> (0 < conf_level < 1)%R ->
  let run := snd (morris_analyze nq p X Y conf_level scaled levels resample) in
  let n := length Y in
  (n < G + 1 -> run = Err ZeroDivisionError) /\
  (G + 1 <= n -> length (rows X) <> n -> run = Err ValueError) /\
  (G + 1 <= n -> length (rows X) = n -> n mod (n / (n / (G + 1))) <> 0 -> run = Err ValueError) /\
  (G + 1 <= n -> length (rows X) = n -> n mod (n / (n / (G + 1))) = 0 -> exists out, run = Ok out).
Proof.
  intros nq p ls G X Y conf_level scaled levels resample Hls HG Hn Hp Hl Hc Hcl run n.
  apply distinct_count_unique in HG.
  assert (HP : exists p1, define_problem_with_groups p = Ok p1 /\ p_groups p1 = Some ls /\ p_num_vars p1 = p_num_vars p).
  { destruct (define_groups_cases p) as [[Hg (p' & E & H1 & H2' & H3' & H4' & H5' & H6)]|[(g & Hg & Hne & HL & E)|(g & Hg & Hne & HL & E)]].
    - exists p'. destruct Hls as [(g & gs & Hgg & ->)|[_ ->]]; [destruct Hg; congruence|]. repeat split; auto.
    - exists p. destruct Hls as [(g' & gs & Hgg & ->)|[[Hgg|Hgg] ->]]; [|congruence|congruence].
      repeat split; auto.
    - exfalso. destruct Hls as [(g' & gs & Hgg & ->)|[[Hgg|Hgg] ->]]; [|congruence|congruence].
      rewrite Hgg in Hg. injection Hg as <-. congruence. }
  destruct HP as (p1 & E1 & Eg & Ev).
  destruct (compute_groups_matrix_total ls) as [m Em].
  destruct (groups_matrix_membership _ _ _ Em) as (HLm & _ & _).
  unfold run, morris_analyze. rewrite E1, Eg, (compute_delta_ok _ Hl). cbn [bind snd]. rewrite Em. cbn [bind].
  rewrite <- HG. fold n.
  split.
  { intros H. rewrite Nat.div_small by auto. reflexivity. }
  assert (HT : G + 1 <= n -> n / (G + 1) <> 0 /\ n / (n / (G + 1)) <> 0).
  { intros H. assert (n / (G + 1) <> 0) by (intros Z; apply Nat.div_small_iff in Z; lia). split; auto.
    intros Z. apply Nat.div_small_iff in Z; auto. assert (n / (G + 1) <= n / 1) by (apply Nat.div_le_compat_l; lia).
    rewrite Nat.div_1_r in *. lia. }
  set (size := n / (n / (G + 1))) in *. fold size in HT.
  assert (Hdm : G + 1 <= n -> forall q, q / size * size = q <-> q mod size = 0).
  { intros H q. destruct (HT H) as [_ Hz]. pose proof (Nat.div_mod q size Hz). nia. }
  unfold elementary_effects. fold n size.
  split; [|split].
  - intros H Hne. destruct (HT H) as [Hz1 Hz2]. apply Nat.eqb_neq in Hz1. rewrite Hz1.
    destruct (Nat.eqb_spec (length (rows X) / size * size) n) as [Q|Q]; [|reflexivity]. cbn [negb].
    destruct (Nat.eqb_spec (length (rows X) / size * size * cols X) (length (rows X) * cols X)) as [Q2|Q2]; [|reflexivity].
    exfalso. apply Hne. rewrite Hc in Q2. apply Nat.mul_cancel_r in Q2; lia.
  - intros H HX Hmod. destruct (HT H) as [Hz1 Hz2]. apply Nat.eqb_neq in Hz1. rewrite Hz1.
    rewrite HX. destruct (Nat.eqb_spec (n / size * size) n) as [Q|Q]; [|reflexivity].
    exfalso. apply Hmod. apply Hdm; auto.
  - intros H HX Hmod. destruct (HT H) as [Hz1 Hz2]. apply Nat.eqb_neq in Hz1. rewrite Hz1.
    rewrite HX. rewrite (proj2 (Hdm H n) Hmod). rewrite Nat.eqb_refl. cbn [negb].
    rewrite Nat.eqb_refl. cbn [negb bind].
    unfold mu_star_confidence.
    rewrite (proj2 (Rltb_true 0 conf_level)), (proj2 (Rltb_true conf_level 1)) by lra. cbn [negb andb].
    match goal with |- context [mapM ?f ?l] => destruct (mapM f l) as [conf|e] eqn:Ec end.
    + cbn [bind]. rewrite HLm, Hn, Hc, Nat.eqb_refl. cbn [negb]. eauto.
    + exfalso.
      match type of Ec with mapM ?f ?l = _ => assert (Q : exists e, mapM f l = Err e) by eauto end.
      apply mapM_Err_iff in Q. destruct Q as (j & e' & Hj & Hje). apply in_seq in Hj. cbv beta in Hje.
      unfold get, tab in Hje. rewrite nth_error_map_seq in Hje. rewrite (proj2 (Nat.ltb_lt _ _)) in Hje by lia.
      discriminate.
Qed.

(** ** Repeated trajectories under local optimisation *)
Lemma list_all2_refl : forall (m : list (list R)), list_all2 (list_all2 Reqb) m m = true.
Proof.
  assert (Q : forall l : list R, list_all2 Reqb l l = true).
  { induction l; simpl; auto. rewrite (proj2 (Reqb_true a a) eq_refl). auto. }
  induction m; simpl; auto. rewrite Q. auto.
Qed.

Theorem local_repeats : forall rnd argsort X g N D, valid_argsort argsort -> trajectories_of N (g + 1) D X -> 2 <= N ->
  (forall a b, a < N -> b < N -> block X (g + 1) a = block X (g + 1) b) ->
  exists t, t < N /\ local_optimisation rnd root_sum_squares argsort X g N 2 = Ok [t; t].
Proof.
  intros rnd argsort X g N D HA HX HN Hsame.
  set (M := distance_matrix rnd X g N true).
  assert (HM : M = tab N N (fun _ _ => 0%R)).
  { unfold M, distance_matrix. apply tab_ext. intros a b Ha Hb.
    unfold compute_distance. rewrite !traj_block.
    rewrite (Hsame b a Hb Ha), (Hsame a b Ha Hb), (Hsame b a Hb Ha), list_all2_refl.
    destruct (b <? a); auto. destruct ((a <? b) && true); auto. }
  assert (Hrow : forall n, n < N -> nth n M [] = repeat 0%R N).
  { intros n Hn. rewrite HM, nth_tab by auto. clear. generalize 0 as s.
    induction N; intros s; simpl; auto. f_equal. auto. }
  assert (Hd : forall a b, dm_at M a b = 0%R).
  { intros a b. unfold dm_at. destruct (Nat.lt_ge_cases a N) as [Ha|Ha].
    - rewrite Hrow by auto. clear. revert b. induction N; intros b; simpl; destruct b; auto.
    - rewrite (nth_overflow M) by (rewrite HM, tab_length; auto). destruct b; auto. }
  destruct (HA (repeat 0%R N)) as [HP _]. rewrite repeat_length in HP.
  assert (Hlen : length (argsort (repeat 0%R N)) = N) by (rewrite (Permutation_length HP); apply seq_length).
  assert (Ht : exists t, t < N /\ last_n 1 (argsort (repeat 0%R N)) = [t]).
  { unfold last_n. rewrite Hlen. destruct (nth_error_lt_Some (argsort (repeat 0%R N)) (i:=N - 1)) as [t Hti]; [lia|].
    exists t. split.
    - assert (In t (seq 0 N)) by (eapply Permutation_in; [exact HP|eapply nth_error_In; eauto]). apply in_seq in H. lia.
    - destruct (nth_error_split _ _ Hti) as (l1 & l2 & E & L1). rewrite E.
      assert (l2 = []).
      { assert (Q : length (argsort (repeat 0%R N)) = length l1 + S (length l2)) by (rewrite E, app_length; auto).
        destruct l2; auto. simpl in Q. lia. }
      subst l2. rewrite <- L1. rewrite skipn_app, skipn_all, Nat.sub_diag. auto. }
  destruct Ht as (t & HtN & Hlast). exists t. split; auto.
  unfold local_optimisation. rewrite (check_input_ok X g N D HX) by lia. cbn [bind]. fold M.
  assert (HMl : length M = N) by (rewrite HM; apply tab_length).
  assert (Hsum : forall a b, sum_distances root_sum_squares M [a; b] = Ok 0%R).
  { intros a b. unfold sum_distances. cbn [combinations map app nth]. rewrite Hd. f_equal.
    unfold root_sum_squares. simpl. rewrite Rmult_0_l, Rplus_0_l. apply sqrt_0. }
  assert (Hround : local_round root_sum_squares argsort M 2 1 = Ok [t; t]).
  { unfold local_round. rewrite HMl.
    rewrite (map_ext_in _ (fun n => [t; n])) by (intros n Hn; apply in_seq in Hn; rewrite Hrow, Hlast by lia; auto).
    assert (Q : forall l, mapM (sum_distances root_sum_squares M) (map (fun n => [t; n]) l) = Ok (repeat 0%R (length l))).
    { induction l as [|a l IH]; auto. cbn [map mapM]. rewrite Hsum. cbn [bind]. rewrite IH. auto. }
    rewrite Q. cbn [bind]. rewrite seq_length. unfold get_max_sum_ind.
    rewrite map_length, seq_length, repeat_length, Nat.eqb_refl. cbn [negb]. rewrite Hlast.
    unfold get. rewrite nth_error_map_seq, (proj2 (Nat.ltb_lt _ _) HtN). reflexivity. }
  unfold local_search. change (seq 1 (2 - 1)) with [1]. cbn [mapM]. rewrite Hround. cbn [bind mapM]. rewrite Hsum. cbn [bind].
  unfold get_max_sum_ind. cbn [length Nat.eqb negb].
  destruct (HA [0%R]) as [HP1 _]. simpl in HP1. apply Permutation_sym, Permutation_length_1_inv in HP1. rewrite HP1.
  cbn. rewrite Nat.leb_refl. auto.
Qed.

(** ** Every successful sample is a design *)
Theorem sample_design : forall rnd score argsort nq tq chunk p ls N levels opt local draws p' out,
  morris_problem p ls -> 2 <= levels -> valid_draws ls levels draws ->
  valid_argsort argsort -> (forall x, (0 < x)%R -> (0 < rnd x)%R) -> 1 <= chunk ->
  morris_sample rnd score argsort nq tq chunk p N levels opt local draws = (p', Ok out) ->
  exists n X, out = InPlace (mkMat (p_num_vars p) X) /\
    morris_design ls (fun j => step levels * ranges (p_bounds p) j)%R n X /\
    (opt = None \/ opt = Some 0%Z -> n = N) /\
    (forall k, opt = Some k -> k <> 0%Z -> n = Z.to_nat k).
Proof.
  intros rnd score argsort nq tq chunk p ls N levels opt local draws p' out HP Hl Hd HA Hr Hc H.
  assert (Hcase : (opt = None \/ opt = Some 0%Z) \/ exists k, opt = Some k /\ k <> 0%Z).
  { destruct opt as [k|]; auto. destruct (Z.eq_dec k 0); [subst; auto|]. right. eauto. }
  destruct Hcase as [Ho|(k & -> & Hk)].
  - destruct (morris_sample_plain rnd score argsort nq tq chunk p ls N levels opt local draws HP Hl Hd Ho)
      as (q & v & Ts & Hv & ET & LT & HT & HU & E).
    rewrite E in H. injection H as _ <-.
    assert (Q : exists X, InPlace (mkMat (p_num_vars p) (map (to_physical v) (concat Ts))) = InPlace (mkMat (p_num_vars p) X) /\
       morris_design ls (fun j => step levels * ranges (p_bounds p) j)%R N X).
    { eexists. split; [reflexivity|]. exists (map (map (to_physical v)) Ts). split; [rewrite map_length; auto|].
      split; [apply concat_map|].
      rewrite Forall_forall in *. intros T HTi. apply in_map_iff in HTi. destruct HTi as (T0 & <- & HT0).
      apply (trajectory_scaled ls (fun _ => step levels)); auto. destruct HP as (_ & A & _ & B & _). lia. }
    destruct Q as (X & EX & HX). exists N, X. split; auto. split; auto. split; auto.
    intros k -> Hk. destruct Ho as [Ho|Ho]; [discriminate|]. injection Ho as ->. congruence.
  - destruct Hd as (G & HG & Hdd).
    pose proof (morris_sample_optimised rnd score argsort nq tq chunk p ls N levels k local draws G HP HG Hl
      (ex_intro _ G (conj HG Hdd)) HA Hr Hc Hk) as Hopt. cbv beta zeta in Hopt.
    pose proof (proj1 Hopt) as Hbad. pose proof (proj2 Hopt) as Hgood. clear Hopt. rewrite H in Hbad, Hgood. cbn [snd] in Hbad, Hgood.
    assert (H1 : (2 <= k < Z.of_nat N)%Z).
    { destruct (Z_lt_ge_dec k 2); [discriminate Hbad; auto|]. destruct (Z_lt_ge_dec k (Z.of_nat N)); [lia|].
      discriminate Hbad. right. left. lia. }
    assert (H2 : local = false -> (k <= 10)%Z).
    { intros E. destruct (Z_lt_ge_dec 10 k); [|lia]. discriminate Hbad; auto. }
    destruct (Hgood H1 H2) as (X & combo & _ & HX & HL & Hin & _ & _ & Eo).
    injection Eo as ->. exists (Z.to_nat k), (concat (map (block X (G + 1)) combo)).
    split; auto. split; [rewrite <- HL; eapply selection_design; eauto|]. split.
    + intros [E|E]; [discriminate|]. injection E as ->. congruence.
    + intros k' E _. injection E as <-. auto.
Qed.

Theorem plain_design : forall rnd score argsort nq tq chunk p ls N levels opt local draws,
  morris_problem p ls -> 2 <= levels -> valid_draws ls levels draws -> opt = None \/ opt = Some 0%Z ->
  exists p' X, morris_sample rnd score argsort nq tq chunk p N levels opt local draws
      = (p', Ok (InPlace (mkMat (p_num_vars p) X))) /\
    morris_design ls (fun j => step levels * ranges (p_bounds p) j)%R N X.
Proof.
  intros rnd score argsort nq tq chunk p ls N levels opt local draws HP Hl Hd Ho.
  destruct (morris_sample_plain rnd score argsort nq tq chunk p ls N levels opt local draws HP Hl Hd Ho)
    as (q & v & Ts & Hv & ET & LT & HT & HU & E).
  exists q. eexists. split; [exact E|]. exists (map (map (to_physical v)) Ts). split; [rewrite map_length; auto|].
  split; [apply concat_map|].
  rewrite Forall_forall in *. intros T HTi. apply in_map_iff in HTi. destruct HTi as (T0 & <- & HT0).
  apply (trajectory_scaled ls (fun _ => step levels)); auto. destruct HP as (_ & A & _ & B & _). lia.
Qed.

(** ** Ranges *)
Theorem sample_in_range : forall rnd score argsort nq tq chunk p ls N levels opt local draws p' out,
  morris_problem p ls -> 2 <= levels -> valid_draws ls levels draws ->
  valid_argsort argsort -> (forall x, (0 < x)%R -> (0 < rnd x)%R) -> 1 <= chunk ->
  morris_sample rnd score argsort nq tq chunk p N levels opt local draws = (p', Ok out) ->
  exists X, out = InPlace (mkMat (p_num_vars p) X) /\
    forall r, In r X -> length r = p_num_vars p /\
    forall j, j < p_num_vars p ->
      (lower (p_bounds p) j <= nth j r 0 <= upper (p_bounds p) j)%R /\
      (Nat.Even levels -> exists m, m <= levels - 1 /\
         nth j r 0%R = (lower (p_bounds p) j + INR m / (INR levels - 1) * ranges (p_bounds p) j)%R).
Proof.
  intros rnd score argsort nq tq chunk p ls N levels opt local draws p' out HP Hl Hd HA Hr Hc H.
  destruct (morris_sample_plain rnd score argsort nq tq chunk p ls N levels None local draws HP Hl Hd (or_introl eq_refl))
    as (q & v & Ts & Hv & ET & LT & HT & HU & E).
  assert (Hrows : forall r, In r (map (to_physical v) (concat Ts)) -> length r = p_num_vars p /\
    forall j, j < p_num_vars p ->
      (lower (p_bounds p) j <= nth j r 0 <= upper (p_bounds p) j)%R /\
      (Nat.Even levels -> exists m, m <= levels - 1 /\
         nth j r 0%R = (lower (p_bounds p) j + INR m / (INR levels - 1) * ranges (p_bounds p) j)%R)).
  { intros r Hri. apply in_map_iff in Hri. destruct Hri as (u & <- & Hu).
    assert (Hun : Forall (unit_row levels (length ls)) (concat Ts)).
    { apply in_concat_blocks. eapply Forall_impl; [|exact HU]. simpl. tauto. }
    rewrite Forall_forall in Hun. specialize (Hun u Hu).
    destruct HP as (_ & A & _ & B & HB & _). rewrite A, <- B in Hun.
    destruct (to_physical_unit _ v levels u HB Hv Hun) as [C D]. rewrite <- B. auto. }
  assert (Hcase : (opt = None \/ opt = Some 0%Z) \/ exists k, opt = Some k /\ k <> 0%Z).
  { destruct opt as [k|]; auto. destruct (Z.eq_dec k 0); [subst; auto|]. right. eauto. }
  destruct Hcase as [Ho|(k & -> & Hk)].
  - destruct (morris_sample_plain rnd score argsort nq tq chunk p ls N levels opt local draws HP Hl Hd Ho)
      as (q2 & v2 & Ts2 & Hv2 & ET2 & LT2 & HT2 & HU2 & E2).
    rewrite E2 in H. injection H as _ <-. eexists. split; [reflexivity|].
    assert (concat Ts2 = concat Ts) by congruence. rewrite H.
    replace v2 with v; auto. eapply scaler_unique; eauto.
  - destruct Hd as (G & HG & Hdd).
    pose proof (morris_sample_optimised rnd score argsort nq tq chunk p ls N levels k local draws G HP HG Hl
      (ex_intro _ G (conj HG Hdd)) HA Hr Hc Hk) as Hopt. cbv beta zeta in Hopt.
    pose proof (proj1 Hopt) as Hbad. pose proof (proj2 Hopt) as Hgood. clear Hopt. rewrite H, E in Hgood. rewrite H in Hbad.
    cbn [snd] in Hbad, Hgood.
    assert (H1 : (2 <= k < Z.of_nat N)%Z).
    { destruct (Z_lt_ge_dec k 2); [discriminate Hbad; auto|]. destruct (Z_lt_ge_dec k (Z.of_nat N)); [lia|].
      discriminate Hbad. right. left. lia. }
    assert (H2 : local = false -> (k <= 10)%Z).
    { intros Q. destruct (Z_lt_ge_dec 10 k); [|lia]. discriminate Hbad; auto. }
    destruct (Hgood H1 H2) as (X & combo & EX & HX & HL & Hin & _ & _ & Eo).
    injection Eo as ->. injection EX as <-. eexists. split; [reflexivity|].
    intros r Hri. apply in_concat in Hri. destruct Hri as (b & Hb & Hrb). apply in_map_iff in Hb.
    destruct Hb as (c & <- & _). apply Hrows. eapply block_incl. exact Hrb.
Qed.
