(** * Morris analyser on designs: effects, linear models, ignored parameters. *)
From Coq Require Import Reals String List Arith ZArith Bool Lia Lra Permutation Sorted.
From Verif Require Import Base Arrays ListFacts ModelGroups ModelScale ProofsScale Stats Sums SpecGroups SpecSobol SpecFF
  ProofsGroups ProofsSobol ProofsFF ProofsFF2 ProofsFF3 ModelFast ProofsFast2 ModelMorris ModelMorrisAnalyze SpecMorris
  ProofsMorris1 ProofsMorris2 ProofsMorris3 ProofsMorris5 ProofsMorris6 ProofsMorris7.
Import ListNotations.
Local Open Scope nat_scope.

Lemma fmean_perm : forall l l', Permutation l l' -> fmean l = fmean l'.
Proof.
  intros l l' H. unfold fmean.
  assert (Q : match all_some l, all_some l' with Some r, Some r' => Permutation r r' | None, None => True | _, _ => False end).
  { induction H; simpl; auto.
    - destruct x; auto. destruct (all_some l), (all_some l'); auto.
    - destruct x, y; auto; destruct (all_some l); auto; constructor.
    - destruct (all_some l), (all_some l'), (all_some l''); auto; try tauto. eapply perm_trans; eauto. }
  destruct (all_some l), (all_some l'); try tauto. f_equal. apply mean_perm. auto.
Qed.

Lemma measures_of : forall nq p ls X Y conf_level scaled levels resample T (E : nat -> nat -> R),
  labels_of p ls -> length ls = p_num_vars p -> 0 < p_num_vars p -> 2 <= levels -> cols X = p_num_vars p ->
  (0 < conf_level < 1)%R -> length (rows X) = length Y -> length Y = T * (length (pd_unique ls) + 1) -> 0 < T ->
  (forall j, valid_resample T (resample j)) ->
  (forall i j, i < T -> j < length ls ->
     ee (length (pd_unique ls) + 1) (rows X) Y (step levels) scaled i j = Some (E i j)) ->
  exists out, snd (morris_analyze nq p X Y conf_level scaled levels resample) = Ok out /\
    summarises nq conf_level resample ls T E out.
Proof.
  intros nq p ls X Y conf_level scaled levels resample T E H1 H2 H3 H4 H5 H6 H7 H8 H9 HV HE.
  destruct (morris_analyze_eq nq p ls X Y conf_level scaled levels resample T H1 H2 H3 H4 H5 H6 H7 H8 H9)
    as (p1 & m & Em & Eq).
  cbv zeta in Eq. rewrite Eq. cbn [snd]. eexists. split; [reflexivity|].
  unfold summarises. cbn [m_names m_mu m_mu_star m_sigma m_conf].
  split; [apply first_appearance_pd_unique|].
  rewrite !map_length, !seq_length. do 4 (split; [reflexivity|]).
  intros k x js Hk Hjs.
  assert (Hkl : k < length (pd_unique ls)) by (eapply nth_error_Some_lt; eauto).
  pose proof (members_spec _ _ _ _ _ Em Hk) as Hms.
  pose proof (members_of_perm _ _ _ _ Hms Hjs) as Hperm.
  rewrite !nth_error_map_seq, (proj2 (Nat.ltb_lt _ _) Hkl).
  set (col := fun j => map (fun i => ee (length (pd_unique ls) + 1) (rows X) Y (step levels) scaled i j) (seq 0 T)).
  assert (Hjl : forall j, In j js -> j < length ls).
  { intros j Hj. apply (proj2 Hjs) in Hj. eapply nth_error_Some_lt; eauto. }
  assert (Hcol : forall j, In j js -> col j = map (fun i => Some (E i j)) (seq 0 T)).
  { intros j Hj. apply map_ext_in. intros i Hi. apply in_seq in Hi. apply HE; [lia|auto]. }
  assert (Hf : forall f, fmean (map f (members m k)) = fmean (map f js)).
  { intros f. apply fmean_perm, Permutation_map. auto. }
  rewrite !Hf.
  assert (Hsd : forall j, In j js -> fsd1 (col j) = sd1 (map (fun i => E i j) (seq 0 T))).
  { intros j Hj. rewrite (Hcol j Hj). apply fsd1_of. auto. }
  split.
  { f_equal. apply fmean_of. intros j Hj. fold (col j). rewrite (Hcol j Hj). apply fmean_of. auto. }
  split.
  { f_equal. apply fmean_of. intros j Hj. fold (col j). rewrite (Hcol j Hj), map_map. apply fmean_of. auto. }
  rewrite (Permutation_length Hperm). split; [|split].
  - intros j ->. cbn [length Nat.eqb map]. fold (col j). rewrite Hsd by (left; auto).
    unfold fmean. simpl all_some. destruct (sd1 _) as [s|]; auto. do 2 f_equal. unfold mean. simpl. field.
  - intros Hne. apply Nat.eqb_neq in Hne. rewrite Hne. auto.
  - intros cs Hcs. f_equal.
    assert (Q : map (fun j => conf_of nq conf_level (resample j) (col j)) js = map Some cs).
    { clear - Hcs Hcol HV. revert Hcol. induction Hcs as [|j c js cs (s & Hs & ->) _ IH]; intros Hcol; auto.
      cbn [map]. f_equal; [|apply IH; intros; apply Hcol; right; auto].
      unfold conf_of. rewrite (Hcol j) by (left; auto).
      rewrite (fsd1_of _ (resample j) _ (fun idx => mean (map (fun t => Rabs (E t j)) idx))).
      - rewrite Hs. auto.
      - intros idx Hidx. apply fmean_of. intros t Ht.
        pose proof (HV j) as HVj. unfold valid_resample in HVj. rewrite Forall_forall in HVj.
        destruct (HVj idx Hidx) as [_ Hlt]. rewrite Forall_forall in Hlt. specialize (Hlt t Ht).
        rewrite nth_map_seq by auto. auto. }
    fold col. change (fmean (map (fun j => conf_of nq conf_level (resample j) (col j)) js) = Some (mean cs)).
    rewrite Q. unfold fmean. rewrite all_some_map. auto.
Qed.

(** ** Unscaled effects on designs *)
Lemma concat_sizes : forall size Ts ys, sized size Ts ys -> length (concat Ts) = length (concat ys) /\
  length (concat ys) = length Ts * size.
Proof.
  intros size Ts ys (A & B & C). rewrite (concat_length _ size Ts A), (concat_length _ size ys B), C. split; [auto|apply Nat.mul_comm].
Qed.

Lemma effect_path : forall delta T y j r s a hj e, (0 < hj)%R -> (s = 1 \/ s = -1)%R ->
  (forall k, k < length T -> nth j (nth k T []) 0%R = (if k <=? r then a else a + s * hj)%R) -> r + 1 < length T ->
  (is_effect delta T y j e <-> e = (s * (nth (r + 1)%nat y 0 - nth r y 0) / delta)%R).
Proof.
  intros delta T y j r s a hj e Hh Hs Hp Hr.
  assert (Hn : forall k x, nth_error T k = Some x -> k < length T /\ nth j x 0%R = (if k <=? r then a else a + s * hj)%R).
  { intros k x Hk. assert (k < length T) by (eapply nth_error_Some_lt; eauto). split; auto.
    rewrite <- Hp by auto. rewrite (nth_error_nth _ _ _ Hk). auto. }
  split.
  - intros (r' & u & v & Hu & Hv & H). destruct (Hn _ _ Hu) as [_ Eu]. destruct (Hn _ _ Hv) as [_ Ev].
    assert (r' = r).
    { destruct (Nat.leb_spec r' r), (Nat.leb_spec (r' + 1) r); try lia; rewrite Eu, Ev in H;
        exfalso; destruct H as [[H _]|[H _]]; lra. }
    subst r'. destruct (Nat.leb_spec r r); [|lia]. destruct (Nat.leb_spec (r + 1) r); [lia|].
    rewrite Eu, Ev in H.
    destruct Hs as [E|E]; rewrite E in *; destruct H as [[H ->]|[H ->]]; try (exfalso; lra); unfold Rdiv; ring.
  - intros ->. exists r, (nth r T []), (nth (r + 1) T []).
    split; [apply nth_error_nth'; lia|]. split; [apply nth_error_nth'; lia|].
    rewrite !Hp by lia. destruct (Nat.leb_spec r r); [|lia]. destruct (Nat.leb_spec (r + 1) r); [lia|].
    destruct Hs as [E|E]; rewrite E; [left|right]; (split; [lra|]); unfold Rdiv; ring.
Qed.

Theorem effects_reported : forall nq p ls h Ts ys conf_level levels resample,
  labels_of p ls -> length ls = p_num_vars p -> 0 < p_num_vars p -> 2 <= levels -> (0 < conf_level < 1)%R ->
  Ts <> [] -> evaluated ls h Ts ys -> (forall j, j < length ls -> (0 < h j)%R) ->
  (forall j, valid_resample (length Ts) (resample j)) ->
  exists E out,
    snd (morris_analyze nq p (mkMat (p_num_vars p) (concat Ts)) (concat ys) conf_level false levels resample) = Ok out /\
    summarises nq conf_level resample ls (length Ts) E out /\
    forall i j, i < length Ts -> j < length ls ->
      forall e, is_effect (step levels) (nth i Ts []) (nth i ys []) j e <-> e = E i j.
Proof.
  intros nq p ls h Ts ys conf_level levels resample H1 H2 H3 H4 H5 HT HE Hh HV.
  pose proof (evaluated_sized _ _ _ _ HE) as HS. destruct (concat_sizes _ _ _ HS) as [L1 L2].
  set (size := length (pd_unique ls) + 1) in *.
  destruct (levels_facts levels H4) as (_ & _ & Hst).
  set (E := fun i j => (difference size (concat Ts) (concat ys) i j / step levels)%R).
  destruct (measures_of nq p ls (mkMat (p_num_vars p) (concat Ts)) (concat ys) conf_level false levels resample
     (length Ts) E) as (out & Eo & Hsum); auto.
  - destruct Ts; [congruence|simpl; lia].
  - intros i j Hi Hj. unfold ee, fdiv, E, size. rewrite (proj2 (Reqb_false _ _)) by lra. auto.
  - exists E, out. split; auto. split; auto. intros i j Hi Hj e.
    destruct (difference_effect ls h Ts ys i j HE Hh Hi Hj) as (order & r & s & a & Ho & Er & Hr & Hs & Hp & Ed & _).
    unfold E, size. rewrite Ed. fold size in Hp.
    assert (HL : length (nth i Ts []) = size).
    { destruct HS as (A & _). rewrite Forall_forall in A. apply A, nth_In. auto. }
    apply (effect_path _ _ _ _ r s a (h j)); auto; rewrite HL; auto.
Qed.

(** ** Scaled effects on designs *)
Lemma xs_of_nth : forall size Ts i j, 0 < size -> Forall (fun T => length T = size) Ts -> i < length Ts ->
  xs_of size (concat Ts) i j = map (fun x => nth j x 0%R) (nth i Ts []).
Proof.
  intros size Ts i j Hsz HF Hi. unfold xs_of.
  assert (HL : length (nth i Ts []) = size) by (rewrite Forall_forall in HF; apply HF, nth_In; auto).
  rewrite (map_ext_in _ (fun k => nth j (nth k (nth i Ts []) []) 0%R)).
  2: { intros k Hk. apply in_seq in Hk. apply x_at_nth; auto. lia. }
  rewrite <- (map_map (fun k => nth k (nth i Ts []) []) (fun x => nth j x 0%R)). f_equal.
  rewrite <- HL. symmetry. apply list_nth_seq.
Qed.
Lemma ys_of_nth : forall size ys i, 0 < size -> Forall (fun T => length T = size) ys -> i < length ys ->
  ys_of size (concat ys) i = nth i ys [].
Proof.
  intros size ys i Hsz HF Hi. unfold ys_of.
  assert (HL : length (nth i ys []) = size) by (rewrite Forall_forall in HF; apply HF, nth_In; auto).
  rewrite (map_ext_in _ (fun k => nth k (nth i ys []) 0%R)).
  2: { intros k Hk. apply in_seq in Hk. apply y_at_nth; auto. lia. }
  rewrite <- HL. symmetry. apply list_nth_seq.
Qed.

Theorem scaled_effects_reported : forall nq p ls h Ts ys conf_level levels resample,
  labels_of p ls -> length ls = p_num_vars p -> 0 < p_num_vars p -> 2 <= levels -> (0 < conf_level < 1)%R ->
  Ts <> [] -> evaluated ls h Ts ys -> (forall j, j < length ls -> (0 < h j)%R) ->
  (forall j, valid_resample (length Ts) (resample j)) ->
  exists E out,
    snd (morris_analyze nq p (mkMat (p_num_vars p) (concat Ts)) (concat ys) conf_level true levels resample) = Ok out /\
    summarises nq conf_level resample ls (length Ts) E out /\
    forall i j, i < length Ts -> j < length ls -> is_scaled_effect (h j) (nth i Ts []) (nth i ys []) j (E i j).
Proof.
  intros nq p ls h Ts ys conf_level levels resample H1 H2 H3 H4 H5 HT HE Hh HV.
  pose proof (evaluated_sized _ _ _ _ HE) as HS. destruct (concat_sizes _ _ _ HS) as [L1 L2].
  set (size := length (pd_unique ls) + 1) in *.
  set (E := fun i j => (difference size (concat Ts) (concat ys) i j / h j *
     (if Reqb (sd (nth i ys [])) 0 then 0 else sd (map (fun x => nth j x 0) (nth i Ts [])) / sd (nth i ys [])))%R).
  destruct HS as (A & B & C).
  assert (Hsz : 0 < size) by (unfold size; lia).
  destruct (measures_of nq p ls (mkMat (p_num_vars p) (concat Ts)) (concat ys) conf_level true levels resample
     (length Ts) E) as (out & Eo & Hsum); auto.
  - destruct Ts; [congruence|simpl; lia].
  - intros i j Hi Hj. destruct (difference_effect ls h Ts ys i j HE Hh Hi Hj) as (order & r & s & a & Ho & Er & Hr & Hs & Hp & Ed & Edx).
    fold size in Edx |- *. specialize (Hh j Hj).
    unfold ee, scaled_effect, fdiv, E. cbn [rows]. rewrite Edx, (proj2 (Reqb_false (h j) 0)) by lra.
    rewrite ys_of_nth, xs_of_nth by (auto; lia). cbn [fmul]. auto.
  - exists E, out. split; auto. split; auto. intros i j Hi Hj.
    destruct (difference_effect ls h Ts ys i j HE Hh Hi Hj) as (order & r & s & a & Ho & Er & Hr & Hs & Hp & Ed & _).
    fold size in Hr, Hp, Ed.
    assert (HL : length (nth i Ts []) = size) by (rewrite Forall_forall in A; apply A, nth_In; auto).
    assert (HLy : length (nth i ys []) = size) by (rewrite Forall_forall in B; apply B, nth_In; lia).
    assert (Hne : nth i ys [] <> []) by (destruct (nth i ys []); [simpl in HLy; lia|discriminate]).
    unfold E. split.
    + intros Hconst. rewrite (proj2 (Reqb_true _ _)); [ring|]. apply sd_zero_iff; auto.
    + intros (u & v & Hu & Hv & Huv). rewrite (proj2 (Reqb_false _ _)).
      2: { intros Hz. apply Huv. apply (proj1 (sd_zero_iff _ Hne) Hz); auto. }
      eexists. split; [|reflexivity].
      apply (effect_path _ _ _ _ r s a (h j)); auto; try (rewrite HL; auto). rewrite Ed. auto.
Qed.
