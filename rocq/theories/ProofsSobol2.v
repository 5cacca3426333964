(** * Proofs: reading the outputs back, sampler/analyser agreement. *)
From Coq Require Import Reals String List Arith ZArith Bool Lia Lra.
From Verif Require Import Base Arrays ModelGroups SpecGroups ProofsGroups ProofsGroups2 ModelScale
  ProofsScale Stats ModelSobol SpecSobol ProofsSobol.
Import ListNotations.
Local Open Scope nat_scope.

Lemma length_by_nth : forall A (l : list A) n,
  (forall i, i < n -> nth_error l i <> None) -> nth_error l n = None -> length l = n.
Proof.
  intros A l n H1 H2. apply nth_error_None in H2.
  destruct (Nat.eq_dec (length l) n); auto. exfalso.
  apply (H1 (length l)); [lia|]. apply nth_error_None. lia.
Qed.

Lemma slice_step_length : forall A (Y : list A) N step start, start < step ->
  length Y = N * step -> length (slice_step Y start step) = N.
Proof.
  intros A Y N step start Hs HL. apply length_by_nth.
  - intros i Hi. rewrite nth_error_slice_step by lia. apply nth_error_Some. nia.
  - rewrite nth_error_slice_step by lia. apply nth_error_None. nia.
Qed.

Lemma mapM_assign : forall A (f : nat -> list A) N D, (forall j, j < D -> length (f j) = N) ->
  mapM (fun j => if length (f j) =? N then Ok (f j) else Err ValueError) (seq 0 D)
  = Ok (map f (seq 0 D)).
Proof.
  intros A f N D H. rewrite <- mapM_Ok_map. apply mapM_ext. intros j Hj.
  apply in_seq in Hj. rewrite H by lia. rewrite Nat.eqb_refl. reflexivity.
Qed.

Lemma separate_ok : forall A (Y : list A) D N second, length Y = N * block_size D second ->
  exists a b ab ba, separate_output_values Y D N second = Ok (a, b, ab, ba) /\
    length a = N /\ length b = N /\ length ab = D /\ Forall (fun c => length c = N) ab /\
    (second = true -> exists ba', ba = Some ba' /\ length ba' = D /\
                                  Forall (fun c => length c = N) ba' /\
       forall i k, i < N -> k < D ->
         entry ba' k i = nth_error Y (i * block_size D second + (1 + D + k))) /\
    (second = false -> ba = None) /\
    (forall i, i < N -> nth_error a i = nth_error Y (i * block_size D second)) /\
    (forall i, i < N ->
       nth_error b i = nth_error Y (i * block_size D second + (block_size D second - 1))) /\
    (forall i k, i < N -> k < D ->
       entry ab k i = nth_error Y (i * block_size D second + (1 + k))).
Proof.
  intros A Y D N second HL. unfold separate_output_values.
  change (if second then 2 * D + 2 else D + 2) with (block_size D second).
  set (step := block_size D second) in *.
  assert (Hstep : D + 2 <= step /\ (second = true -> step = 2 * D + 2)).
  { unfold step, block_size. destruct second; split; intros; try lia. }
  destruct Hstep as [Hs1 Hs2].
  rewrite (mapM_assign _ (fun j => slice_step Y (j + 1) step))
    by (intros; apply slice_step_length; lia).
  cbn [bind].
  assert (Hcols : forall off, (forall j, j < D -> off + j < step) ->
    forall i k, i < N -> k < D ->
    entry (map (fun j => slice_step Y (off + j) step) (seq 0 D)) k i =
    nth_error Y (i * step + (off + k))).
  { intros off Ho i k Hi Hk. unfold entry. rewrite nth_error_map', nth_error_seq.
    destruct (Nat.ltb_spec k D); [|lia]. simpl option_map. cbv iota.
    rewrite nth_error_slice_step by lia. f_equal. lia. }
  assert (Ecol : map (fun j => slice_step Y (j + 1) step) (seq 0 D)
               = map (fun j => slice_step Y (1 + j) step) (seq 0 D))
    by (apply map_ext; intros; f_equal; lia).
  assert (HA : forall i, i < N -> nth_error (slice_step Y 0 step) i = nth_error Y (i * step)).
  { intros i Hi. rewrite nth_error_slice_step by lia. f_equal. lia. }
  assert (HB : forall i, i < N ->
     nth_error (slice_step Y (step - 1) step) i = nth_error Y (i * step + (step - 1))).
  { intros i Hi. rewrite nth_error_slice_step by lia. f_equal. lia. }
  assert (HF : forall off, (forall j, j < D -> off + j < step) ->
     Forall (fun c => length c = N) (map (fun j => slice_step Y (off + j) step) (seq 0 D))).
  { intros off Ho. apply Forall_forall. intros c Hc. apply in_map_iff in Hc.
    destruct Hc as (j & <- & Hj). apply in_seq in Hj. apply slice_step_length; auto. apply Ho. lia. }
  destruct second.
  - specialize (Hs2 eq_refl).
    rewrite (mapM_assign _ (fun j => slice_step Y (j + 1 + D) step))
      by (intros; apply slice_step_length; lia).
    cbn [bind].
    assert (Ecol2 : map (fun j => slice_step Y (j + 1 + D) step) (seq 0 D)
                  = map (fun j => slice_step Y (1 + D + j) step) (seq 0 D))
      by (apply map_ext; intros; f_equal; lia).
    do 4 eexists. split; [reflexivity|]. rewrite Ecol.
    split; [apply slice_step_length; lia|]. split; [apply slice_step_length; lia|].
    split; [rewrite map_length, seq_length; auto|].
    split; [apply HF; intros; lia|]. split; [|split; [|split; [|split]]]; auto; try discriminate.
    + intros _. eexists. split; [reflexivity|]. rewrite Ecol2.
      split; [rewrite map_length, seq_length; auto|].
      split; [apply HF; intros; lia|]. intros. apply Hcols; auto. intros; lia.
    + intros. apply Hcols; auto. intros; lia.
  - cbn [bind]. do 4 eexists. split; [reflexivity|]. rewrite Ecol.
    split; [apply slice_step_length; lia|]. split; [apply slice_step_length; lia|].
    split; [rewrite map_length, seq_length; auto|].
    split; [apply HF; intros; lia|]. split; [|split; [|split; [|split]]]; auto; try discriminate.
    intros. apply Hcols; auto. intros; lia.
Qed.

(** Sampling, evaluating any model on every row and separating gives back the model values at the
    A, AB, BA and B points. *)
Lemma roundtrip : forall A B zero (base : list (list A)) idxs p second rows G (f : list A -> B),
  labelled p ->
  (forall i, In i idxs -> exists b, nth_error base i = Some b /\ length b = 2 * p_num_vars p) ->
  group_count p G -> cross_sample zero base idxs p second = Ok rows ->
  exists ya yb yab yba,
    separate_output_values (map f rows) G (length idxs) second = Ok (ya, yb, yab, yba) /\
    length ya = length idxs /\ length yb = length idxs /\ length yab = G /\
    Forall (fun c => length c = length idxs) yab /\
    (second = true -> exists ba, yba = Some ba /\ length ba = G /\
                        Forall (fun c => length c = length idxs) ba) /\
    (second = false -> yba = None) /\
    forall i n a b, nth_error idxs i = Some n -> nth_error base n = Some (a ++ b) ->
      length a = p_num_vars p -> length b = p_num_vars p ->
      nth_error ya i = Some (f a) /\ nth_error yb i = Some (f b) /\
      (forall k, k < G -> exists r, replaced (in_group p k) a b r /\ entry yab k i = Some (f r)) /\
      (forall ba, yba = Some ba -> forall k, k < G ->
         exists r, replaced (in_group p k) b a r /\ entry ba k i = Some (f r)).
Proof.
  intros A B zero base idxs p second rows G f HL Hb HG HE.
  destruct (cross_sample_layout zero base idxs p second HL Hb)
    as (rows' & G' & E & HG' & HLen & HW & Hlay).
  assert (G' = G) by (eapply group_count_fun; eauto). subst G'.
  rewrite E in HE. injection HE as <-.
  destruct (separate_ok B (map f rows') G (length idxs) second) as
    (ya & yb & yab & yba & Es & La & Lb & Lab & Fab & Hba & Hnba & Ra & Rb & Rab).
  { rewrite map_length. auto. }
  exists ya, yb, yab, yba.
  split; [auto|]. split; [auto|]. split; [auto|]. split; [auto|]. split; [auto|].
  split; [|split; [auto|]].
  { intros Hs. destruct (Hba Hs) as (ba & H1 & H2 & H3 & _). eauto. }
  intros i n a b Hi Hn Ha Hbl.
  assert (Hlt : i < length idxs) by (eapply nth_error_Some_lt; eauto).
  destruct (Hlay i n a b Hi Hn Ha Hbl) as (S0 & S1 & S2 & S3).
  set (bs := block_size G second) in *.
  assert (Hbs : G + 2 <= bs /\ (second = true -> bs = 2 * G + 2)).
  { unfold bs, block_size. destruct second; split; intros; try lia. }
  destruct Hbs as [Hb1 Hb2].
  assert (Erow : forall t r, t < bs ->
    (if t <? bs then nth_error rows' (i * bs + t) else None) = Some r ->
    nth_error (map f rows') (i * bs + t) = Some (f r)).
  { intros t r Ht H. destruct (Nat.ltb_spec t bs); [|lia].
    rewrite nth_error_map', H. reflexivity. }
  split; [|split; [|split]].
  - rewrite Ra by auto. replace (i * bs) with (i * bs + 0) by lia. apply Erow; auto. lia.
  - rewrite Rb by auto. apply Erow; auto. lia.
  - intros k Hk. destruct (S2 k Hk) as (r & Hr1 & Hr2). exists r. split; auto.
    rewrite Rab by auto. apply Erow; auto. lia.
  - intros ba Eba k Hk. destruct second; [|rewrite Hnba in Eba by auto; discriminate].
    destruct (Hba eq_refl) as (ba' & Eba' & _ & _ & Hent). rewrite Eba in Eba'. injection Eba' as <-.
    destruct (S3 eq_refl k Hk) as (r & Hr1 & Hr2). exists r. split; auto.
    rewrite Hent by auto. apply Erow; auto. specialize (Hb2 eq_refl). lia.
Qed.

(** ** Agreement on the number of groups *)
Lemma analyser_groups : forall p, snd (extract_group_names p) = length (pd_unique (group_source p)).
Proof. intros. rewrite extract_group_names_eq. reflexivity. Qed.

Lemma pd_unique_from_id : forall l seen, NoDup l -> (forall x, In x l -> ~ In x seen) ->
  pd_unique_from seen l = l.
Proof.
  induction l; simpl; intros seen HN Hs; auto.
  inversion HN; subst. destruct (mem a seen) eqn:E.
  - apply mem_In in E. exfalso. apply (Hs a); auto.
  - f_equal. apply IHl; auto. intros x Hx [->|Hin]; auto. apply (Hs x); auto.
Qed.
Lemma pd_unique_id : forall l, NoDup l -> pd_unique l = l.
Proof. intros. apply pd_unique_from_id; auto. Qed.

Lemma single_label_unique : forall g x l, (forall y, In y (x :: l) -> y = g) -> pd_unique (x :: l) = [g].
Proof.
  intros g x l H.
  assert (HN := pd_unique_NoDup (x :: l)). assert (HI := pd_unique_In (x :: l)).
  destruct (pd_unique (x :: l)) as [|a [|b r]].
  - exfalso. apply (HI x). simpl; auto.
  - f_equal. apply H. apply HI. simpl; auto.
  - exfalso. inversion HN; subst. apply H2. left.
    transitivity g; [|symmetry]; apply H; apply HI; simpl; auto.
Qed.

Lemma groups_agree : forall p G names,
  NoDup (p_names p) -> length (p_names p) = p_num_vars p ->
  (one_group p -> p_num_vars p = 1) ->
  sampler_groups p = Ok (G, names) -> snd (extract_group_names p) = G.
Proof.
  intros p G names HN HL H1 HS. rewrite analyser_groups.
  destruct (sampler_groups_ok p) as (G' & names' & E & _ & _ & Hg).
  rewrite E in HS. injection HS as <- <-.
  unfold sampler_groups in E. unfold group_source.
  destruct (check_groups p) as [g|] eqn:C.
  - rewrite (Hg g eq_refl). apply check_groups_iff in C. destruct C as (C1 & C2 & x & y & Hx & _).
    rewrite C1. destruct g; [destruct Hx|reflexivity].
  - injection E as <- <-.
    destruct (p_groups p) as [[|g0 gs]|] eqn:EG.
    + rewrite pd_unique_id by auto. auto.
    + unfold check_groups, truthy_groups in C. rewrite EG in C.
      destruct (list_eqb (g0 :: gs) (p_names p)) eqn:Q1.
      * apply list_eqb_eq in Q1. rewrite Q1, pd_unique_id by auto. auto.
      * destruct (set_size (g0 :: gs) =? 1) eqn:Q2; [|discriminate].
        apply Nat.eqb_eq, set_size_1 in Q2. destruct Q2 as [_ Q2].
        assert (HA : forall y, In y (g0 :: gs) -> y = g0) by (intros; apply Q2; simpl; auto).
        rewrite (single_label_unique g0) by auto. simpl.
        symmetry. apply H1. exists g0, g0, gs. auto.
    + rewrite pd_unique_id by auto. auto.
Qed.

Lemma single_group_sampler : forall p g x l, p_groups p = Some (x :: l) ->
  (forall y, In y (x :: l) -> y = g) ->
  sampler_groups p = Ok (p_num_vars p, []) /\ extract_group_names p = ([g], 1).
Proof.
  intros p g x l E H. split.
  - unfold sampler_groups. destruct (check_groups p) as [g'|] eqn:C; auto.
    apply check_groups_iff in C. destruct C as (C1 & _ & a & b & Ha & Hb & Hab).
    exfalso. assert (g' = x :: l) by congruence. subst. apply Hab.
    rewrite (H a Ha), (H b Hb). auto.
  - rewrite extract_group_names_eq. unfold group_source. rewrite E.
    rewrite (single_label_unique g) by auto. reflexivity.
Qed.
