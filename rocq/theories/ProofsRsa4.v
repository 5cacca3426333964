(** * RSA: statements in the terms of the specification. *)
From Coq Require Import Reals String List Arith ZArith Bool Lia Lra Permutation.
From Verif Require Import Base Arrays ListFacts ModelGroups SpecGroups ProofsGroups ModelScale ProofsScale Stats Sums ModelFast ModelMorris ModelMorrisAnalyze
  SpecSobol ProofsSobol Quant ModelPawn SpecPawn ProofsPawn ProofsPawn2 ProofsPawn4 ModelRsa SpecRsa ProofsRsa ProofsRsa2 ProofsRsa3.
Import ListNotations.
Local Open Scope nat_scope.

Lemma names_eq : forall p ls ns, labels_of p ls -> first_appearance ls ns -> fst (extract_group_names p) = ns.
Proof. intros p ls ns H1 H2. eapply first_appearance_unique; eauto. apply names_of_labels. auto. Qed.

Lemma report_reported : forall ns bins target r, NoDup ns -> length ns <= length r -> reported (report ns bins target r) ns bins target r.
Proof.
  intros ns bins target r ND L. destruct (report_names ns bins target r) as (A & B & C). repeat split; auto.
  intros i n Hn Hr. apply report_values; auto.
Qed.

Lemma rsa_ungrouped : forall p X Y bins target ls ns r, ungrouped p -> labels_of p ls -> first_appearance ls ns -> length ns <= cols X ->
  rsa X Y bins target = Ok r -> exists d, rsa_analyze p X Y bins target = Ok d /\ reported d ns bins target r.
Proof.
  intros p X Y bins target ls ns r HU HL HF HC HR. pose proof (names_eq p ls ns HL HF) as EN.
  rewrite (analyze_ungrouped p X Y bins target r (ungrouped_check p HU) HR). rewrite EN.
  assert (LR : length r = cols X). { unfold rsa in HR. destruct (bins =? 0); [discriminate|]. apply mapM_Ok_length in HR. rewrite seq_length in HR. auto. }
  destruct (Nat.leb_spec (length ns) (length r)); [|lia]. eexists. split; [reflexivity|]. apply report_reported; [apply HF|lia].
Qed.

Lemma rsa_shape : forall X Y bins target r, rsa X Y bins target = Ok r -> length r = cols X /\ Forall (fun c => length c = bins) r.
Proof.
  intros X Y bins target r HR. unfold rsa in HR. destruct (bins =? 0); [discriminate|].
  pose proof (mapM_Ok_length _ _ HR) as L. rewrite seq_length in L. split; auto. apply Forall_forall. intros c Hc.
  apply In_nth_error in Hc. destruct Hc as (d & Hd). assert (d < cols X) by (rewrite <- L; apply nth_error_Some; congruence).
  destruct (mapM_Ok_nth _ _ d HR (x := d)) as (c' & E & E').
  { rewrite nth_error_seq. destruct (Nat.ltb_spec d (cols X)); auto; lia. }
  assert (c' = c) by congruence. subst c'. destruct (mapM _ (rows X)); cbn [bind] in E; [|discriminate]. unfold rsa_column in E.
  destruct (if String.eqb target "X" then _ else _) as [[t m]|]; cbn [bind] in E; [|discriminate]. destruct t; [discriminate|]. cbv zeta in E.
  apply mapM_Ok_length in E. rewrite seq_length in E. auto.
Qed.

Lemma first_appearance_length : forall g ns, first_appearance g ns -> length ns <= length g /\ (length ns = length g <-> NoDup g).
Proof.
  intros g ns (ND & HI & _). split; [apply NoDup_incl_length; auto; intros x Hx; apply HI; auto|]. split.
  - intros E. apply NoDup_incl_NoDup with ns; auto; [lia|]. intros x Hx. apply HI. auto.
  - intros NG. apply Nat.le_antisymm; apply NoDup_incl_length; auto; intros x Hx; apply HI; auto.
Qed.

Lemma rsa_grouped : forall p X Y bins target g r, grouped p g -> length g = cols X -> rsa X Y bins target = Ok r ->
  (NoDup g -> exists d, rsa_analyze p X Y bins target = Ok d /\ reported d g bins target r) /\
  (~ NoDup g -> rsa_analyze p X Y bins target = Err IndexError).
Proof.
  intros p X Y bins target g r HG LG HR. pose proof (grouped_check p g HG) as EC.
  destruct HG as (Eg & _ & x & y & Hx & _).
  assert (HL : labels_of p g) by (left; destruct g as [|a g]; [destruct Hx|]; exists a, g; auto).
  pose proof (names_of_labels p g HL) as HF. destruct (rsa_shape _ _ _ _ _ HR) as (LR & FR).
  destruct (first_appearance_length _ _ HF) as (L1 & L2).
  assert (NE : fst (extract_group_names p) <> []).
  { intros E. destruct HF as (_ & HI & _). rewrite E in HI. apply (HI x). auto. }
  rewrite (analyze_grouped p X Y bins target g r EC HR NE FR). rewrite LR, <- LG. split; intros N.
  - rewrite (proj2 L2 N), Nat.eqb_refl.
    assert (E : fst (extract_group_names p) = g).
    { eapply first_appearance_unique; eauto. split; auto. split; [tauto|]. intros i j u w Hij Hu Hw.
      exists i, j. split; auto. assert (FA : forall k v, nth_error g k = Some v -> first_at g v k).
      { intros k v Hv. split; auto. intros m Hm Hmv. assert (m = k); [|lia]. apply (proj1 (NoDup_nth_error g) N); [apply nth_error_Some; congruence|congruence]. }
      auto. }
    rewrite E. eexists. split; [reflexivity|]. apply report_reported; auto. lia.
  - destruct (Nat.eqb_spec (length (fst (extract_group_names p))) (length g)) as [E|]; [|reflexivity]. exfalso. apply N, L2, E.
Qed.

Lemma one_label : forall p n g, p_groups p = Some (repeat g n) -> 2 <= n -> check_groups p = None /\ fst (extract_group_names p) = [g].
Proof.
  intros p n g Hg HD.
  assert (Et : truthy_groups p = Some (repeat g n)).
  { unfold truthy_groups. rewrite Hg. destruct n; [lia|]. reflexivity. }
  split.
  - unfold check_groups. rewrite Et. destruct (list_eqb _ _); auto.
    assert (S1 : set_size (repeat g n) = 1).
    { apply set_size_1. split; [destruct n; [lia|discriminate]|]. intros x y Hx Hy. apply repeat_spec in Hx, Hy. congruence. }
    rewrite S1. reflexivity.
  - unfold extract_group_names. rewrite Et. cbn [fst]. destruct n as [|m]; [lia|].
    assert (K : forall m seen, mem g seen = true -> pd_unique_from seen (repeat g m) = []).
    { induction m0 as [|m0 IH]; intros seen Hs; simpl; auto. rewrite Hs. auto. }
    simpl. unfold pd_unique. simpl. f_equal. apply K. simpl. rewrite String.eqb_refl. reflexivity.
Qed.
Lemma rsa_one_label : forall p X Y bins target g r, p_groups p = Some (repeat g (cols X)) -> 2 <= cols X -> rsa X Y bins target = Ok r ->
  exists d, rsa_analyze p X Y bins target = Ok d /\ reported d [g] bins target r.
Proof.
  intros p X Y bins target g r Hg HD HR. destruct (one_label p _ g Hg HD) as (EC & EN). destruct (rsa_shape _ _ _ _ _ HR) as (LR & _).
  rewrite (analyze_ungrouped p X Y bins target r EC HR), EN. destruct (Nat.leb_spec (length [g]) (length r)) as [|C]; [|simpl in C; lia].
  eexists. split; [reflexivity|]. apply report_reported; [constructor; auto; constructor|lia].
Qed.

Lemma reserved_lost : forall p X Y bins target d n ns, rsa_analyze p X Y bins target = Ok d -> fst (extract_group_names p) = ns -> In n ns ->
  In n ["names"; "bins"; "target"]%string ->
  (forall v, dict_get d n <> Some (Values v)) /\ exists df, rsa_to_df d = Ok df /\ In (n, None) df.
Proof.
  intros p X Y bins target d n ns H EN Hn Hr. unfold rsa_analyze in H. destruct (rsa _ _ _ _) as [r|]; cbn [bind] in H; [|discriminate].
  rewrite EN in H. destruct (match check_groups p with Some _ => _ | None => _ end) as [r'|]; cbn [bind] in H; [|discriminate].
  destruct (mapM _ _) as [vals|]; cbn [bind] in H; [|discriminate]. injection H as <-. split.
  - intros v. rewrite !get_set. destruct Hr as [<-|[<-|[<-|[]]]]; simpl; discriminate.
  - unfold rsa_to_df. rewrite !get_set. simpl String.eqb. cbn iota. eexists. split; [reflexivity|]. apply in_map_iff. exists n. split; auto. f_equal.
    assert (E : existsb (String.eqb n) ["names"; "bins"; "target"]%string = true).
    { apply existsb_exists. exists n. split; auto. apply String.eqb_refl. }
    rewrite E. reflexivity.
Qed.

Lemma bin_cell_determined : forall c t y m s r r', bin_cell c t y m s r -> bin_cell c t y m s r' -> (exists v, r = Ok v) -> exists v, r' = Ok v.
Proof.
  intros c t y m s r r' (k & Hk & H) (k' & Hk' & H') (v & ->). cbv zeta in *.
  assert (EK : forall x, k x = k' x). { intros x. specialize (Hk x). specialize (Hk' x). destruct (k x), (k' x); auto; exfalso; [assert (false = true) by tauto|assert (false = true) by tauto]; discriminate. }
  assert (EI : forall z, inside k t z = inside k' t z). { intros z. unfold inside. f_equal. apply filter_ext. intros [a b]. simpl. auto. }
  assert (EO : forall z, outside k t z = outside k' t z). { intros z. unfold outside. f_equal. apply filter_ext. intros [a b]. simpl. f_equal. auto. }
  rewrite EI, EI, EO in H. destruct H as (A & B & C), H' as (A' & B' & C').
  destruct (le_lt_dec (distinct (inside k' t y)) 1) as [L|L].
  - assert (N : ~ two_different (inside k' t y)) by (intros T; apply distinct_two in T; lia). eauto.
  - apply distinct_two in L. destruct (outside k' t m) as [|u [|u' w]].
    + eauto.
    + discriminate (B L eq_refl).
    + destruct (C' L ltac:(simpl; lia)) as (z & E & _). eauto.
Qed.
