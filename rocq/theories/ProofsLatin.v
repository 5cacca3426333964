(** * Proofs about Latin hypercube sampling. *)
From Coq Require Import Reals String List Arith Bool Lia Lra Permutation.
From Verif Require Import Base Arrays ModelGroups SpecGroups ProofsGroups ModelScale ProofsScale SpecSobol
  ProofsSobol6 ModelLatin SpecLatin.
Import ListNotations.
Local Open Scope nat_scope.

Lemma set_size_unique : forall l, set_size l = length (pd_unique l).
Proof.
  intros l. unfold set_size. apply Permutation_length. apply NoDup_Permutation.
  - apply NoDup_nodup.
  - apply pd_unique_NoDup.
  - intros x. rewrite nodup_In, pd_unique_In. tauto.
Qed.

Lemma where_one_In : forall G g i, In i (where_one G g) <-> entry G i g = Some 1.
Proof.
  intros G g i. unfold where_one. rewrite filter_In, in_seq. split.
  - intros [_ H]. destruct (entry G i g) as [[|[|n]]|]; try discriminate. auto.
  - intros H. rewrite H. split; auto.
    apply entry_Some in H. destruct H as (r & Hr & _). apply nth_error_Some_lt in Hr. lia.
Qed.

(** The groups partition the parameters. *)
Lemma latin_groups_ok : forall p, every_labelled p ->
  exists n members gof, latin_groups p = Ok (n, members) /\
    (forall j, j < p_num_vars p -> gof j < n) /\
    (forall g j, g < n -> In j (members g) -> j < p_num_vars p /\ gof j = g) /\
    (forall j, j < p_num_vars p -> In j (members (gof j))) /\
    (forall j j', j < p_num_vars p -> j' < p_num_vars p -> same_group p j j' -> gof j = gof j').
Proof.
  intros p HL. unfold latin_groups. destruct (truthy_groups p) as [g|] eqn:E.
  - assert (Ep : p_groups p = Some g).
    { unfold truthy_groups in E. destruct (p_groups p) as [[|x l]|]; congruence. }
    assert (Hg : length g = p_num_vars p).
    { unfold truthy_groups in E. destruct g as [|x l]; [destruct (p_groups p) as [[|? ?]|]; discriminate|].
      eapply HL; eauto. }
    destruct (compute_groups_matrix_total g) as [m Hm]. rewrite Hm. cbn [bind fst].
    destruct (groups_matrix_membership _ _ _ Hm) as (Lm & _ & He).
    destruct (groups_matrix_row_col _ _ _ Hm) as (Hr & _).
    assert (HN := pd_unique_NoDup g).
    assert (forall j, exists k, j < p_num_vars p -> k < set_size g /\ entry m j k = Some 1).
    { intros j. destruct (Nat.lt_ge_cases j (p_num_vars p)) as [Hj|Hj]; [|exists 0; lia].
      destruct (Hr j) as (k & Hk & _); [lia|]. exists k. intros _. split; auto.
      apply He in Hk. destruct Hk as (x & _ & Hx). apply nth_error_Some_lt in Hx.
      rewrite set_size_unique. auto. }
    exists (set_size g), (where_one m).
    exists (fun j => match find (fun k => match entry m j k with Some 1 => true | _ => false end) (seq 0 (set_size g))
                     with Some k => k | None => 0 end).
    assert (HF : forall j k, j < p_num_vars p -> k < set_size g -> entry m j k = Some 1 ->
      find (fun k => match entry m j k with Some 1 => true | _ => false end) (seq 0 (set_size g)) = Some k).
    { intros j k Hj Hk Hek.
      destruct (find _ _) as [k'|] eqn:F.
      - apply find_some in F. destruct F as [_ F].
        destruct (entry m j k') as [[|[|?]]|] eqn:E'; try discriminate.
        f_equal. destruct (Hr j) as (k0 & _ & U); [lia|]. rewrite (U k), (U k'); auto.
      - assert (Hn := find_none _ _ F k). cbv beta in Hn. rewrite Hek in Hn. discriminate Hn. apply in_seq; lia. }
    split; auto. split; [|split; [|split]].
    + intros j Hj. destruct (H j) as (k & Hk). destruct (Hk Hj) as [Hk1 Hk2]. rewrite (HF j k); auto.
    + intros k j Hk Hin. apply where_one_In in Hin.
      assert (j < p_num_vars p).
      { apply entry_Some in Hin. destruct Hin as (r & Hr' & _). apply nth_error_Some_lt in Hr'. lia. }
      split; auto. rewrite (HF j k); auto.
    + intros j Hj. destruct (H j) as (k & Hk). destruct (Hk Hj) as [Hk1 Hk2]. rewrite (HF j k); auto.
      apply where_one_In. auto.
    + intros j j' Hj Hj' [<-|(g' & x & Eg & H1 & H2)]; auto.
      rewrite Ep in Eg. injection Eg as <-.
      destruct (H j) as (k & Hk). destruct (Hk Hj) as [Hk1 Hk2]. rewrite (HF j k), (HF j' k); auto.
      apply He in Hk2. destruct Hk2 as (y & Hy & Hn). apply He. exists x. split; auto. congruence.
  - exists (p_num_vars p), (fun g => [g]), (fun j => j). split; auto. split; auto.
    split; [|split].
    + intros g j Hg [<-|[]]. auto.
    + simpl; auto.
    + intros j j' _ _ [<-|(g & x & Eg & H1 & H2)]; auto. exfalso.
      unfold truthy_groups in E. rewrite Eg in E. destruct g; [|discriminate]. destruct j; discriminate.
Qed.

Section Unit.
Variables (p : problem) (N : nat) (u : nat -> nat -> R) (perm : nat -> list nat) (junk : R).
Hypothesis (HL : every_labelled p) (HN : 0 < N).
Hypothesis HD : proper_draws N u perm.

Let val (g s : nat) : R := latin_draw N u (nth s (perm g) 0) g.

Lemma perm_length : forall g, length (perm g) = N.
Proof. intros g. rewrite (Permutation_length (proj2 HD g)), seq_length. auto. Qed.

Lemma shuffled_get : forall g s, s < N ->
  get (map (fun i => latin_draw N u i g) (perm g)) s = Ok (val g s).
Proof.
  intros g s Hs. unfold get. rewrite nth_error_map'.
  rewrite (nth_error_nth' (perm g) 0) by (rewrite perm_length; auto). reflexivity.
Qed.

Lemma groups_loop : forall n members, (forall g j, g < n -> In j (members g) -> j < p_num_vars p) ->
  forall gs c, (forall g, In g gs -> g < n) ->
  foldM (fun m g =>
      let shuffled := map (fun i => latin_draw N u i g) (perm g) in
      foldM (fun m s => do r <- get m s ;;
                        do r' <- (do v <- get shuffled s ;; set_many r (members g) v) ;;
                        Ok (update m s r')) (seq 0 N) m) gs (tab N (p_num_vars p) c)
  = Ok (tab N (p_num_vars p) (fun s j => fold_left (fun x g => if existsb (Nat.eqb j) (members g) then val g s else x) gs (c s j))).
Proof.
  intros n members HM. induction gs as [|g gs IH]; intros c Hgs; cbn [foldM fold_left]; auto.
  rewrite (@foldM_rows_tab R N (p_num_vars p)
     (fun s r => do v <- get (map (fun i => latin_draw N u i g) (perm g)) s ;; set_many r (members g) v)
     c (fun s j => if existsb (Nat.eqb j) (members g) then val g s else c s j)).
  - cbn [bind]. rewrite IH; [auto|]. intros; apply Hgs; simpl; auto.
  - intros s Hs. rewrite shuffled_get by auto. cbn [bind]. apply set_many_seq.
    intros j Hj. eapply HM; eauto. apply Hgs. simpl; auto.
Qed.

Lemma fold_unique : forall (j s : nat) members g0 gs x, NoDup gs ->
  (forall g, In g gs -> (In j (members g) <-> g = g0)) -> In g0 gs ->
  fold_left (fun x g => if existsb (Nat.eqb j) (members g) then val g s else x) gs x = val g0 s.
Proof.
  intros j s members g0.
  assert (Hex : forall g, existsb (Nat.eqb j) (members g) = true <-> In j (members g)).
  { intros g. rewrite existsb_exists. split.
    - intros (y & Hy & E). apply Nat.eqb_eq in E. subst; auto.
    - intros H. exists j. rewrite Nat.eqb_refl. auto. }
  assert (Hnone : forall gs x, (forall g, In g gs -> ~ In j (members g)) ->
    fold_left (fun x g => if existsb (Nat.eqb j) (members g) then val g s else x) gs x = x).
  { induction gs as [|g gs IH]; intros x H; cbn [fold_left]; auto.
    destruct (existsb (Nat.eqb j) (members g)) eqn:E.
    - apply Hex in E. exfalso. apply (H g); simpl; auto.
    - apply IH. intros; apply H; simpl; auto. }
  induction gs as [|g gs IH]; intros x ND H Hin; [destruct Hin|]. cbn [fold_left].
  inversion ND; subst. destruct (Nat.eq_dec g g0) as [->|Hne].
  - replace (existsb (Nat.eqb j) (members g0)) with true.
    + apply Hnone. intros g Hg Hj. apply H in Hj; [|simpl; auto]. subst. auto.
    + symmetry. apply Hex. apply H; simpl; auto.
  - destruct Hin as [->|Hin]; [congruence|]. apply IH; auto. intros; apply H; simpl; auto.
Qed.

Lemma latin_unit_ok : exists gof,
  latin_unit p N u perm junk = Ok (tab N (p_num_vars p) (fun s j => val (gof j) s)) /\
  (forall j j', j < p_num_vars p -> j' < p_num_vars p -> same_group p j j' -> gof j = gof j').
Proof.
  destruct (latin_groups_ok p HL) as (n & members & gof & E & H1 & H2 & H3 & H4).
  exists gof. split; auto. unfold latin_unit. rewrite E. cbn [bind].
  replace (N =? 0) with false by (symmetry; apply Nat.eqb_neq; lia).
  rewrite repeat_tab, (groups_loop n members).
  - f_equal. apply tab_ext. intros s j Hs Hj. apply fold_unique.
    + apply seq_NoDup.
    + intros g Hg. apply in_seq in Hg. split.
      * intros Hin. symmetry. apply (H2 g j); auto. lia.
      * intros ->. auto.
    + apply in_seq. pose proof (H1 j Hj). lia.
  - intros g j Hg Hj. apply (H2 g j); auto.
  - intros g Hg. apply in_seq in Hg. lia.
Qed.

Lemma draw_in_stratum : forall i g, (INR i / INR N <= latin_draw N u i g < (INR i + 1) / INR N)%R.
Proof.
  intros i g. unfold latin_draw. rewrite plus_INR. simpl (INR 1).
  destruct HD as [Hu _]. specialize (Hu i g). pose proof (lt_0_INR N HN) as HNp.
  assert (0 < / INR N)%R by (apply Rinv_0_lt_compat; auto). unfold Rdiv. rewrite Rmult_1_l. nra.
Qed.

(** Strata are disjoint. *)
Lemma stratum_unique : forall x i k, (INR i / INR N <= x < (INR i + 1) / INR N)%R ->
  (INR k / INR N <= x < (INR k + 1) / INR N)%R -> i = k.
Proof.
  intros x i k H1 H2. pose proof (lt_0_INR N HN) as HNp.
  assert (Q : forall a b, (INR a / INR N < (INR b + 1) / INR N)%R -> a <= b).
  { intros a b H. apply (Rmult_lt_compat_r (INR N)) in H; auto.
    unfold Rdiv in H. rewrite !Rmult_assoc, Rinv_l in H by lra. rewrite !Rmult_1_r in H.
    rewrite <- S_INR in H. apply INR_lt in H. lia. }
  apply Nat.le_antisymm; apply Q; lra.
Qed.

Lemma unit_stratified : forall rs, latin_unit p N u perm junk = Ok rs ->
  length rs = N /\ Forall (fun r => length r = p_num_vars p) rs /\
  (forall j k, j < p_num_vars p -> k < N ->
    exactly_one_row rs N j (INR k / INR N) ((INR k + 1) / INR N)) /\
  (forall s j x, entry rs s j = Some x -> (0 <= x < 1)%R) /\
  (forall j j' s, j < p_num_vars p -> j' < p_num_vars p -> same_group p j j' ->
     entry rs s j = entry rs s j').
Proof.
  intros rs Hrs. destruct latin_unit_ok as (gof & E & HG). rewrite Hrs in E. injection E as ->.
  split; [apply tab_length|]. split; [apply tab_widths|]. split; [|split].
  - intros j k Hj Hk.
    assert (Hin : In k (perm (gof j))).
    { eapply Permutation_in; [apply Permutation_sym, (proj2 HD)|]. apply in_seq. lia. }
    assert (ND : NoDup (perm (gof j))).
    { eapply Permutation_NoDup; [apply Permutation_sym, (proj2 HD)|]. apply seq_NoDup. }
    destruct (In_nth _ _ 0 Hin) as (s & Hs & Es). rewrite perm_length in Hs.
    exists s. split; auto. split.
    + exists (val (gof j) s). rewrite entry_tab.
      replace ((s <? N) && (j <? p_num_vars p)) with true
        by (symmetry; apply andb_true_intro; split; apply Nat.ltb_lt; auto).
      split; auto. unfold val. rewrite Es. apply draw_in_stratum.
    + intros s' x Hx Hin'. rewrite entry_tab in Hx.
      destruct ((s' <? N) && (j <? p_num_vars p)) eqn:B; [|discriminate].
      apply andb_true_iff in B. destruct B as [B _]. apply Nat.ltb_lt in B.
      injection Hx as <-. unfold val in Hin'.
      assert (Ek : nth s' (perm (gof j)) 0 = k).
      { eapply stratum_unique; [apply draw_in_stratum|exact Hin']. }
      eapply (proj1 (NoDup_nth (perm (gof j)) 0) ND); rewrite ?perm_length; auto. congruence.
  - intros s j x Hx. rewrite entry_tab in Hx.
    destruct ((s <? N) && (j <? p_num_vars p)) eqn:B; [|discriminate].
    apply andb_true_iff in B. destruct B as [B _]. apply Nat.ltb_lt in B.
    injection Hx as <-. unfold val.
    set (i := nth s (perm (gof j)) 0).
    assert (Hi : i < N).
    { assert (In i (seq 0 N)); [|rewrite in_seq in *; lia].
      eapply Permutation_in; [apply (proj2 HD)|]. apply nth_In. rewrite perm_length. auto. }
    pose proof (draw_in_stratum i (gof j)) as HS. pose proof (lt_0_INR N HN) as HNp.
    assert (0 <= INR i)%R by apply pos_INR.
    assert (INR i + 1 <= INR N)%R by (rewrite <- S_INR; apply le_INR; lia).
    assert (0 < / INR N)%R by (apply Rinv_0_lt_compat; auto).
    assert ((INR i + 1) / INR N <= 1)%R.
    { apply Rmult_le_reg_r with (INR N); auto. unfold Rdiv. rewrite Rmult_assoc, Rinv_l by lra. lra. }
    assert (0 <= INR i / INR N)%R by (unfold Rdiv; nra). lra.
  - intros j j' s Hj Hj' HS. rewrite !entry_tab. rewrite (HG j j') by auto.
    replace (j <? p_num_vars p) with true by (symmetry; apply Nat.ltb_lt; auto).
    replace (j' <? p_num_vars p) with true by (symmetry; apply Nat.ltb_lt; auto). auto.
Qed.

Lemma unit_total : exists rs, latin_unit p N u perm junk = Ok rs.
Proof. destruct latin_unit_ok as (gof & E & _). eauto. Qed.

(** The public function with uniform bounds. *)
Lemma latin_public : forall nq tq, p_dists p = None -> 0 < p_num_vars p ->
  length (p_bounds p) = p_num_vars p -> good_box (p_bounds p) ->
  exists p' m, latin_sample nq tq p N u perm junk = (p', Ok (InPlace m)) /\
    length (rows m) = N /\ Forall (fun r => length r = p_num_vars p) (rows m) /\
    (forall j k lo up, nth_error (p_bounds p) j = Some [lo; up] -> k < N ->
       exactly_one_row (rows m) N j (lo + INR k / INR N * (up - lo))
                                    (lo + (INR k + 1) / INR N * (up - lo))) /\
    (forall s j x lo up, nth_error (p_bounds p) j = Some [lo; up] -> entry (rows m) s j = Some x ->
       (lo <= x < up)%R).
Proof.
  intros nq tq Hd Hn HBl HBx. destruct unit_total as [rs Hrs].
  destruct (unit_stratified rs Hrs) as (L & W & HS & HU & _).
  destruct (scale_ok_box (mkMat (p_num_vars p) rs) (p_bounds p) Hn HBl HBx) as (v & Es & Lv & Hv).
  simpl in Es, Lv. unfold latin_sample. rewrite Hrs. unfold scale_samples. rewrite Hd, Es.
  eexists. exists (mkMat (p_num_vars p) (map (to_physical v) rs)). split; [reflexivity|]. simpl rows.
  assert (Hent : forall s j, entry (map (to_physical v) rs) s j =
    match entry rs s j, nth_error v j with
    | Some x, Some (lo, up) => Some (lo + x * (up - lo))%R | _, _ => None end).
  { intros s j. unfold entry. rewrite nth_error_map'. destruct (nth_error rs s) as [r|]; simpl; auto.
    apply to_physical_nth. }
  split; [rewrite map_length; auto|]. split; [|split].
  - rewrite Forall_forall in *. intros r Hr. apply in_map_iff in Hr. destruct Hr as (r0 & <- & Hr0).
    rewrite to_physical_length; [auto|]. rewrite (W r0 Hr0). auto.
  - intros j k lo up Hb Hk.
    assert (Hj : j < p_num_vars p) by (rewrite <- HBl; eapply nth_error_Some_lt; eauto).
    assert (Hlt : (lo < up)%R).
    { unfold good_box in HBx. rewrite Forall_forall in HBx. apply nth_error_In in Hb.
      destruct (HBx _ Hb) as (a & b & E & Hab). injection E as -> ->. auto. }
    apply Hv in Hb. destruct (HS j k Hj Hk) as (s & Hs & (x & Hx & Hin) & Huniq).
    exists s. split; auto. split.
    + exists (lo + x * (up - lo))%R. rewrite Hent, Hx, Hb. split; auto. nra.
    + intros s' y Hy Hin'. rewrite Hent, Hb in Hy. destruct (entry rs s' j) as [x'|] eqn:E; [|discriminate].
      injection Hy as <-. apply (Huniq s' x'); auto. split; nra.
  - intros s j x lo up Hb Hx.
    assert (Hlt : (lo < up)%R).
    { unfold good_box in HBx. rewrite Forall_forall in HBx. apply nth_error_In in Hb.
      destruct (HBx _ Hb) as (a & b & E & Hab). injection E as -> ->. auto. }
    apply Hv in Hb. rewrite Hent, Hb in Hx. destruct (entry rs s j) as [x'|] eqn:E; [|discriminate].
    injection Hx as <-. pose proof (HU _ _ _ E). nra.
Qed.
End Unit.

Lemma latin_zero : forall p u perm junk, every_labelled p -> latin_unit p 0 u perm junk = Err ZeroDivisionError.
Proof.
  intros p u perm junk HL. unfold latin_unit. destruct (latin_groups_ok p HL) as (n & members & gof & E & _).
  rewrite E. reflexivity.
Qed.
