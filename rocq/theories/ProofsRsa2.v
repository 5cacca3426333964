(** * RSA: the table of results, the groups and the result dictionary. *)
From Coq Require Import Reals String List Arith ZArith Bool Lia Lra Permutation.
From Verif Require Import Base Arrays ListFacts ModelGroups SpecGroups ProofsGroups ModelScale ProofsScale Stats Sums ModelFast ModelMorris ModelMorrisAnalyze
  SpecSobol ProofsSobol Quant ModelPawn SpecPawn ProofsPawn ProofsPawn2 ProofsPawn4 ModelRsa SpecRsa ProofsRsa.
Import ListNotations.
Local Open Scope nat_scope.

Lemma mapM_Err_in : forall A B (f : A -> result B) l e, mapM f l = Err e -> exists x, In x l /\ f x = Err e.
Proof.
  induction l as [|x l IH]; intros e H; simpl in H; [discriminate|]. destruct (f x) eqn:E; cbn [bind] in H.
  - destruct (mapM f l) eqn:E2; cbn [bind] in H; [discriminate|]. injection H as ->. destruct (IH e eq_refl) as (z & Hz & Ez).
    exists z. split; auto. right. auto.
  - injection H as ->. exists x. split; auto. left. auto.
Qed.

Lemma col_get : forall (X : mat R) d, wf_mat X -> d < cols X -> mapM (fun r => get r d) (rows X) = Ok (col (rows X) d).
Proof.
  intros X d W Hd. unfold col. rewrite <- mapM_Ok_map. apply mapM_ext. intros r Hr. unfold get.
  rewrite (nth_error_nth' r 0%R); auto. apply Forall_forall with (x := r) in W; auto. rewrite W. auto.
Qed.
Lemma col_length : forall X d, length (col X d) = length X.
Proof. intros. unfold col. apply map_length. Qed.

Lemma bin_cell_Err : forall c t y m s e, bin_cell c t y m s (Err e) -> e = ValueError.
Proof.
  intros c t y m s e (keep & _ & H). cbv zeta in H. destruct H as (A & B & C).
  destruct (Req_EM_T 0 0) as [_|]; [|lra].
  destruct (le_lt_dec (distinct (inside keep t y)) 1) as [L|L].
  - assert (N : ~ two_different (inside keep t y)) by (intros T; apply distinct_two in T; lia). discriminate (A (or_intror N)).
  - apply distinct_two in L. destruct (outside keep t m) as [|u [|u' r]].
    + discriminate (A (or_introl eq_refl)).
    + specialize (B L eq_refl). congruence.
    + destruct (C L ltac:(simpl; lia)) as (v & E & _). discriminate.
Qed.

Section Table.
  Variables (X : mat R) (y : list R) (bins : nat) (target : string) (c : nat -> nat -> R) (t m : nat -> list R).
  Hypotheses (HI : rsa_input X y) (HB : 0 < bins) (HR : forall d, d < cols X -> roles target X y d (t d) (m d))
    (Hc : forall d k, d < cols X -> k <= bins -> quantile_at (t d) (INR k / INR bins) (c d k)).

  Lemma roles_length : forall d, d < cols X -> length (t d) = length y /\ length (t d) = length (m d) /\ t d <> [].
  Proof using HI HR.
    intros d Hd. destruct HI as (W & L & N). pose proof (col_length (rows X) d) as CL. rewrite L in CL.
    assert (N' : col (rows X) d <> []) by (intros E; rewrite E in CL; simpl in CL; destruct y; auto; discriminate).
    destruct (HR d Hd) as [(_ & -> & ->)|(_ & -> & ->)]; rewrite ?CL; auto.
  Qed.

  Lemma column_eq : forall d, d < cols X -> (do Xi <- mapM (fun r => get r d) (rows X) ;; rsa_column Xi y bins target) =
    mapM (fun s => rsa_cell y (m d) (rsa_bin (c d) (t d) s)) (seq 0 bins).
  Proof using HI HR HB Hc.
    intros d Hd. rewrite col_get by (auto; apply HI). cbn [bind]. unfold rsa_column.
    assert (E : (if String.eqb target "X" then Ok (col (rows X) d, y) else if String.eqb target "Y" then Ok (y, col (rows X) d) else Err UnboundLocalError)
                = Ok (t d, m d)).
    { destruct (HR d Hd) as [(-> & -> & ->)|(-> & -> & ->)]; reflexivity. }
    rewrite E. cbn [bind]. destruct (roles_length d Hd) as (_ & _ & N). destruct (t d) as [|t0 tr] eqn:ET; [congruence|]. rewrite <- ET in *.
    cbv zeta. apply mapM_ext. intros s Hs. apply in_seq in Hs. f_equal. unfold rsa_bin. apply map_ext.
    intros x. assert (Q : forall k, k <= bins -> quantile (t d) (INR k / INR bins) = c d k).
    { intros k Hk. symmetry. apply quantile_at_unique; auto. apply frac; auto. }
    rewrite (Q 0), (Q s), (Q (s + 1)) by lia. reflexivity.
  Qed.

  Lemma table_spec : match rsa X y bins target with
    | Ok r => length r = cols X /\ forall d, d < cols X -> length (nth d r []) = bins /\
        forall s, s < bins -> bin_cell (c d) (t d) y (m d) s (Ok (nth s (nth d r []) None))
    | Err e => e = ValueError /\ exists d s, d < cols X /\ s < bins /\ bin_cell (c d) (t d) y (m d) s (Err ValueError)
    end.
  Proof using HI HR HB Hc.
    unfold rsa. destruct (Nat.eqb_spec bins 0); [lia|].
    rewrite (mapM_ext _ (fun d => mapM (fun s => rsa_cell y (m d) (rsa_bin (c d) (t d) s)) (seq 0 bins))).
    2: { intros d Hd. apply in_seq in Hd. apply column_eq. lia. }
    assert (CO : forall d s, d < cols X -> bin_cell (c d) (t d) y (m d) s (rsa_cell y (m d) (rsa_bin (c d) (t d) s))).
    { intros d s Hd. destruct (roles_length d Hd) as (A & B & _). apply cell_ok; auto. }
    destruct (mapM _ _) as [r|e] eqn:E.
    - pose proof (mapM_Ok_length _ _ E) as LR. rewrite seq_length in LR. split; auto. intros d Hd.
      assert (Nd : nth_error (seq 0 (cols X)) d = Some d) by (rewrite nth_error_seq; destruct (Nat.ltb_spec d (cols X)); auto; lia).
      destruct (mapM_Ok_nth _ _ d E (x := d) Nd) as (cs & Ec & En). rewrite (nth_error_nth _ _ _ En).
      pose proof (mapM_Ok_length _ _ Ec) as LC. rewrite seq_length in LC. split; auto. intros s Hs.
      assert (Ns : nth_error (seq 0 bins) s = Some s) by (rewrite nth_error_seq; destruct (Nat.ltb_spec s bins); auto; lia).
      destruct (mapM_Ok_nth _ _ s Ec (x := s) Ns) as (v & Ev & Env). rewrite (nth_error_nth _ _ _ Env). rewrite <- Ev. apply CO. auto.
    - destruct (mapM_Err_in _ _ _ _ _ E) as (d & Hd & E2). apply in_seq in Hd.
      destruct (mapM_Err_in _ _ _ _ _ E2) as (s & Hs & E3). apply in_seq in Hs.
      pose proof (CO d s ltac:(lia)) as B. rewrite E3 in B. pose proof (bin_cell_Err _ _ _ _ _ _ B) as ->. split; auto.
      exists d, s. repeat split; auto; lia.
  Qed.
End Table.

(** The cut points used, which always exist. *)
Lemma cuts_exist : forall X y bins target, rsa_input X y -> 0 < bins -> target = "X"%string \/ target = "Y"%string ->
  exists (t m : nat -> list R) (c : nat -> nat -> R), (forall d, roles target X y d (t d) (m d)) /\
    forall d k, k <= bins -> quantile_at (t d) (INR k / INR bins) (c d k).
Proof.
  intros X y bins target (W & L & N) HB [->| ->].
  - exists (fun d => col (rows X) d), (fun _ => y), (fun d k => quantile (col (rows X) d) (INR k / INR bins)). split.
    + intros d. left. auto.
    + intros d k Hk. apply quantile_spec; [|apply frac; auto]. intros E. apply (f_equal (@length R)) in E. rewrite col_length, L in E. destruct y; auto; discriminate.
  - exists (fun _ => y), (fun d => col (rows X) d), (fun d k => quantile y (INR k / INR bins)). split.
    + intros d. right. auto.
    + intros d k Hk. apply quantile_spec; auto. apply frac; auto.
Qed.

Lemma rsa_other_target : forall X y bins target, 0 < bins -> 0 < cols X -> wf_mat X -> target <> "X"%string -> target <> "Y"%string ->
  rsa X y bins target = Err UnboundLocalError.
Proof.
  intros X y bins target HB HC W H1 H2. unfold rsa. destruct (Nat.eqb_spec bins 0); [lia|].
  destruct (cols X) as [|n'] eqn:EC; [lia|]. cbn [seq mapM]. rewrite col_get by (auto; lia). cbn [bind]. unfold rsa_column.
  destruct (String.eqb_spec target "X"); [contradiction|]. destruct (String.eqb_spec target "Y"); [contradiction|]. reflexivity.
Qed.
Lemma rsa_no_bins : forall p X Y target, rsa_analyze p X Y 0 target = Err ZeroDivisionError.
Proof. reflexivity. Qed.

(** ** The dictionary *)
Lemma get_set : forall d k v k', dict_get (dict_set d k v) k' = if String.eqb k k' then Some v else dict_get d k'.
Proof.
  induction d as [|[a b] d IH]; intros k v k'; simpl.
  - destruct (String.eqb k k'); auto.
  - destruct (String.eqb_spec a k) as [->|Ha]; simpl.
    + destruct (String.eqb_spec k k'); auto.
    + destruct (String.eqb_spec a k') as [->|Ha'].
      * destruct (String.eqb_spec k k'); congruence.
      * apply IH.
Qed.
Lemma get_fold : forall l d k, ~ In k (map fst l) -> dict_get (fold_left (fun d kv => dict_set d (fst kv) (snd kv)) l d) k = dict_get d k.
Proof.
  induction l as [|[a b] l IH]; intros d k H; simpl in *; auto. rewrite IH by tauto. rewrite get_set.
  destruct (String.eqb_spec a k); auto. exfalso. tauto.
Qed.
Lemma get_fold_in : forall l d i k v, NoDup (map fst l) -> nth_error l i = Some (k, v) ->
  dict_get (fold_left (fun d kv => dict_set d (fst kv) (snd kv)) l d) k = Some v.
Proof.
  induction l as [|[a b] l IH]; intros d i k v ND H; destruct i; simpl in *; try discriminate.
  - injection H as -> ->. inversion ND; subst. rewrite get_fold by auto. rewrite get_set, String.eqb_refl. auto.
  - inversion ND; subst. eapply IH; eauto.
Qed.
Lemma names_nodup : forall p, NoDup (fst (extract_group_names p)).
Proof. intros p. unfold extract_group_names. destruct (truthy_groups p); simpl; apply pd_unique_NoDup. Qed.

Definition reserved (n : string) : Prop := In n ["names"; "bins"; "target"]%string.

Definition report (ns : list string) (bins : nat) (target : string) (r : list (list fval)) : rsa_dict :=
  dict_set (dict_set (dict_set (fold_left (fun d kv => dict_set d (fst kv) (snd kv)) (combine ns (map Values (firstn (length ns) r))) [])
    "names" (Names ns)) "bins" (Bins (map (fun k => INR k / INR bins)%R (seq 0 bins)))) "target" (Target target).

Lemma get_prefix : forall A (r : list A) n, n <= length r -> mapM (fun i => get r i) (seq 0 n) = Ok (firstn n r).
Proof.
  intros A r n. induction n as [|n IH]; intros H; auto. rewrite seq_S. simpl Nat.add.
  assert (M : forall l1 l2, mapM (fun i => get r i) (l1 ++ l2) = do a <- mapM (fun i => get r i) l1 ;; do b <- mapM (fun i => get r i) l2 ;; Ok (a ++ b)).
  { induction l1 as [|x l1 IH1]; intros l2; cbn [mapM app bind].
    - destruct (mapM _ l2); auto.
    - rewrite IH1. destruct (get r x); cbn [bind]; auto. destruct (mapM _ l1); cbn [bind]; auto. destruct (mapM _ l2); auto. }
  rewrite M, IH by lia. cbn [bind mapM]. unfold get. destruct (nth_error r n) as [v|] eqn:E.
  - cbn [bind]. f_equal. clear -E. revert r E. induction n; intros [|x r] E; simpl in *; try discriminate.
    + injection E as ->. auto.
    + f_equal. rewrite <- (IHn r); auto.
  - apply nth_error_None in E. lia.
Qed.
Lemma get_over : forall A (r : list A) n, length r < n -> mapM (fun i => get r i) (seq 0 n) = Err IndexError.
Proof.
  intros A r n H. destruct (mapM (fun i => get r i) (seq 0 n)) as [v|e] eqn:E.
  - destruct (mapM_Ok_nth _ _ (length r) E (x := length r)) as (w & Ew & _).
    + rewrite nth_error_seq. destruct (Nat.ltb_spec (length r) n); auto; lia.
    + unfold get in Ew. rewrite (proj2 (nth_error_None r (length r))) in Ew by lia. discriminate.
  - destruct (mapM_Err_in _ _ _ _ _ E) as (i & _ & Ei). unfold get in Ei. destruct (nth_error r i); congruence.
Qed.

Lemma analyze_ungrouped : forall p X Y bins target r, check_groups p = None -> rsa X Y bins target = Ok r ->
  rsa_analyze p X Y bins target = (if length (fst (extract_group_names p)) <=? length r
    then Ok (report (fst (extract_group_names p)) bins target r) else Err IndexError).
Proof.
  intros p X Y bins target r HG HR. unfold rsa_analyze. rewrite HR, HG. cbn [bind].
  destruct (Nat.leb_spec (length (fst (extract_group_names p))) (length r)).
  - rewrite get_prefix by auto. reflexivity.
  - rewrite get_over by auto. reflexivity.
Qed.

Lemma select_single : forall A ns (r : list A) i x, NoDup ns -> length ns = length r -> nth_error ns i = Some x ->
  select (map (fun n => String.eqb n x) ns) r = Ok (match nth_error r i with Some v => [v] | None => [] end).
Proof.
  intros A ns r i x ND L H. unfold select. rewrite map_length, L, Nat.eqb_refl. f_equal.
  revert r i L H. induction ns as [|n ns IH]; intros [|v r] i L H; simpl in *; try discriminate; [destruct i; discriminate|].
  inversion ND; subst. destruct i; simpl in *.
  - injection H as ->. rewrite String.eqb_refl. simpl. f_equal.
    assert (NI : ~ In x ns) by auto. clear -NI. revert r. induction ns as [|n ns IH]; intros [|w r]; simpl; auto.
    destruct (String.eqb_spec n x) as [->|]; [exfalso; apply NI; left; auto|]. apply IH. intros ?; apply NI; right; auto.
  - destruct (String.eqb_spec n x) as [->|]; [exfalso; apply H2; eapply nth_error_In; eauto|]. apply IH; auto.
Qed.
Lemma nanmean_one : forall v, nanmean [v] = v.
Proof. intros [x|]; unfold nanmean; simpl; auto. f_equal. unfold mean, Rsum. simpl. field. Qed.

Lemma groups_singletons : forall ns bins r, NoDup ns -> length ns = length r -> Forall (fun c => length c = bins) r -> rsa_groups ns bins r = Ok r.
Proof.
  intros ns bins r ND L F. unfold rsa_groups.
  assert (E : forall n, n <= length ns -> mapM (fun grp => do sel <- select (map (fun x => String.eqb x grp) ns) r ;;
     Ok (map (fun s => nanmean (map (fun c : list fval => nth s c None) sel)) (seq 0 bins))) (firstn n ns) = Ok (firstn n r)).
  { induction n as [|n IH]; intros Hn; auto.
    destruct (nth_error ns n) as [x|] eqn:Ex; [|apply nth_error_None in Ex; lia].
    destruct (nth_error r n) as [c|] eqn:Ec; [|apply nth_error_None in Ec; lia].
    assert (S1 : forall A (l : list A) k v, nth_error l k = Some v -> firstn (S k) l = firstn k l ++ [v]).
    { intros A l k. revert l. induction k; intros [|a l] v E; simpl in *; try discriminate; [injection E as ->; auto|]. f_equal. apply IHk. auto. }
    rewrite (S1 _ _ _ _ Ex), (S1 _ _ _ _ Ec).
    assert (M : forall (f : string -> result (list fval)) l1 l2, mapM f (l1 ++ l2) = do a <- mapM f l1 ;; do b <- mapM f l2 ;; Ok (a ++ b)).
    { intros f. induction l1 as [|y l1 IH1]; intros l2; cbn [mapM app bind].
      - destruct (mapM _ l2); auto.
      - rewrite IH1. destruct (f y); cbn [bind]; auto. destruct (mapM _ l1); cbn [bind]; auto. destruct (mapM _ l2); auto. }
    rewrite M, IH by lia. cbn [bind mapM]. rewrite (select_single _ ns r n x) by auto. rewrite Ec. cbn [bind]. f_equal. f_equal. f_equal.
    assert (LC : length c = bins) by (apply nth_error_In in Ec; rewrite Forall_forall in F; auto).
    rewrite <- LC. clear. erewrite map_ext. 2: { intros s. cbn [map]. rewrite nanmean_one. reflexivity. }
    apply nth_error_ext'. intros i. rewrite nth_error_map', nth_error_seq. destruct (Nat.ltb_spec i (length c)); simpl.
    - symmetry. apply nth_error_nth'. auto.
    - symmetry. apply nth_error_None. auto. }
  specialize (E (length ns) (le_n _)). rewrite firstn_all in E. rewrite L, firstn_all in E. exact E.
Qed.
Lemma groups_mismatch : forall ns bins r, ns <> [] -> length ns <> length r -> rsa_groups ns bins r = Err IndexError.
Proof.
  intros [|n ns] bins r N L; [congruence|]. unfold rsa_groups. cbn [mapM]. unfold select at 1. rewrite map_length.
  destruct (Nat.eqb_spec (length (n :: ns)) (length r)); [contradiction|]. reflexivity.
Qed.

Lemma analyze_grouped : forall p X Y bins target g r, check_groups p = Some g -> rsa X Y bins target = Ok r -> fst (extract_group_names p) <> [] ->
  Forall (fun c => length c = bins) r ->
  rsa_analyze p X Y bins target = (if length (fst (extract_group_names p)) =? length r
    then Ok (report (fst (extract_group_names p)) bins target r) else Err IndexError).
Proof.
  intros p X Y bins target g r HG HR HN F. unfold rsa_analyze. rewrite HR, HG. cbn [bind].
  destruct (Nat.eqb_spec (length (fst (extract_group_names p))) (length r)) as [E|E].
  - rewrite groups_singletons by (auto; apply names_nodup). cbn [bind]. rewrite get_prefix by lia. reflexivity.
  - rewrite groups_mismatch by auto. reflexivity.
Qed.

Lemma report_names : forall ns bins target r, dict_get (report ns bins target r) "names" = Some (Names ns) /\
  dict_get (report ns bins target r) "bins" = Some (Bins (map (fun k => INR k / INR bins)%R (seq 0 bins))) /\
  dict_get (report ns bins target r) "target" = Some (Target target).
Proof. intros. unfold report. rewrite !get_set. simpl. auto. Qed.
Lemma report_values : forall ns bins target r i n, NoDup ns -> length ns <= length r -> nth_error ns i = Some n -> ~ reserved n ->
  dict_get (report ns bins target r) n = Some (Values (nth i r [])).
Proof.
  intros ns bins target r i n ND L Hn Hr. unfold report. rewrite !get_set.
  assert (R : forall s, In s ["names"; "bins"; "target"]%string -> String.eqb s n = false).
  { intros s Hs. destruct (String.eqb_spec s n) as [->|]; auto. contradiction. }
  rewrite !R by (simpl; tauto).
  assert (LF : length (map Values (firstn (length ns) r)) = length ns) by (rewrite map_length, firstn_length; lia).
  apply get_fold_in with i.
  - assert (E : map fst (combine ns (map Values (firstn (length ns) r))) = ns); [|rewrite E; auto].
    revert LF. generalize (map Values (firstn (length ns) r)). clear. induction ns as [|a ns IH]; intros [|b l] H; simpl in *; try discriminate; auto. f_equal. auto.
  - assert (Hi : i < length ns) by (apply nth_error_Some; congruence).
    assert (CN : forall A B (l : list A) (l' : list B) k a b, nth_error l k = Some a -> nth_error l' k = Some b -> nth_error (combine l l') k = Some (a, b)).
    { clear. intros A B. induction l as [|x l IH]; intros [|z l'] [|k] a b Ha Hb; simpl in *; try discriminate; [congruence|auto]. }
    apply CN; auto. rewrite nth_error_map'.
    assert (E : nth_error (firstn (length ns) r) i = Some (nth i r [])).
    { rewrite <- (firstn_skipn (length ns) r) at 2. rewrite app_nth1 by (rewrite firstn_length; lia). apply nth_error_nth'. rewrite firstn_length. lia. }
    rewrite E. reflexivity.
Qed.
