(** * A fresh result can be tabulated. *)
From Coq Require Import Reals String List Arith Bool Lia.
From Verif Require Import Base Arrays ListFacts ModelGroups ModelFF ModelHdmr ModelEhdmr ModelShared SpecShared ProofsFF ProofsGroups ProofsEhdmr2 ProofsSobol2
  ProofsShared ProofsShared2.
Import ListNotations.
Local Open Scope nat_scope.
Local Arguments content : simpl never.

Lemma list_eqb_refl : forall l, list_eqb l l = true.
Proof. induction l; cbn; auto. rewrite String.eqb_refl. auto. Qed.

Lemma no_groups_labels : forall p, no_groups p -> fst (extract_group_names p) = pd_unique (p_names p) /\ snd (extract_group_names p) = length (pd_unique (p_names p)).
Proof. intros p H. unfold extract_group_names, truthy_groups. destruct H as [H|[H|H]]; rewrite H; auto. destruct (p_names p); auto. Qed.
Lemma no_groups_size : forall p, no_groups p -> grouped_size p = p_num_vars p.
Proof.
  intros p H. unfold grouped_size, check_groups, truthy_groups. destruct H as [H|[H|H]]; rewrite H; auto. destruct (p_names p) eqn:E; auto. rewrite list_eqb_refl. auto.
Qed.

Lemma table_At : forall s a m l, content s a = l -> length l = m -> table s (mkReport (At a) m) = Ok l.
Proof. intros s a m l C L. unfold table, labels_of. cbn. rewrite C, L, Nat.eqb_refl. auto. Qed.
Lemma table_Of : forall s k o m l, nth_error (s_dicts s) k = Some o -> fst (extract_group_names (view s o)) = l -> length l = m -> table s (mkReport (OfProblem k) m) = Ok l.
Proof. intros s k o m l N C L. unfold table, labels_of. cbn [r_labels r_size]. rewrite N, C, L, Nat.eqb_refl. auto. Qed.
Lemma content_new : forall h l d r, content (mkState (h ++ [l]) d r) (length h) = l.
Proof. intros. unfold content. cbn. rewrite app_nth2, Nat.sub_diag by auto. auto. Qed.
Lemma extended_size : forall d order names, length names = d ->
  length (extended_names (mkCore d order true 0 0) names) = c_nc_t (mkCore d order true 0 0) /\ exists tail, extended_names (mkCore d order true 0 0) names = names ++ tail.
Proof.
  intros d order names L. split; [|unfold extended_names; eauto]. unfold extended_names, c_nc_t, c_nc1, c_nc2, c_nc3. cbn [c_order c_d].
  rewrite !app_length, L. destruct (1 <? order), (order =? 3); rewrite ?map_length, ?seq_length; cbn [length]; lia.
Qed.

Lemma last_report : forall (l : list report) r r', l ++ [r] = l ++ [r'] -> r = r'.
Proof. intros l r r' H. apply app_inv_head in H. congruence. Qed.
Lemma no_report : forall (l : list report) r, l = l ++ [r] -> False.
Proof. intros l r H. apply (f_equal (@length _)) in H. rewrite app_length in H. cbn in H. lia. Qed.

Lemma fresh_table : forall s c o s' r, sound s -> nth_error (s_dicts s) (target c) = Some o -> matched (view s o) -> NoDup (p_names (view s o)) -> no_groups (view s o) ->
  step s c = (s', None) -> s_reports s' = s_reports s ++ [r] -> exists tail, table s' r = Ok (p_names (view s o) ++ tail).
Proof.
  intros s c o s' r S N (M1 & M2 & _) ND G St R. destruct (proj1 S _ _ N) as (B & Bg). cbn in M1, M2, ND. unfold step in St. rewrite N in St.
  pose proof (no_groups_labels _ G) as (Lb & Ls). pose proof (no_groups_size _ G) as Gs. cbn [view p_names] in Lb, Ls. rewrite (pd_unique_id _ ND) in Lb, Ls.
  cbn [view p_num_vars] in Gs. cbn [view p_names].
  assert (SN : forall rr, rr = r -> (exists tail, table s' rr = Ok (content s (o_names o) ++ tail)) -> exists tail, table s' r = Ok (content s (o_names o) ++ tail)) by (intros; subst; auto).
  destruct c as [k rest|k rest|k rest|k rest|k rest|k rest|k rest|k rest|k rest|k order rest|k order args fit]; cbn [target step_dict] in *.
  - destruct rest; [discriminate|]. injection St as <-. apply no_report in R. contradiction.
  - destruct (group_default s k o) as [s1|e] eqn:GD; [|discriminate]. destruct (group_default_regroup s k o s1 N GD) as (o1 & R1 & E1 & N1). rewrite N1 in St.
    destruct rest; [discriminate|]. injection St as <-. subst s1. apply no_report in R. contradiction.
  - exfalso. unfold pad in St. destruct (ff_size (o_num o)) as [n|e]; [|discriminate]. cbn -[Nat.ltb] in St.
    destruct (0 <? n - o_num o); (destruct rest; [discriminate|]); injection St as <-; apply no_report in R; contradiction.
  - destruct rest; [discriminate|]. injection St as <-. apply last_report in R; auto. subst r. exists []. rewrite app_nil_r. apply table_At; auto.
  - destruct rest; [discriminate|]. injection St as <-. apply last_report in R; auto. subst r. exists []. rewrite app_nil_r. apply table_At; auto. rewrite Gs. auto.
  - destruct rest; [discriminate|]. injection St as <-. apply last_report in R; auto. subst r. exists []. rewrite app_nil_r. apply table_At.
    + unfold add_report. cbn. rewrite content_new. exact Lb.
    + rewrite Gs. auto.
  - destruct (group_default s k o) as [s1|e] eqn:GD; [|discriminate]. destruct (group_default_regroup s k o s1 N GD) as (o1 & R1 & E1 & N1).
    destruct rest; [discriminate|]. injection St as <-. subst s1. apply last_report in R; auto. subst r. exists []. rewrite app_nil_r.
    assert (V : view (mkState (s_heap s) (update (s_dicts s) k o1) (s_reports s)) o = view s o) by reflexivity. rewrite V. apply table_At.
    + unfold add_report. cbn. rewrite content_new. exact Lb.
    + change (length (content s (o_names o)) = snd (extract_group_names (view s o))). rewrite Ls. auto.
  - destruct rest; [discriminate|]. injection St as <-. apply last_report in R; auto. subst r. exists []. rewrite app_nil_r.
    apply (table_Of _ k o); [exact N|exact Lb|symmetry; exact Ls].
  - unfold pad in St. destruct (ff_size (o_num o)) as [n|e]; [|discriminate]. cbn -[Nat.ltb] in St. destruct (0 <? n - o_num o) eqn:P; (destruct rest; [discriminate|]).
    + apply Nat.ltb_lt in P. injection St as <-. apply last_report in R; auto. subst r. eexists. apply table_At.
      * unfold add_report. cbn. rewrite at_update, Nat.eqb_refl by auto. reflexivity.
      * rewrite app_length, map_length, seq_length. lia.
    + injection St as <-. apply last_report in R; auto. subst r. exists []. rewrite app_nil_r. apply table_At; auto.
  - destruct rest; [discriminate|]. destruct (hdmr_terms_Ok (content s (o_names o)) (o_num o) order M1) as (t & T & Lt & tail & Et). rewrite T in St. unfold add_list in St. cbn in St.
    exists tail. rewrite <- Et. injection St as <-. destruct (o_spec o); apply last_report in R; auto; subst r; (apply table_At; [|auto]); unfold set_dict, add_report; cbn; apply content_new.
  - rewrite M1, M2, Nat.eqb_refl in St. cbn -[Nat.ltb Nat.eqb] in St. destruct (o_num o =? 1); [discriminate|]. destruct args; [discriminate|]. destruct fit; [discriminate|].
    match type of St with context[if ?b then _ else if ?b' then _ else _] => destruct b; [|destruct b'] end; try discriminate.
    injection St as <-. apply last_report in R; auto. subst r. destruct (extended_size (o_num o) order _ M1) as (Le & tail & Ee). exists tail. rewrite <- Ee. apply table_At; auto.
    unfold add_report, set_list. cbn. rewrite at_update, Nat.eqb_refl by auto. auto.
Qed.
