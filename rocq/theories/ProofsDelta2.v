(** * Delta: bin edges and resampled subsets. *)
From Coq Require Import Reals String List Arith ZArith Bool Lia Lra Permutation Sorted.
From Verif Require Import Base Arrays ListFacts ModelScale ProofsScale Stats Quant SpecRsa ProofsRsa ModelDelta SpecDelta ProofsDelta.
Import ListNotations.
Local Open Scope nat_scope.

(** ** np.linspace *)
Lemma linspace_length : forall a b n, length (linspace a b n) = n.
Proof.
  intros a b n. unfold linspace. destruct (n =? 1) eqn:E; [apply Nat.eqb_eq in E; subst; auto|].
  rewrite map_length, seq_length. auto.
Qed.
Lemma linspace_nth : forall a b n i, 2 <= n -> i < n -> nth i (linspace a b n) 0%R = (a + INR i * ((b - a) / INR (n - 1)))%R.
Proof.
  intros a b n i Hn Hi. unfold linspace. replace (n =? 1) with false by (symmetry; apply Nat.eqb_neq; lia).
  rewrite nth_indep with (d' := (a + INR 0 * ((b - a) / INR (n - 1)))%R) by (rewrite map_length, seq_length; auto).
  rewrite map_nth with (f := fun i => (a + INR i * ((b - a) / INR (n - 1)))%R). rewrite seq_nth by auto. auto.
Qed.
Lemma linspace_mono : forall a b n i j, 2 <= n -> (a <= b)%R -> i <= j -> j < n -> (nth i (linspace a b n) 0 <= nth j (linspace a b n) 0)%R.
Proof.
  intros a b n i j Hn Hab Hij Hj. rewrite !linspace_nth by lia. apply le_INR in Hij.
  assert (0 <= (b - a) / INR (n - 1))%R by (apply Rdiv_nonneg; [lra|apply lt_0_INR; lia]). nra.
Qed.
Lemma linspace_first : forall a b n, 2 <= n -> nth 0 (linspace a b n) 0%R = a.
Proof. intros. rewrite linspace_nth by lia. simpl. ring. Qed.
Lemma linspace_last : forall a b n, 2 <= n -> nth (n - 1) (linspace a b n) 0%R = b.
Proof.
  intros a b n H. rewrite linspace_nth by lia. field. apply not_0_INR. lia.
Qed.
Lemma linspace_covers : forall X n, X <> [] -> 2 <= n -> covers (linspace (minl X) (maxl X) n) X.
Proof.
  intros X n HX Hn. destruct (minl_spec X HX) as [Hm1 Hm2]. destruct (maxl_spec X HX) as [HM1 HM2].
  unfold covers. rewrite linspace_length. split; auto. split.
  - intros i j Hij Hj. apply linspace_mono; auto.
  - intros x Hx. rewrite linspace_first, linspace_last by auto. auto.
Qed.

(** ** User-defined edges *)
Lemma some_below_false : forall l x, some_below l x = false <-> forall e, In e l -> (x <= e)%R.
Proof.
  intros l x. unfold some_below. rewrite <- not_true_iff_false, existsb_exists. split.
  - intros H e He. destruct (Rlt_dec e x); [|lra]. exfalso. apply H. exists e. split; auto. destruct (Rlt_dec e x); tauto.
  - intros H (e & He & Hd). specialize (H e He). destruct (Rlt_dec e x); [lra|discriminate].
Qed.
Lemma some_above_false : forall l x, some_above l x = false <-> forall e, In e l -> (e <= x)%R.
Proof.
  intros l x. unfold some_above. rewrite <- not_true_iff_false, existsb_exists. split.
  - intros H e He. destruct (Rlt_dec x e); [|lra]. exfalso. apply H. exists e. split; auto. destruct (Rlt_dec x e); tauto.
  - intros H (e & He & Hd). specialize (H e He). destruct (Rlt_dec x e); [lra|discriminate].
Qed.
Lemma ascends_cons : forall a b r, ascends (a :: b :: r) = ltb a b && ascends (b :: r).
Proof. intros. unfold ltb. reflexivity. Qed.
Lemma ascends_spec : forall l, ascends l = true <-> StronglySorted Rlt l.
Proof.
  induction l as [|a l IH]; [split; auto; constructor|].
  destruct l as [|b l]; [split; auto; repeat constructor|].
  rewrite ascends_cons, andb_true_iff, ltb_spec, IH. split.
  - intros [H1 H2]. constructor; auto. inversion H2 as [|? ? HS HF]; subst. constructor; auto.
    eapply Forall_impl; [|exact HF]. simpl. intros. lra.
  - intros H. inversion H as [|? ? HS HF]; subst. inversion HF; subst. auto.
Qed.
Lemma sorted_nth : forall l i j, StronglySorted Rle l -> i <= j -> j < length l -> (nth i l 0 <= nth j l 0)%R.
Proof.
  induction l as [|a l IH]; intros i j H Hij Hj; simpl in Hj; [lia|]. inversion H as [|? ? HS HF]; subst.
  destruct i, j; simpl; try lia; try lra.
  - rewrite Forall_forall in HF. apply HF. apply nth_In. lia.
  - apply IH; auto; lia.
Qed.
Lemma framed_sorted : forall a l b, StronglySorted Rlt l -> (forall e, In e l -> (a < e < b)%R) -> (a < b)%R ->
  StronglySorted Rlt ([a] ++ l ++ [b]).
Proof.
  intros a l b H HF Hab. simpl. constructor.
  - induction H as [|e l HS IH HF']; simpl; [repeat constructor|].
    constructor; [apply IH; intros; apply HF; right; auto|].
    apply Forall_app. split; auto. constructor; auto. destruct (HF e (or_introl eq_refl)); auto.
  - apply Forall_app. split; [|constructor; auto]. apply Forall_forall. intros e He. destruct (HF e He); auto.
Qed.
Lemma Slt_Sle : forall l, StronglySorted Rlt l -> StronglySorted Rle l.
Proof. induction 1; constructor; auto. eapply Forall_impl; [|exact H0]. simpl. intros. lra. Qed.
Lemma framed_last : forall (a b : R) l, nth (length ([a] ++ l ++ [b]) - 1) ([a] ++ l ++ [b]) 0%R = b.
Proof.
  intros a b l. rewrite !app_length. cbn [length]. rewrite app_assoc. rewrite app_nth2 by (rewrite app_length; simpl; lia).
  rewrite app_length. cbn [length]. replace (1 + (length l + 1) - 1 - (1 + length l)) with 0 by lia. auto.
Qed.
Lemma framed_covers : forall X l, X <> [] -> StronglySorted Rlt l -> (forall e, In e l -> (minl X <= e <= maxl X)%R) ->
  covers ([minl X - / 1000000000] ++ l ++ [maxl X + / 1000000000])%R X.
Proof.
  intros X l HX HS HF. destruct (minl_spec X HX) as [Hm1 Hm2]. destruct (maxl_spec X HX) as [HM1 HM2].
  assert (E : (0 < / 1000000000)%R) by lra. unfold covers.
  assert (HSS : StronglySorted Rlt ([minl X - / 1000000000] ++ l ++ [maxl X + / 1000000000])%R).
  { apply framed_sorted; auto.
    - intros e He. specialize (HF e He). lra.
    - specialize (Hm2 (maxl X) HM1). lra. }
  split; [rewrite !app_length; simpl; lia|]. split.
  - intros i j Hij Hj. apply sorted_nth; auto. apply Slt_Sle; auto.
  - intros x Hx. rewrite framed_last. simpl. specialize (Hm2 x Hx). specialize (HM2 x Hx). lra.
Qed.
Lemma edges_cover : forall X spec edges n, X <> [] -> (forall z, spec = Some (BInt z) -> (1 <= z)%Z) ->
  check_bininfo spec (minl X) (maxl X) = Ok (edges, n) -> covers edges X.
Proof.
  intros X spec edges n HX HZ H. unfold check_bininfo in H.
  destruct spec as [[z|l| |]|]; try (inversion H; subst; apply linspace_covers; auto; lia).
  - specialize (HZ z eq_refl). destruct (z + 1 <? 0)%Z eqn:E; [discriminate|]. inversion H; subst.
    apply linspace_covers; auto. lia.
  - destruct (some_below l (minl X) || some_above l (maxl X)) eqn:E.
    + inversion H; subst; apply linspace_covers; auto; lia.
    + destruct (negb (ascends l)) eqn:E2; inversion H; subst; [apply linspace_covers; auto; lia|].
      apply orb_false_iff in E. destruct E as [E1 E3]. apply negb_false_iff, ascends_spec in E2.
      apply framed_covers; auto. intros e He. rewrite some_below_false in E1. rewrite some_above_false in E3. auto.
Qed.

(** ** Draws *)
Lemma choice_eq : forall c pool n, pool <> [] -> choice c pool n = Ok (map (fun k => nth (c k mod length pool) pool 0) (seq 0 n)).
Proof. intros c [|p pool] n H; [congruence|reflexivity]. Qed.
Lemma choice_spec : forall c pool n d, choice c pool n = Ok d -> length d = n /\ incl d pool.
Proof.
  intros c pool n d H. destruct (list_eq_dec Nat.eq_dec pool []) as [->|N].
  - unfold choice in H. destruct (n =? 0) eqn:E; inversion H; subst. apply Nat.eqb_eq in E. split; auto. apply incl_refl.
  - rewrite choice_eq in H by auto. apply (f_equal (fun r => match r with Ok x => x | Err _ => d end)) in H. rewrite <- H.
    rewrite map_length, seq_length. split; auto. intros x Hx. apply in_map_iff in Hx.
    destruct Hx as (k & <- & _). apply nth_In. apply Nat.mod_upper_bound. destruct pool; simpl; congruence || lia.
Qed.
Lemma choice_ok : forall c pool n, pool <> [] -> exists d, choice c pool n = Ok d.
Proof. intros c [|p pool] n H; [congruence|]. unfold choice. eauto. Qed.
(** Every selection from the pool is drawn for some stream. *)
Lemma choice_complete : forall pool d, pool <> [] -> incl d pool -> exists c, choice c pool (length d) = Ok d.
Proof.
  intros pool d HP HI.
  assert (H : exists c : nat -> nat, forall k, k < length d -> nth (c k mod length pool) pool 0 = nth k d 0).
  { induction d as [|x d IH].
    - exists (fun _ => 0). simpl. intros. lia.
    - destruct IH as [c Hc]; [intros z Hz; apply HI; right; auto|].
      destruct (In_nth pool x 0 (HI x (or_introl eq_refl))) as (j & Hj & Hn).
      exists (fun k => match k with 0 => j | S k => c k end). intros [|k] Hk.
      + simpl. rewrite Nat.mod_small by auto. auto.
      + simpl in *. apply Hc. lia. }
  destruct H as [c Hc]. exists c. rewrite choice_eq by auto. f_equal.
  apply nth_ext with (d := 0) (d' := 0); rewrite map_length, seq_length; auto.
  intros k Hk. rewrite nth_indep with (d' := nth (c 0 mod length pool) pool 0) by (rewrite map_length, seq_length; auto).
  rewrite map_nth with (f := fun k => nth (c k mod length pool) pool 0) (d := 0). rewrite seq_nth by auto. apply Hc. auto.
Qed.

Lemma share_rem : forall total n i, n <> 0 -> total / n + (if i <? total - total / n * n then 1 else 0) = share_of total n i.
Proof. intros total n i H. unfold share_of. rewrite Nat.mod_eq by auto. rewrite (Nat.mul_comm n). auto. Qed.
Lemma draw_bins_spec : forall c total n bins i, n <> 0 ->
  exists ds, draw_bins c (total / n) (total - total / n * n) i bins = Ok ds /\ dealt total n i bins ds.
Proof.
  intros c total n. induction bins as [|b bins IH]; intros i Hn; cbn [draw_bins].
  - exists []. split; auto. constructor.
  - destruct (IH (S i) Hn) as (ds & E & D). destruct b as [|p b]; cbn [length Nat.eqb].
    + exists ds. split; auto. constructor; auto.
    + destruct (choice_ok (c (S i)) (p :: b) (total / n + (if i <? total - total / n * n then 1 else 0))) as [d Hd]; [discriminate|].
      rewrite Hd, E. cbn [bind]. exists (d :: ds). split; auto. apply choice_spec in Hd. destruct Hd as [L I].
      rewrite share_rem in L by auto. constructor; auto. discriminate.
Qed.

Fixpoint shares (total n i : nat) (bins : list (list nat)) (empty : bool) : nat :=
  match bins with
  | [] => 0
  | b :: r => (if Bool.eqb (length b =? 0) empty then share_of total n i else 0) + shares total n (S i) r empty
  end.
Lemma dealt_length : forall total n i bins ds, dealt total n i bins ds ->
  length (concat ds) = shares total n i bins false.
Proof.
  induction 1; simpl; auto. rewrite app_length, IHdealt, H0. destruct b; [congruence|]. simpl. auto.
Qed.
Lemma shares_sum : forall total n bins i,
  shares total n i bins false + shares total n i bins true = list_sum (map (share_of total n) (seq i (length bins))).
Proof.
  intros total n. induction bins as [|b bins IH]; intros i; [reflexivity|].
  cbn [shares length seq map]. change (list_sum (?a :: ?l)) with (a + list_sum l). rewrite <- IH.
  destruct b; cbn [length Nat.eqb Bool.eqb]; lia.
Qed.
Lemma share_prefix : forall total n m, m <= n -> list_sum (map (share_of total n) (seq 0 m)) = m * (total / n) + Nat.min m (total mod n).
Proof.
  intros total n. induction m as [|m IH]; intros H; [reflexivity|].
  rewrite seq_S, map_app, list_sum_app, IH by lia. change (list_sum (map (share_of total n) [0 + m])) with (share_of total n m + 0).
  unfold share_of. set (q := total / n). set (e := total mod n).
  destruct (m <? e) eqn:E; [apply Nat.ltb_lt in E|apply Nat.ltb_ge in E]; lia.
Qed.
Lemma share_total : forall total n, n <> 0 -> list_sum (map (share_of total n) (seq 0 n)) = total.
Proof.
  intros total n H. rewrite share_prefix by auto. pose proof (Nat.mod_upper_bound total n H).
  rewrite Nat.min_r by lia. symmetry. apply Nat.div_mod. auto.
Qed.
Lemma no_empty_shares : forall total n bins i, Forall (fun b => b <> []) bins -> shares total n i bins true = 0.
Proof. intros total n. induction bins as [|b bins IH]; intros i H; simpl; auto. inversion H; subst. destruct b; [congruence|]. simpl. auto. Qed.
Lemma dealt_total : forall total bins ds, bins <> [] -> Forall (fun b => b <> []) bins -> dealt total (length bins) 0 bins ds ->
  length (concat ds) = total.
Proof.
  intros total bins ds Hb HF H. rewrite (dealt_length _ _ _ _ _ H). pose proof (shares_sum total (length bins) bins 0) as E.
  rewrite no_empty_shares, share_total in E by (auto; destruct bins; simpl in *; congruence || lia). lia.
Qed.
Lemma share_bounds : forall total n i, total / n <= share_of total n i <= total / n + 1.
Proof. intros. unfold share_of. destruct (_ <? _); lia. Qed.

(** ** Balanced subsets *)
Lemma constant_max_min : forall X, X <> [] -> (Reqb (maxl X) (minl X) = true <-> constant X).
Proof.
  intros X H. unfold constant. rewrite <- (ptp_zero_iff X H). unfold ptp, Reqb. destruct (Req_EM_T (maxl X) (minl X)); split; intros; auto; try lra; discriminate.
Qed.
Lemma not_constant : forall X, X <> [] -> ~ constant X -> Reqb (maxl X) (minl X) = false /\ (minl X < maxl X)%R.
Proof.
  intros X H C. split.
  - apply not_true_iff_false. rewrite constant_max_min; auto.
  - destruct (Req_EM_T (maxl X) (minl X)) as [E|E].
    + exfalso. apply C. apply constant_max_min; auto. unfold Reqb. destruct (Req_EM_T _ _); auto.
    + destruct (minl_spec X H) as [_ M]. destruct (maxl_spec X H) as [I _]. specialize (M _ I). lra.
Qed.
Lemma balanced_draws_spec : forall c edges Xs size k init fin, bins_indices edges Xs k = (init, fin) ->
  match balanced_draws c edges Xs size k with
  | Ok ds => 2 <= length fin /\ k <= size / length fin /\ dealt size (length fin) 0 fin ds
  | Err e => (e = ZeroDivisionError /\ fin = []) \/ (e = AnalysisError /\ length fin = 1) \/
             (e = ValueError /\ 2 <= length fin /\ size / length fin < k)
  end.
Proof.
  intros c edges Xs size k init fin E. unfold balanced_draws. rewrite E. cbn [snd].
  destruct (length fin =? 0) eqn:E0; [left; apply Nat.eqb_eq in E0; destruct fin; [auto|discriminate]|]. apply Nat.eqb_neq in E0.
  destruct (length fin <? 2) eqn:E2; [right; left; apply Nat.ltb_lt in E2; split; auto; lia|]. apply Nat.ltb_ge in E2.
  destruct (size / length fin <? k) eqn:E3; [right; right; apply Nat.ltb_lt in E3; auto|]. apply Nat.ltb_ge in E3.
  destruct (draw_bins_spec c size (length fin) fin 0 E0) as (ds & -> & D). auto.
Qed.
Lemma resample_balanced : forall c X y edges k init fin, X <> [] -> ~ constant X -> bins_indices edges X k = (init, fin) ->
  match resample c X y Balanced edges k with
  | Ok ind => 2 <= length fin /\ k <= y / length fin /\ exists ds, ind = concat ds /\ dealt y (length fin) 0 fin ds
  | Err e => (e = ZeroDivisionError /\ fin = []) \/ (e = AnalysisError /\ length fin = 1) \/
             (e = ValueError /\ 2 <= length fin /\ y / length fin < k)
  end.
Proof.
  intros c X y edges k init fin HX HC E. destruct (not_constant X HX HC) as [N _]. unfold resample. rewrite N.
  pose proof (balanced_draws_spec c edges X y k init fin E) as B.
  destruct X as [|x X]; [congruence|]. destruct (balanced_draws c edges (x :: X) y k) as [ds|e]; cbn [bind]; auto.
  destruct B as (B1 & B2 & B3). eauto 6.
Qed.
Lemma resample_constant : forall c X y mo edges k, constant X -> resample c X y mo edges k = Err ValueError.
Proof.
  intros c X y mo edges k H. unfold resample. destruct X as [|x X'] eqn:E; auto. rewrite <- E in *.
  rewrite (proj2 (constant_max_min X ltac:(subst; discriminate)) H). auto.
Qed.
Lemma resample_raw : forall c X y edges k, X <> [] -> ~ constant X ->
  exists ind, resample c X y Raw edges k = Ok ind /\ length ind = y /\ Forall (fun i => i < length X) ind.
Proof.
  intros c X y edges k HX HC. destruct (not_constant X HX HC) as [N _]. unfold resample. rewrite N.
  destruct X as [|x X]; [congruence|]. destruct (choice_ok (c 0) (seq 0 (length (x :: X))) y) as [d Hd]; [simpl; discriminate|].
  exists d. split; auto. apply choice_spec in Hd. destruct Hd as [L I]. split; auto. apply Forall_forall.
  intros i Hi. apply I in Hi. apply in_seq in Hi. lia.
Qed.

(** The last bin is not empty when the largest value lies above the last but one edge. *)
Lemma last_bin_nonempty : forall edges X k init fin, X <> [] -> covers edges X -> (nth (length edges - 2) edges 0 < maxl X)%R -> 1 <= k ->
  bins_indices edges X k = (init, fin) -> fin <> [] /\ Forall (fun b => b <> []) fin.
Proof.
  intros edges X k init fin HX HC HT Hk E. apply bins_indices_spec in E. destruct E as [B M].
  pose proof HC as (L & Mo & Cv). destruct (maxl_spec X HX) as [HI HM].
  assert (Hlast : exists b, nth_error init (length edges - 2) = Some b /\ b <> []).
  { destruct B as [BL BB]. destruct (nth_error_lt_Some init (i := length edges - 2)) as [b Hb]; [rewrite BL; lia|].
    exists b. split; auto. destruct (In_nth_error _ _ HI) as [i Hi].
    assert (Hin : In i b).
    { apply (BB _ _ Hb). exists (maxl X). split; auto. unfold in_bin. repeat split; intros.
      - destruct (Cv _ HI). auto.
      - auto.
      - replace (length edges - 2 + 1) with (length edges - 1) by lia. destruct (Cv _ HI). auto. }
    destruct b; [destruct Hin|discriminate]. }
  destruct Hlast as (b & Hb & Nb). pose proof B as [BL _].
  assert (Einit : exists i0, init = i0 ++ [b]).
  { assert (init <> []) by (destruct init; [rewrite nth_error_nil in Hb; discriminate|discriminate]).
    destruct (exists_last H) as (i0 & b' & ->). exists i0. rewrite app_length in BL. simpl in BL.
    replace (length edges - 2) with (length i0) in Hb by lia. rewrite nth_error_app2, Nat.sub_diag in Hb by lia. simpl in Hb.
    inversion Hb. auto. }
  destruct Einit as [i0 Ei]. pose proof (merged_sizes _ _ _ M) as MS.
  assert (NF : fin <> []) by (apply (merged_count _ _ _ M); rewrite Ei; destruct i0; discriminate).
  split; auto. destruct M as (gs & Ec & Ef & F & _).
  apply Forall_forall. intros f Hf. apply in_split in Hf. destruct Hf as (f1 & f2 & Es).
  destruct f2 as [|f' f2].
  - rewrite Ef in Es. apply map_eq_app_cons in Es. destruct Es as (g1 & g & g2 & Eg & _ & <- & E2).
    destruct g2; [|discriminate]. rewrite Eg, concat_app in Ec. simpl in Ec. rewrite app_nil_r in Ec.
    assert (Ng : g <> []) by (rewrite Forall_forall in F; apply F; rewrite Eg; apply in_or_app; right; left; auto).
    destruct (exists_last Ng) as (g' & b' & ->). rewrite Ei, app_assoc in Ec. apply app_inj_tail in Ec. destruct Ec as [_ ->].
    rewrite concat_app. simpl. rewrite app_nil_r. intros C. apply app_eq_nil in C. tauto.
  - specialize (MS f f1 (f' :: f2) Es ltac:(discriminate)). destruct f; simpl in MS; [lia|discriminate].
Qed.
