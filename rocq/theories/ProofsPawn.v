(** * PAWN: slices and figures. *)
From Coq Require Import Reals String List Arith ZArith Bool Lia Lra Permutation.
From Verif Require Import Base Arrays ListFacts ModelGroups ProofsGroups ModelScale ProofsScale Stats Sums ModelFast ModelMorris ModelMorrisAnalyze ProofsFast2 ProofsMorris7
  Quant ModelPawn SpecPawn.
Import ListNotations.
Local Open Scope nat_scope.

Lemma quantile_spec : forall xs q, xs <> [] -> (0 <= q <= 1)%R -> quantile_at xs q (quantile xs q).
Proof.
  intros xs q Hx Hq. pose proof (len_pos xs Hx) as L. pose proof (pos_INR (length xs - 1)) as P.
  set (v := (q * INR (length xs - 1))%R). assert (Hv : (0 <= v)%R) by (unfold v; nra).
  assert (Hv' : (v <= INR (length xs - 1))%R) by (unfold v; nra).
  pose proof (floor_spec v Hv) as F. set (i := Z.to_nat (Int_part v)) in *.
  assert (Hi : i < length xs). { assert (i < length xs - 1 + 1); [|lia]. apply INR_lt. rewrite plus_INR. simpl. lra. }
  exists (sortR xs), i, (v - INR i)%R. split; [apply sortR_ascending|]. split; [apply sortR_perm|].
  rewrite sortR_length. split; auto. split; [lra|]. split; [unfold v; ring|].
  rewrite quantile_interp. fold v. unfold interp. cbv zeta. fold i. split.
  - intros ->. ring.
  - intros Ht. assert (i + 1 < length xs).
    { assert (i < length xs - 1); [|lia]. apply INR_lt. lra. }
    split; auto. rewrite sortR_length, Nat.min_l by lia. reflexivity.
Qed.

Lemma ascending_perm_sort : forall a l, ascending a -> Permutation a l -> a = sortR l.
Proof.
  intros a l Ha HP. apply sorted_perm_eq; [|apply sortR_sorted|etransitivity; [exact HP|apply Permutation_sym, sortR_perm]].
  clear HP l. induction a as [|x a IH]; constructor.
  - apply IH. intros i j Hij Hj. apply (Ha (S i) (S j)); simpl; lia.
  - rewrite Forall_forall. intros y Hy. apply (In_nth _ _ 0%R) in Hy. destruct Hy as (k & Hk & <-). apply (Ha 0 (S k)); simpl; lia.
Qed.

Lemma quantile_at_unique : forall xs q c, xs <> [] -> (0 <= q <= 1)%R -> quantile_at xs q c -> c = quantile xs q.
Proof.
  intros xs q c Hx Hq (a & i & t & Ha & HP & Hi & Ht & E & H0 & H1).
  pose proof (ascending_perm_sort a xs Ha HP) as ->. rewrite sortR_length in *.
  rewrite quantile_interp. unfold interp. cbv zeta. rewrite E, (floor_unique (INR i + t) i) by lra.
  replace (INR i + t - INR i)%R with t by ring. destruct (Req_dec t 0) as [Z|Z].
  - rewrite (H0 Z), Z. ring.
  - destruct (H1 ltac:(lra)) as [Hi1 ->]. rewrite sortR_length, Nat.min_l by lia. ring.
Qed.

Lemma median_spec : forall l, l <> [] -> median_of l (median l).
Proof.
  intros l H. exists (sortR l). split; [apply sortR_ascending|]. split; [apply sortR_perm|].
  unfold median. cbv zeta. rewrite sortR_length. split; intros k Hk; rewrite Hk.
  - replace (2 * k + 1) with (1 + k * 2) by lia. rewrite Nat.div_add by lia.
    assert (E : Nat.even (1 + k * 2) = false) by (rewrite Nat.even_add, Nat.even_mul; simpl; destruct (Nat.even k); auto).
    rewrite E. reflexivity.
  - replace (2 * k + 2) with (2 * (k + 1)) by lia. rewrite Nat.even_mul. simpl (_ || _)%bool. cbn [Nat.even orb].
    replace (2 * (k + 1)) with ((k + 1) * 2) by lia. rewrite Nat.div_mul by lia. replace (k + 1 - 1) with k by lia. auto.
Qed.

Lemma numbers_somes : forall l, numbers l = somes l.
Proof. induction l as [|[x|] l IH]; simpl; auto. unfold somes in *. simpl. f_equal. auto. Qed.

(** ** Cut points *)
Section Cuts.
  Variables (xs : list R) (n : nat) (c : nat -> R).
  Hypotheses (Hx : xs <> []) (Hn : 0 < n) (Hc : forall k, k <= n -> quantile_at xs (INR k / INR n) (c k)).

  Lemma frac : forall k, k <= n -> (0 <= INR k / INR n <= 1)%R.
  Proof using Hn.
    intros k Hk. assert (0 < INR n)%R by (apply lt_0_INR; auto). apply le_INR in Hk. pose proof (pos_INR k).
    split; [apply Rdiv_nonneg; auto|]. apply Rmult_le_reg_r with (INR n); auto. unfold Rdiv. rewrite Rmult_assoc, Rinv_l by lra. lra.
  Qed.
  Lemma cuts_quantile : forall k, k <= n -> c k = quantile xs (INR k / INR n).
  Proof using Hx Hn Hc. intros k Hk. apply quantile_at_unique; auto. apply frac. auto. Qed.
  Lemma cuts_mono : forall k k', k <= k' -> k' <= n -> (c k <= c k')%R.
  Proof using Hx Hn Hc.
    intros k k' H H'. rewrite !cuts_quantile by lia. assert (0 < INR n)%R by (apply lt_0_INR; auto).
    apply quantile_mono; auto; try apply frac; try lia. apply Rmult_le_compat_r; [apply Rlt_le, Rinv_0_lt_compat; auto|].
    apply le_INR. auto.
  Qed.
  Lemma cuts_first : c 0 = minl xs.
  Proof using Hx Hn Hc. rewrite cuts_quantile by lia. simpl (INR 0). unfold Rdiv. rewrite Rmult_0_l. apply quantile_0. auto. Qed.
  Lemma cuts_last : c n = maxl xs.
  Proof using Hx Hn Hc.
    rewrite cuts_quantile by lia. assert (0 < INR n)%R by (apply lt_0_INR; auto). unfold Rdiv. rewrite Rinv_r by lra. apply quantile_1. auto.
  Qed.

  Lemma slice_exists : forall x, (c 0 <= x)%R -> forall m, m <= n -> (x < c m)%R -> exists s, s < m /\ in_slice c s x.
  Proof using.
    clear Hx Hn Hc. intros x H0 m. induction m as [|m IH]; intros Hm Hx; [lra|].
    destruct (Rlt_le_dec x (c m)) as [L|L].
    - destruct IH as (s & Hs & Hi); auto; try lia. exists s. split; auto.
    - exists m. split; auto. unfold in_slice. rewrite Nat.add_1_r. lra.
  Qed.

  Lemma slices_partition : forall x, In x xs ->
    ((x < maxl xs)%R -> exists! s, s < n /\ in_slice c s x) /\
    (x = maxl xs -> forall s, s < n -> ~ in_slice c s x).
  Proof using Hx Hn Hc.
    intros x Hi. destruct (minl_spec xs Hx) as [_ Lm]. split.
    - intros Hlt. destruct (slice_exists x ltac:(rewrite cuts_first; auto) n (le_n n) ltac:(rewrite cuts_last; auto)) as (s & Hs & Hsl).
      exists s. split; auto. intros s' [Hs' Hsl']. unfold in_slice in *.
      destruct (Nat.lt_trichotomy s s') as [L|[L|L]]; auto; exfalso.
      + pose proof (cuts_mono (s + 1) s' ltac:(lia) ltac:(lia)). lra.
      + pose proof (cuts_mono (s' + 1) s ltac:(lia) ltac:(lia)). lra.
    - intros -> s Hs [_ H]. pose proof (cuts_mono (s + 1) n ltac:(lia) ltac:(lia)) as K. rewrite cuts_last in K. lra.
  Qed.
End Cuts.

(** ** Cells *)
Lemma select_where : forall (f : fval -> bool) xs (Y : list R), length xs = length Y ->
  select (map f xs) Y = Ok (outputs_where f xs Y).
Proof.
  intros f xs Y H. unfold select. rewrite map_length, H, Nat.eqb_refl. f_equal. unfold outputs_where.
  clear H. revert Y. induction xs as [|x xs IH]; intros [|y Y]; simpl; auto. destruct (f x); simpl; rewrite IH; auto.
Qed.

Definition keep_slice (xs : list fval) (n s : nat) : fval -> bool :=
  fun x => fle (nanquantile xs (INR s / INR n)) x && flt x (nanquantile xs (INR (s + 1) / INR n)).

Lemma where_split : forall (f : fval -> bool) xs Y, length xs = length Y ->
  Permutation (outputs_where f xs Y ++ outputs_where (fun x => negb (f x)) xs Y) Y.
Proof.
  unfold outputs_where. induction xs as [|x xs IH]; intros [|y Y] H; simpl in *; try discriminate; auto.
  injection H as H. destruct (f x); simpl.
  - constructor. auto.
  - etransitivity; [|apply perm_skip, IH; auto]. apply Permutation_sym, Permutation_middle.
Qed.

Lemma where_length : forall (f : fval -> bool) xs Y, length (outputs_where f xs Y) <= length Y.
Proof.
  unfold outputs_where. induction xs as [|x xs IH]; intros [|y Y]; simpl; try lia. specialize (IH Y). destruct (f x); simpl; lia.
Qed.

Lemma cell_spec : forall xs Y n s, length xs = length Y -> s < n -> exists v, pawn_cell xs Y n s = Ok v /\
  slice_value (fun k => quantile (somes xs) (INR k / INR n)) xs Y s v /\
  (forall d, v = Some d -> (0 <= d < 1)%R).
Proof.
  intros xs Y n s HL Hs. unfold pawn_cell, slice_mask. cbv zeta. fold (keep_slice xs n s).
  change (fun x => fle (nanquantile xs (INR s / INR n)) x && flt x (nanquantile xs (INR (s + 1) / INR n))) with (keep_slice xs n s).
  rewrite select_where by auto. cbn [bind]. eexists. split; [reflexivity|].
  set (sel := outputs_where (keep_slice xs n s) xs Y).
  assert (HY : sel <> [] -> Y <> []).
  { intros H E. apply H. unfold sel. rewrite E. unfold outputs_where. destruct xs; reflexivity. }
  split.
  - destruct (somes xs) as [|r0 rs] eqn:Er.
    + (* no number *)
      assert (HN : forall u, In u xs -> u = None).
      { intros u Hu. destruct u as [x|]; auto. exfalso.
        assert (In x (somes xs)); [|rewrite Er in H; auto]. unfold somes. apply in_map_iff. exists (Some x). split; auto. apply filter_In. auto. }
      assert (Hsel : sel = []).
      { unfold sel, outputs_where. assert (K : forall u, keep_slice xs n s u = false); [|clear - K].
        - intros u. unfold keep_slice, nanquantile. rewrite numbers_somes, Er. reflexivity.
        - induction (combine xs Y) as [|[u y] l IH]; simpl; auto. rewrite K. auto. }
      rewrite Hsel. 
      exists (fun u => match u with Some x => (if Rle_dec (quantile [] (INR s / INR n)) x then true else false) &&
                         (if Rlt_dec x (quantile [] (INR (s + 1) / INR n)) then true else false) | None => false end).
      split.
      * intros [x|]; split; try discriminate.
        -- intros H. apply andb_true_iff in H. destruct H as [H1 H2]. exists x. split; auto. unfold in_slice.
           destruct (Rle_dec _ _); [|discriminate]. destruct (Rlt_dec _ _); [|discriminate]. lra.
        -- intros (x' & E & H1 & H2). injection E as <-. destruct (Rle_dec _ _); [|contradiction]. destruct (Rlt_dec _ _); [|contradiction]. auto.
        -- intros (x' & E & _). discriminate.
      * cbv zeta. split; auto. intros H. exfalso. apply H. unfold outputs_where.
        assert (K : forall u y, In (u, y) (combine xs Y) -> u = None) by (intros u y Hu; apply in_combine_l in Hu; auto).
        clear - K. induction (combine xs Y) as [|[u y] l IH]; simpl; auto. rewrite (K u y) by (left; auto). apply IH. intros u' y' Hu. apply (K u' y'). right. auto.
    + exists (keep_slice xs n s). split.
      * intros u. unfold keep_slice, nanquantile. rewrite numbers_somes, Er. destruct u as [x|]; simpl; split.
        -- intros H. apply andb_true_iff in H. destruct H as [H1 H2]. exists x. split; auto. unfold in_slice.
           destruct (Rle_dec _ _); [|discriminate]. destruct (Rlt_dec _ _); [|discriminate]. split; auto.
        -- intros (x' & E & H1 & H2). injection E as <-. destruct (Rle_dec _ _); [|contradiction]. destruct (Rlt_dec _ _); [|contradiction]. auto.
        -- discriminate.
        -- intros (x' & E & _). discriminate.
      * cbv zeta. fold sel. split.
        -- intros ->. auto.
        -- intros H. destruct sel as [|y0 ys] eqn:Es; [congruence|]. eexists. split; [reflexivity|].
           destruct (ks_spec (y0 :: ys) Y ltac:(discriminate) (HY ltac:(discriminate))) as [U (t & _ & E)]. split; auto. exists t. auto.
  - intros d Hd. destruct sel as [|y0 ys] eqn:Es; [discriminate|]. injection Hd as <-.
    pose proof (HY ltac:(discriminate)) as HY'. split; [apply ks_range; auto; discriminate|].
    pose proof (where_split (keep_slice xs n s) xs Y HL) as HP. fold sel in HP. rewrite Es in HP.
    pose proof (ks_part (y0 :: ys) _ Y ltac:(discriminate) HP) as HK.
    pose proof (INR_length_pos R Y HY') as LY. pose proof (Permutation_length HP) as EL. rewrite app_length in EL.
    eapply Rle_lt_trans; [exact HK|]. apply Rmult_lt_reg_r with (INR (length Y)); auto. unfold Rdiv.
    rewrite Rmult_assoc, Rinv_l by lra. rewrite Rmult_1_r, Rmult_1_l. apply lt_INR. simpl in EL. lia.
Qed.

Lemma summary_spec : forall cells, (forall d, In (Some d) cells -> (0 <= d < 1)%R) ->
  summary_of cells (pawn_summary cells) /\ ordered_row (pawn_summary cells).
Proof.
  intros cells H. unfold pawn_summary. rewrite numbers_somes.
  assert (HS : forall d, In d (somes cells) -> (0 <= d < 1)%R).
  { intros d Hd. unfold somes in Hd. apply in_map_iff in Hd. destruct Hd as (u & E & Hu). apply filter_In in Hu.
    destruct Hu as [Hu K]. destruct u as [x|]; [|discriminate]. subst. auto. }
  destruct (somes cells) as [|v0 vs] eqn:E.
  - split; [split; [auto|rewrite E; congruence]|]. left. eexists. reflexivity.
  - set (v := v0 :: vs) in *. assert (Hv : v <> []) by discriminate. split.
    + split; [rewrite E; discriminate|]. intros _. rewrite E. exists (median v). split; [apply median_spec; auto|reflexivity].
    + right. destruct (minl_spec v Hv) as [Im Lm]. destruct (maxl_spec v Hv) as [IM LM].
      pose proof (median_bounds v Hv). pose proof (mean_bounds v Hv).
      exists (minl v), (mean v), (median v), (maxl v), (fdiv (sd v) (mean v)), (sd v). split; auto.
      pose proof (HS _ Im). pose proof (HS _ IM). pose proof (sd_nonneg v). lra.
Qed.
