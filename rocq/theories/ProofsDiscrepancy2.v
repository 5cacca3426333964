(** * The discrepancy analyser: shares, groups, rejections, invariances. *)
From Coq Require Import Reals String List Arith ZArith Bool Lia Lra Permutation.
From Verif Require Import Base Arrays ListFacts ModelGroups SpecGroups ProofsGroups ModelScale ProofsScale Stats Sums ModelFast ModelMorris ModelMorrisAnalyze ProofsFast2 ProofsMorris3
  SpecSobol ProofsSobol Quant ModelPawn SpecPawn ProofsPawn ProofsPawn2 ProofsPawn3 ProofsPawn4 ProofsRsa2 ProofsRsa3 ProofsRsa4 ModelDiscrepancy SpecDiscrepancy ProofsDiscrepancy.
Import ListNotations.
Local Open Scope nat_scope.

Lemma disc_shares : forall disc p X Y, disc_ok disc -> disc_input p X Y -> ungrouped p ->
  exists raw out, raw_of disc p X Y raw /\ disc_analyze disc p X Y = Ok out /\ dc_names out = p_names p /\ length (dc_values out) = p_num_vars p /\
    ((0 < Rsum raw)%R -> exists s, dc_values out = map Some s /\ Rsum s = 1%R /\ Forall (fun v => 0 <= v <= 1)%R s /\
       forall i v, nth_error raw i = Some v -> nth_error s i = Some (v / Rsum raw)%R) /\
    (Rsum raw = 0%R -> dc_values out = repeat None (p_num_vars p)).
Proof.
  intros disc p X Y HD HI HU. destruct (raw_exists disc p X Y HD HI) as (raw & E & HR). exists raw.
  rewrite (disc_eq disc p X Y HI), E. cbn [bind]. unfold finish. rewrite (ungrouped_check p HU). cbn [bind].
  eexists. split; auto. split; [reflexivity|]. cbn [dc_names dc_values]. split; auto. rewrite map_length. destruct HR as [L HN]. split; auto. split.
  - intros HP. exists (map (share raw) (seq 0 (length raw))). rewrite shares by auto. rewrite map_map. split; auto.
    assert (SS := share_sum raw HP).
    assert (NN : forall x, In x (map (share raw) (seq 0 (length raw))) -> (0 <= x)%R).
    { intros x Hx. apply in_map_iff in Hx. destruct Hx as (i & <- & _). apply share_nonneg; auto. intros k v Hv. apply (HN k v Hv). }
    split; auto. split.
    + apply Forall_forall. intros x Hx. split; auto. rewrite <- SS. revert NN Hx. generalize (map (share raw) (seq 0 (length raw))). clear.
      induction l as [|y l IH]; intros NN Hx; [destruct Hx|]. change (Rsum (y :: l)) with (y + Rsum l)%R.
      assert (0 <= Rsum l)%R by (apply Rsum_nonneg; intros; apply NN; right; auto). pose proof (NN y (or_introl eq_refl)).
      destruct Hx as [->|Hx]; [lra|]. specialize (IH (fun z Hz => NN z (or_intror Hz)) Hx). lra.
    + intros i v Hv. rewrite nth_error_map', nth_error_seq. assert (i < length raw) by (apply nth_error_Some; congruence).
      destruct (Nat.ltb_spec i (length raw)); [|lia]. simpl. unfold share. rewrite (nth_error_nth _ _ _ Hv). auto.
  - intros HZ. rewrite shares_nan by auto. rewrite L. auto.
Qed.

Lemma disc_groups : forall disc p X Y g, disc_ok disc -> disc_input p X Y -> grouped p g ->
  (length g <> p_num_vars p -> disc_analyze disc p X Y = Err IndexError) /\
  (length g = p_num_vars p -> exists raw out, raw_of disc p X Y raw /\ disc_analyze disc p X Y = Ok out /\ dc_names out = p_names p /\
     ((0 < Rsum raw)%R -> exists ns js m, first_appearance g ns /\ length ns = length js /\ length ns = length m /\ dc_values out = map Some m /\
        (forall k x, nth_error ns k = Some x -> NoDup (nth k js []) /\ (forall j, In j (nth k js []) <-> nth_error g j = Some x) /\
           nth k m 0%R = mean (map (fun j => nth j raw 0 / Rsum raw)%R (nth k js [])) /\ (0 <= nth k m 0)%R) /\
        Rsum (map (fun k => INR (length (nth k js [])) * nth k m 0)%R (seq 0 (length ns))) = 1%R) /\
     (Rsum raw = 0%R -> exists ns, first_appearance g ns /\ dc_values out = repeat None (length ns))).
Proof.
  intros disc p X Y g HD HI HG. destruct (raw_exists disc p X Y HD HI) as (raw & E & HR).
  rewrite (disc_eq disc p X Y HI), E. cbn [bind]. unfold finish. rewrite (grouped_check p g HG). destruct HR as [L HN].
  assert (NG : g <> []) by (destruct HG as (_ & _ & x & _ & Hx & _); intros ->; auto). split.
  - intros LG. rewrite share_means_length; auto. rewrite map_length. congruence.
  - intros LG. exists raw. rewrite share_means_ok by (rewrite map_length; congruence). cbn [bind]. eexists. split; [split; auto|]. split; [reflexivity|]. cbn [dc_names dc_values]. split; auto. split.
    + intros HP. exists (pd_unique g), (map (members g) (pd_unique g)), (map (fun x => mean (map (share raw) (members g x))) (pd_unique g)).
      rewrite !map_length. split; [apply first_appearance_pd_unique|]. split; auto. split; auto.
      assert (MB : forall x j, In j (members g x) -> j < length raw).
      { intros x j Hj. apply members_spec in Hj. assert (j < length g) by (apply nth_error_Some; congruence). lia. }
      split; [|split].
      * rewrite map_map. apply map_ext. intros x. rewrite shares by auto.
        rewrite (map_ext_in _ (fun j => Some (share raw j))).
        -- rewrite <- map_map. unfold fmean. rewrite all_some_map. auto.
        -- intros j Hj. apply MB in Hj. apply nth_error_nth. rewrite nth_error_map', nth_error_seq. destruct (Nat.ltb_spec j (length raw)); [auto|lia].
      * intros k x Hk. assert (K : k < length (pd_unique g)) by (apply nth_error_Some; congruence).
        assert (EJ : nth k (map (members g) (pd_unique g)) [] = members g x) by (apply nth_error_nth; rewrite nth_error_map', Hk; auto).
        assert (EM : nth k (map (fun x => mean (map (share raw) (members g x))) (pd_unique g)) 0%R = mean (map (share raw) (members g x))) by (apply nth_error_nth; rewrite nth_error_map', Hk; auto).
        rewrite EJ, EM. split; [apply NoDup_filter, seq_NoDup|]. split; [apply members_spec|]. split; auto.
        apply mean_nonneg. intros v Hv. apply in_map_iff in Hv. destruct Hv as (j & <- & _). apply share_nonneg; auto. intros i w Hw. apply (HN i w Hw).
      * assert (G : forall us, incl us g -> Rsum (map (fun k => INR (length (nth k (map (members g) us) [])) * nth k (map (fun x => mean (map (share raw) (members g x))) us) 0)%R (seq 0 (length us)))
           = Rsum (map (fun x => Rsum (map (share raw) (members g x))) us)).
        { intros us HU. rewrite (sum_list_map _ EmptyString (fun x => Rsum (map (share raw) (members g x))) us). unfold sum. apply Rsum_ext. intros k Hk. apply in_seq in Hk.
          destruct (nth_error us k) as [x|] eqn:Ex; [|apply nth_error_None in Ex; lia].
          rewrite (nth_error_nth _ _ (nth k us EmptyString) Ex) || idtac.
          assert (EJ : nth k (map (members g) us) [] = members g x) by (apply nth_error_nth; rewrite nth_error_map', Ex; auto).
          assert (EM : nth k (map (fun x => mean (map (share raw) (members g x))) us) 0%R = mean (map (share raw) (members g x))) by (apply nth_error_nth; rewrite nth_error_map', Ex; auto).
          rewrite EJ, EM. rewrite (nth_error_nth _ _ EmptyString Ex). unfold mean. rewrite map_length.
          assert (NE : members g x <> []) by (apply members_nonempty; apply HU; eapply nth_error_In; eauto).
          pose proof (INR_length_pos _ _ NE). field. lra. }
        rewrite G by (intros x Hx; apply pd_unique_In; auto). rewrite Rsum_members, LG, <- L. apply share_sum. auto.
    + intros HZ. exists (pd_unique g). split; [apply first_appearance_pd_unique|]. rewrite shares_nan by auto.
      assert (Q : forall us, incl us g -> map (fun x => fmean (map (fun j => nth j (repeat (None : fval) (length raw)) None) (members g x))) us = repeat None (length us)).
      { induction us as [|x us IH]; intros HU; cbn [map repeat length]; auto. rewrite IH by (intros z Hz; apply HU; right; auto). f_equal.
        assert (NE : members g x <> []) by (apply members_nonempty; apply HU; left; auto). destruct (fmean_spec (map (fun j => nth j (repeat (None : fval) (length raw)) None) (members g x))) as [F _].
        apply F. destruct (members g x) as [|j js]; [congruence|]. left. destruct (lt_dec j (length raw)).
        - apply nth_repeat.
        - apply nth_overflow. rewrite repeat_length. lia. }
      apply Q. intros x Hx. apply pd_unique_In. auto.
Qed.

Lemma disc_names_mismatch : forall disc p X Y g out, disc_input p X Y -> grouped p g -> length g = p_num_vars p -> length (p_names p) = p_num_vars p -> ~ NoDup g ->
  disc_analyze disc p X Y = Ok out -> length (dc_values out) < length (dc_names out) /\ disc_to_df out = Err ValueError.
Proof.
  intros disc p X Y g out HI HG LG LN ND H. rewrite (disc_eq disc p X Y HI) in H.
  destruct (mapM _ _) as [raw|] eqn:E; cbn [bind] in H; [|discriminate]. pose proof (mapM_Ok_length _ _ E) as L. rewrite seq_length in L.
  unfold finish in H. rewrite (grouped_check p g HG), share_means_ok in H by (rewrite map_length; congruence). cbn [bind] in H. injection H as <-.
  unfold disc_to_df. cbn [dc_values dc_names]. rewrite map_length.
  destruct (first_appearance_length _ _ (first_appearance_pd_unique g)) as (L1 & L2).
  assert (L3 : length (pd_unique g) <> length g) by (intros C; apply ND, L2, C).
  split; [lia|]. destruct (Nat.eqb_spec (length (pd_unique g)) (length (p_names p))); auto. lia.
Qed.

(** ** Rejections *)
Lemma disc_rejects : forall disc p X Y, Forall (fun b => exists l u, b = [l; u]) (p_bounds p) -> p_bounds p <> [] -> length (p_bounds p) = cols X -> wf_mat X -> rows X <> [] ->
  ~ (good_box (p_bounds p) /\ Forall (in_box (p_bounds p)) (rows X) /\ exists a b, In a Y /\ In b Y /\ a <> b) ->
  disc_analyze disc p X Y = Err ValueError.
Proof.
  intros disc p X Y HB NB LB W NX H. unfold disc_analyze.
  assert (EC : bounds_columns (p_bounds p) = Ok (map (fun i => (lo (p_bounds p) i, up (p_bounds p) i)) (seq 0 (length (p_bounds p))))).
  { unfold bounds_columns. set (b := p_bounds p) in *. destruct b as [|r0 b'] eqn:E; [congruence|]. rewrite <- E in *.
    rewrite Forall_forall in HB.
    assert (F : forallb (fun r => length r =? length r0) b = true).
    { apply forallb_forall. intros r Hr. destruct (HB r Hr) as (l & u & ->). destruct (HB r0 ltac:(rewrite E; left; auto)) as (l' & u' & ->). auto. }
    rewrite F. cbn [negb]. rewrite (mapM_ext _ (fun r => Ok (nth 0 r 0%R, nth 1 r 0%R))).
    2: { intros r Hr. destruct (HB r Hr) as (l & u & ->). auto. }
    rewrite mapM_Ok_map. f_equal. apply nth_error_ext'. intros i. rewrite !nth_error_map', nth_error_seq.
    destruct (Nat.ltb_spec i (length b)); simpl.
    - rewrite (nth_error_nth' b []) by auto. auto.
    - rewrite (proj2 (nth_error_None b i)); auto. }
  rewrite EC. cbn [bind].
  assert (DG : {good_box (p_bounds p)} + {~ good_box (p_bounds p)}).
  { unfold good_box. apply Forall_dec. intros [|l [|u [|]]]; try (right; intros (x & y & E & _); discriminate).
    destruct (Rlt_dec l u); [left; eauto|right; intros (x & y & E & L); injection E as <- <-; auto]. }
  set (b := p_bounds p) in *.
  destruct DG as [G|G].
  2: { assert (Q : qmc_unscale X (map (fun i => (lo b i, up b i)) (seq 0 (length b))) = Err ValueError); [|rewrite Q; reflexivity].
       unfold qmc_unscale, broadcast. rewrite map_length, seq_length, LB, Nat.eqb_refl. cbn [bind].
       destruct (any_illegal _) eqn:EI; auto. exfalso. apply G. unfold good_box. apply Forall_forall. intros r Hr. rewrite Forall_forall in HB. destruct (HB r Hr) as (l & u & ->).
       exists l, u. split; auto. apply In_nth_error in Hr. destruct Hr as (i & Hi).
       destruct (Rlt_dec l u); auto. exfalso. unfold any_illegal in EI.
       assert (T : existsb (fun q => Rleb (snd q) (fst q)) (map (fun i => (lo b i, up b i)) (seq 0 (length b))) = true).
       { apply existsb_exists. exists (l, u). split.
         - apply in_map_iff. exists i. unfold lo, up. rewrite (nth_error_nth _ _ _ Hi). split; auto. apply in_seq. split; [lia|]. simpl. apply nth_error_Some. congruence.
         - simpl. unfold Rleb. destruct (Rle_dec u l); auto. lra. }
       rewrite <- LB in EI. congruence. }
  assert (DB : {Forall (in_box b) (rows X)} + {~ Forall (in_box b) (rows X)}).
  { destruct (existsb (fun r => existsb (fun b0 => b0) (map2 (fun x b0 => Rltb x (fst b0) || Rltb (snd b0) x) r (map (fun i => (lo b i, up b i)) (seq 0 (length b))))) (rows X)) eqn:EO.
    - right. intros F. pose proof (unscale_ok X b G NB (eq_sym LB) F) as U. unfold qmc_unscale, broadcast in U. rewrite map_length, seq_length, LB, Nat.eqb_refl in U. cbn [bind] in U.
      rewrite LB in EO. rewrite EO in U. destruct (any_illegal _); discriminate.
    - left. apply Forall_forall. intros r Hr. unfold wf_mat in W. rewrite Forall_forall in W. split; [rewrite (W r Hr); auto|].
      intros j l u Hj. assert (J : j < length b) by (apply nth_error_Some; congruence).
      destruct (box_entry b j G J) as [En _]. assert (EE : [l; u] = [lo b j; up b j]) by congruence. injection EE as -> ->.
      destruct (Rle_dec (lo b j) (nth j r 0%R)) as [A|A]; destruct (Rle_dec (nth j r 0%R) (up b j)) as [B|B]; auto; exfalso;
      (assert (T : existsb (fun r => existsb (fun b0 => b0) (map2 (fun x b0 => Rltb x (fst b0) || Rltb (snd b0) x) r (map (fun i => (lo b i, up b i)) (seq 0 (length b))))) (rows X) = true);
       [apply existsb_exists; exists r; split; auto; apply existsb_exists; exists true; split; auto;
        apply nth_error_In with j; rewrite nth_error_map2, nth_error_map', nth_error_seq, (nth_error_nth' r 0%R) by (rewrite (W r Hr); lia);
        destruct (Nat.ltb_spec j (length b)); [|lia]; simpl; unfold Rltb;
        destruct (Rlt_dec (nth j r 0%R) (lo b j)), (Rlt_dec (up b j) (nth j r 0%R)); auto; exfalso; lra|congruence]). }
  destruct DB as [F|F].
  2: { assert (Q : qmc_unscale X (map (fun i => (lo b i, up b i)) (seq 0 (length b))) = Err ValueError); [|rewrite Q; reflexivity].
       unfold qmc_unscale, broadcast. rewrite map_length, seq_length, LB, Nat.eqb_refl. cbn [bind].
       destruct (any_illegal _); auto. destruct (existsb _ (rows X)) eqn:EO; auto. exfalso. apply F. apply Forall_forall. intros r Hr.
       unfold wf_mat in W. rewrite Forall_forall in W. split; [rewrite (W r Hr); auto|]. intros j l u Hj. assert (J : j < length b) by (apply nth_error_Some; congruence).
       destruct (box_entry b j G J) as [En _]. assert (EE : [l; u] = [lo b j; up b j]) by congruence. injection EE as -> ->.
       assert (NT : (Rltb (nth j r 0%R) (lo b j) || Rltb (up b j) (nth j r 0%R)) = false).
       { destruct (_ || _) eqn:ET; auto. exfalso.
         assert (T : existsb (fun r => existsb (fun b0 => b0) (map2 (fun x b0 => Rltb x (fst b0) || Rltb (snd b0) x) r (map (fun i => (lo b i, up b i)) (seq 0 (length b))))) (rows X) = true).
         { apply existsb_exists. exists r. split; auto. apply existsb_exists. exists true. split; auto. apply nth_error_In with j.
           rewrite nth_error_map2, nth_error_map', nth_error_seq, (nth_error_nth' r 0%R) by (rewrite (W r Hr); lia).
           destruct (Nat.ltb_spec j (length b)); [|lia]. simpl. rewrite ET. auto. }
         rewrite LB in T. congruence. }
       apply orb_false_iff in NT. destruct NT as [N1 N2]. unfold Rltb in *. destruct (Rlt_dec (nth j r 0%R) (lo b j)), (Rlt_dec (up b j) (nth j r 0%R)); try discriminate. lra. }
  rewrite unscale_ok by auto. cbn [bind]. destruct Y as [|y0 Yr] eqn:EY; auto. rewrite <- EY in *.
  assert (NY : Y <> []) by (rewrite EY; discriminate).
  assert (NV : ~ exists a b, In a Y /\ In b Y /\ a <> b) by (intros V; apply H; auto).
  assert (MM : minl Y = maxl Y).
  { destruct (Req_EM_T (minl Y) (maxl Y)); auto. exfalso. apply NV. exists (minl Y), (maxl Y). destruct (minl_spec Y NY), (maxl_spec Y NY). auto. }
  unfold qmc_unscale at 1. cbn [cols broadcast length Nat.eqb bind]. unfold any_illegal. cbn [existsb fst snd]. rewrite MM. unfold Rleb. destruct (Rle_dec (maxl Y) (maxl Y)); [reflexivity|lra].
Qed.

(** ** Invariances *)
Lemma unit_out_affine : forall Y a b, (0 < a)%R -> Y <> [] -> (minl Y < maxl Y)%R -> unit_out (map (fun y => a * y + b)%R Y) = unit_out Y.
Proof.
  intros Y a b Ha NY LT. unfold unit_out.
  assert (Em : minl (map (fun y => a * y + b)%R Y) = (a * minl Y + b)%R).
  { destruct (minl_spec Y NY) as [I L]. destruct (minl_spec (map (fun y => a * y + b)%R Y)) as [I' L']; [destruct Y; [congruence|discriminate]|].
    apply Rle_antisym; [apply L'; apply in_map_iff; eauto|]. apply in_map_iff in I'. destruct I' as (z & E & Hz). rewrite <- E. apply L in Hz. nra. }
  assert (EM : maxl (map (fun y => a * y + b)%R Y) = (a * maxl Y + b)%R).
  { destruct (maxl_spec Y NY) as [I L]. destruct (maxl_spec (map (fun y => a * y + b)%R Y)) as [I' L']; [destruct Y; [congruence|discriminate]|].
    apply Rle_antisym; [|apply L'; apply in_map_iff; eauto]. apply in_map_iff in I'. destruct I' as (z & E & Hz). rewrite <- E. apply L in Hz. nra. }
  rewrite Em, EM, map_map. apply map_ext. intros y. field. split; [lra|]. intros C. assert (a * (maxl Y - minl Y) <> 0)%R by (apply Rmult_integral_contrapositive; lra). lra.
Qed.

Lemma disc_affine_outputs : forall disc p X Y a b, disc_input p X Y -> (0 < a)%R ->
  disc_analyze disc p X (map (fun y => a * y + b)%R Y) = disc_analyze disc p X Y.
Proof.
  intros disc p X Y a b HI Ha. assert (HI' : disc_input p X (map (fun y => a * y + b)%R Y)).
  { destruct HI as (G & N & L & HC & HB & LY & u & w & Hu & Hw & Huw). do 5 (split; auto). split; [rewrite map_length; auto|].
    exists (a * u + b)%R, (a * w + b)%R. split; [apply in_map_iff; eauto|]. split; [apply in_map_iff; eauto|]. intros C. apply Huw. nra. }
  rewrite !disc_eq by auto. destruct HI as (_ & _ & _ & _ & _ & _ & V). destruct (unscale_out Y V) as (NY & LT & _).
  unfold pts. rewrite unit_out_affine by auto. reflexivity.
Qed.

Lemma disc_reunit : forall disc p X Y a b, disc_input p X Y -> (forall i, (0 < a i)%R) ->
  disc_analyze disc (reunit a b p) (mkMat (cols X) (map (fun r => map (fun i => a i * nth i r 0 + b i)%R (seq 0 (cols X))) (rows X))) Y = disc_analyze disc p X Y.
Proof.
  intros disc p X Y a b HI Ha. pose proof HI as (G & N & L & HC & HB & LY & V).
  assert (EB : forall i, i < length (p_bounds p) -> nth_error (p_bounds (reunit a b p)) i = Some [a i * lo (p_bounds p) i + b i; a i * up (p_bounds p) i + b i]%R).
  { intros i Hi. unfold reunit. cbn [p_bounds]. rewrite nth_error_map', nth_error_seq. destruct (Nat.ltb_spec i (length (p_bounds p))); [|lia]. cbn [option_map Nat.add].
    destruct (box_entry _ _ G Hi) as [En _]. rewrite (nth_error_nth _ _ _ En). reflexivity. }
  assert (LB : length (p_bounds (reunit a b p)) = length (p_bounds p)) by (unfold reunit; cbn [p_bounds]; rewrite map_length, seq_length; auto).
  assert (HI' : disc_input (reunit a b p) (mkMat (cols X) (map (fun r => map (fun i => a i * nth i r 0 + b i)%R (seq 0 (cols X))) (rows X))) Y).
  { split.
    { unfold good_box. apply Forall_forall. intros r Hr. apply In_nth_error in Hr. destruct Hr as (i & Hi).
      assert (I : i < length (p_bounds p)) by (rewrite <- LB; apply nth_error_Some; congruence). rewrite EB in Hi by auto. injection Hi as <-.
      destruct (box_entry _ _ G I) as [_ Lt]. eexists _, _. split; [reflexivity|]. pose proof (Ha i). nra. }
    split; [intros C; rewrite C in LB; destruct (p_bounds p); simpl in *; congruence|]. split; [rewrite LB; auto|]. split; [auto|]. cbn [rows]. split.
    { apply Forall_forall. intros r Hr. apply in_map_iff in Hr. destruct Hr as (r0 & <- & Hr0). rewrite Forall_forall in HB. destruct (HB r0 Hr0) as [L0 B0].
      split; [rewrite map_length, seq_length; congruence|]. intros j l u Hj.
      assert (J : j < length (p_bounds p)) by (rewrite <- LB; apply nth_error_Some; congruence). rewrite EB in Hj by auto. injection Hj as <- <-.
      assert (E : nth j (map (fun i => a i * nth i r0 0 + b i)%R (seq 0 (cols X))) 0%R = (a j * nth j r0 0 + b j)%R).
      { apply nth_error_nth. rewrite nth_error_map', nth_error_seq. destruct (Nat.ltb_spec j (cols X)); [auto|lia]. }
      rewrite E. destruct (box_entry _ _ G J) as [En _]. specialize (B0 j _ _ En). pose proof (Ha j). nra. }
    split; [rewrite map_length; auto|]. auto. }
  rewrite !disc_eq by auto. cbn [rows]. change (p_num_vars (reunit a b p)) with (p_num_vars p).
  rewrite (mapM_ext _ (fun i => disc (pts (p_bounds p) (rows X) Y i))).
  - destruct (mapM _ _); reflexivity.
  - intros i Hi. apply in_seq in Hi. f_equal. unfold pts. f_equal. unfold unit_col. rewrite map_map. apply map_ext_in. intros r Hr.
    assert (E : nth i (map (fun i => a i * nth i r 0 + b i)%R (seq 0 (cols X))) 0%R = (a i * nth i r 0 + b i)%R).
    { apply nth_error_nth. rewrite nth_error_map', nth_error_seq. destruct (Nat.ltb_spec i (cols X)); [auto|lia]. }
    rewrite E. unfold lo at 1 2, up at 1. rewrite (nth_error_nth _ _ _ (EB i ltac:(lia))). cbn [nth].
    destruct (box_entry (p_bounds p) i G ltac:(lia)) as [_ Lt].
    pose proof (Ha i). field. split; [lra|]. assert (a i * (up (p_bounds p) i - lo (p_bounds p) i) <> 0)%R by (apply Rmult_integral_contrapositive; lra). lra.
Qed.

Lemma disc_row_order : forall disc p X Y s, (forall q q', Permutation q q' -> disc q = disc q') -> disc_input p X Y -> Permutation s (seq 0 (length Y)) ->
  disc_analyze disc p (mkMat (cols X) (map (fun k => nth k (rows X) []) s)) (map (fun k => nth k Y 0%R) s) = disc_analyze disc p X Y.
Proof.
  intros disc p X Y s HP HI Hs. pose proof HI as (G & N & L & HC & HB & LY & V). destruct (unscale_out Y V) as (NY & _ & _).
  assert (PY : Permutation (map (fun k => nth k Y 0%R) s) Y).
  { eapply Permutation_trans; [apply Permutation_map, Hs|]. rewrite <- (list_nth_seq R 0%R Y). auto. }
  assert (LS : length s = length Y) by (rewrite (Permutation_length Hs), seq_length; auto).
  assert (HI' : disc_input p (mkMat (cols X) (map (fun k => nth k (rows X) []) s)) (map (fun k => nth k Y 0%R) s)).
  { do 4 (split; auto). split.
    - cbn [rows]. apply Forall_forall. intros r Hr. apply in_map_iff in Hr. destruct Hr as (k & <- & Hk). eapply Permutation_in in Hk; eauto. apply in_seq in Hk.
      rewrite Forall_forall in HB. apply HB. apply nth_In. lia.
    - split; [cbn [rows]; rewrite !map_length; auto|]. destruct V as (u & w & Hu & Hw & Huw). exists u, w.
      split; [eapply Permutation_in; [apply Permutation_sym, PY|auto]|]. split; [eapply Permutation_in; [apply Permutation_sym, PY|auto]|auto]. }
  rewrite !disc_eq by auto. cbn [rows]. f_equal. 
  assert (Em : minl (map (fun k => nth k Y 0%R) s) = minl Y).
  { rewrite <- !sortR_first by (auto; intros C; rewrite C in PY; apply Permutation_nil in PY; auto). f_equal. apply sortR_perm_eq. auto. }
  assert (EM : maxl (map (fun k => nth k Y 0%R) s) = maxl Y).
  { rewrite <- !sortR_last by (auto; intros C; rewrite C in PY; apply Permutation_nil in PY; auto). rewrite (sortR_perm_eq _ _ PY). rewrite map_length, LS. auto. }
  apply mapM_ext. intros i Hi. apply HP. unfold pts.
  assert (EC : unit_col (p_bounds p) (map (fun k => nth k (rows X) []) s) i = map (fun k => nth k (unit_col (p_bounds p) (rows X) i) 0%R) s).
  { unfold unit_col. rewrite map_map. apply map_ext_in. intros k Hk. eapply Permutation_in in Hk; eauto. apply in_seq in Hk.
    symmetry. apply nth_error_nth. rewrite nth_error_map', (nth_error_nth' (rows X) []) by lia. auto. }
  assert (EO : unit_out (map (fun k => nth k Y 0%R) s) = map (fun k => nth k (unit_out Y) 0%R) s).
  { unfold unit_out. rewrite Em, EM, map_map. apply map_ext_in. intros k Hk. eapply Permutation_in in Hk; eauto. apply in_seq in Hk.
    symmetry. apply nth_error_nth. rewrite nth_error_map', (nth_error_nth' Y 0%R) by lia. auto. }
  rewrite EC, EO. apply combine_select.
  - unfold unit_col, unit_out. rewrite !map_length. auto.
  - unfold unit_out. rewrite map_length. auto.
Qed.
