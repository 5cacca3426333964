(** * Fractional factorial effects in double precision. *)
From Coq Require Import Reals String List Arith ZArith Bool Lia Lra Psatz Permutation.
From Flocq Require Import Core.
From Verif Require Import Base Arrays ListFacts ModelGroups ModelScale ProofsScale Stats ModelSobol ModelDouble ModelDouble4 SpecError SpecError2 ProofsDouble ProofsDouble5 ProofsDouble10 ProofsDouble13 ProofsError ProofsError2
  ModelFF SpecFF ProofsFF ProofsFF2 ModelDouble7.
Import ListNotations.
Local Open Scope nat_scope.

Lemma mapM_alike : forall A B C (f : A -> result B) (g : A -> result C) Q l, (forall x, In x l -> alike Q (f x) (g x)) -> alike (Forall2 Q) (mapM f l) (mapM g l).
Proof.
  intros A B C f g Q l. induction l as [|x l IH]; intros H; [constructor|]. cbn [mapM]. pose proof (H x (or_introl eq_refl)) as Hx.
  specialize (IH ltac:(intros; apply H; right; auto)). unfold alike in *. destruct (f x), (g x); try contradiction; cbn [bind]; auto.
  destruct (mapM f l), (mapM g l); try contradiction; cbn [bind]; auto.
Qed.

Definition signs (x : list Z) : Prop := List.Forall (fun z => z = 1 \/ z = -1)%Z x.
Lemma column_signs : forall X j, List.Forall signs X -> signs (column X j).
Proof.
  intros X j H. apply Forall_forall. intros z Hz. unfold column in Hz. apply in_flat_map in Hz. destruct Hz as (r & Hr & Hz). rewrite Forall_forall in H. specialize (H r Hr).
  destruct (nth_error r j) as [y|] eqn:E; [|destruct Hz]. destruct Hz as [<-|[]]. apply nth_error_In in E. unfold signs in H. rewrite Forall_forall in H. auto.
Qed.
Lemma product_signs : forall x y, signs x -> signs y -> signs (map2 Z.mul x y).
Proof.
  intros x y H. revert y. induction H as [|a x Ha H IH]; intros y K; [constructor|]. destruct K as [|b y Hb K]; [constructor|]. cbn [map2]. constructor; [|apply IH; auto].
  destruct Ha as [-> | ->], Hb as [-> | ->]; auto.
Qed.
Lemma contrast_signs : forall k, List.Forall signs (hadamard k ++ map (map Z.opp) (hadamard k)).
Proof.
  intros k. rewrite contrast_tab. unfold tab. apply Forall_forall. intros r Hr. apply in_map_iff in Hr. destruct Hr as (i & <- & _). apply Forall_forall. intros z Hz.
  apply in_map_iff in Hz. destruct Hz as (j & <- & _). apply cz_sign.
Qed.
Lemma contrast_width : forall k, length (hd [] (hadamard k ++ map (map Z.opp) (hadamard k))) = 2 ^ k.
Proof.
  intros k. rewrite contrast_tab. unfold tab. pose proof (Nat.pow_nonzero 2 k). destruct (2 ^ k + 2 ^ k) eqn:E; [lia|]. cbn [seq map hd]. rewrite map_length, seq_length. auto.
Qed.
Lemma contrast_column : forall k j, j < 2 ^ k -> length (column (hadamard k ++ map (map Z.opp) (hadamard k)) j) = 2 * 2 ^ k.
Proof.
  intros k j J. rewrite contrast_tab. unfold tab, column. transitivity (length (seq 0 (2 ^ k + 2 ^ k))); [|rewrite seq_length; lia]. generalize (seq 0 (2 ^ k + 2 ^ k)).
  induction l as [|i l IH]; auto. cbn [map flat_map]. rewrite app_length, IH, nth_error_map_seq, (proj2 (Nat.ltb_lt _ _) J). reflexivity.
Qed.

Local Open Scope R_scope.
Lemma sign_exact : forall y z, double y -> (z = 1 \/ z = -1)%Z -> fl (y * IZR z) = y * IZR z.
Proof. intros y z D [-> | ->]; apply fl_double; [rewrite Rmult_1_r; auto|]. replace (y * -1) with (- y) by ring. apply double_opp; auto. Qed.
Lemma dot_exact_products : forall Y x, List.Forall double Y -> signs x -> map2 (fun y z => fl (y * IZR z)) Y x = map2 (fun y z => y * IZR z) Y x.
Proof.
  intros Y x D. revert x. induction D as [|y Y Hy D IH]; intros x S; [reflexivity|]. destruct S as [|z x Hz S]; [reflexivity|]. cbn [map2]. rewrite IH by auto. f_equal. apply sign_exact; auto.
Qed.
Lemma products_double : forall Y x, List.Forall double Y -> signs x -> List.Forall double (map2 (fun y z => y * IZR z) Y x).
Proof.
  intros Y x D. revert x. induction D as [|y Y Hy D IH]; intros x S; [constructor|]. destruct S as [|z x Hz S]; [constructor|]. cbn [map2]. constructor; [|apply IH; auto].
  rewrite <- (sign_exact y z) by auto. apply double_fl.
Qed.
Lemma products_abs : forall Y x, length Y = length x -> signs x -> map Rabs (map2 (fun y z => y * IZR z) Y x) = map Rabs Y.
Proof.
  intros Y x L S. revert Y L. induction S as [|z x Hz S IH]; intros [|y Y] L; try discriminate; auto. cbn [map2 map]. f_equal; [|apply IH; simpl in L; lia].
  rewrite Rabs_mult. destruct Hz as [-> | ->]; [rewrite Rabs_R1|rewrite (Rabs_left (-1)) by lra]; ring.
Qed.
Lemma products_length : forall Y (x : list Z), length Y = length x -> length (map2 (fun y z => y * IZR z) Y x) = length Y.
Proof. induction Y as [|y Y IH]; intros [|z x] L; try discriminate; auto. cbn [map2 length]. f_equal. apply IH. simpl in L. lia. Qed.

Lemma share_exact : forall k, (k < 10)%nat -> fl (1 / INR (2 * 2 ^ k)) = bpow radix2 (- Z.of_nat (S k)) /\ 1 / INR (2 * 2 ^ k) = bpow radix2 (- Z.of_nat (S k)).
Proof.
  intros k K. assert (E : 1 / INR (2 * 2 ^ k) = bpow radix2 (- Z.of_nat (S k))).
  { change (2 * 2 ^ k)%nat with (2 ^ S k)%nat. rewrite bpow_opp, <- (IZR_Zpower radix2) by lia. unfold Rdiv. rewrite Rmult_1_l. f_equal. rewrite INR_IZR_INZ. f_equal. rewrite Nat2Z.inj_pow. reflexivity. }
  split; auto. rewrite E. apply fl_double. rewrite <- (Rmult_1_l (bpow _ _)). apply (double_F 1); [reflexivity|lia].
Qed.

Section Near.
Variable arr : nat -> tree.
Hypothesis A : arrangement arr.
Variable Y : list R.
Hypothesis D : List.Forall double Y.
Let near (x y : R) : Prop := Rabs (y - x) <= err (length Y) * (mean (map Rabs Y) + tiny).

Lemma effect_near : forall k x, (k < 10)%nat -> signs x -> length x = (2 * 2 ^ k)%nat ->
  alike (fun a b => near a b) (do v <- dot Y x ;; Ok (1 / INR (2 * 2 ^ k) * v)) (do v <- dot_fl arr Y x ;; Ok (share_fl (2 ^ k) v)).
Proof using A D.
  intros k x K SG LX. unfold dot, dot_fl. destruct (Nat.eqb_spec (length Y) (length x)) as [L|L]; [|reflexivity]. cbn [bind alike].
  rewrite dot_exact_products by auto. set (P := map2 (fun y z => y * IZR z) Y x). destruct (share_exact k K) as (E1 & E2). unfold share_fl. rewrite E1, <- E2.
  assert (LP : length P = length Y) by (apply products_length; auto).
  assert (YN : Y <> []). { intros ->. pose proof (Nat.pow_nonzero 2 k). simpl in L. lia. }
  assert (PN : P <> []) by (intros Q; rewrite Q in LP; destruct Y; [congruence|discriminate]).
  pose proof (sum_error arr A P PN (products_double Y x D SG)) as O. rewrite LP in O. unfold P in O at 1. rewrite products_abs in O by auto. fold P in O.
  rewrite LX in L. rewrite <- L. pose proof (INR_length_pos R Y YN) as PP. pose proof (Rinv_0_lt_compat _ PP) as PI. pose proof tiny_pos as PT.
  assert (B : Rabs (Rsum P) <= Rsum (map Rabs Y)).
  { unfold P. rewrite <- (products_abs Y x) by (auto; lia). fold P. generalize P. clear. unfold Rsum. induction P as [|a l IH]; cbn [map fold_right]; [rewrite Rabs_R0; lra|].
    pose proof (Rabs_triang a (fold_right Rplus 0 l)). lra. }
  apply (off_scale _ _ _ _ (1 / INR (length Y))) in O. replace (Rabs (1 / INR (length Y))) with (/ INR (length Y)) in O by (unfold Rdiv; rewrite Rmult_1_l, Rabs_pos_eq; lra).
  assert (LY : (0 < length Y)%nat) by (destruct Y; [congruence|simpl; lia]).
  unfold near. change (off (length Y) (mean (map Rabs Y) + tiny) (1 / INR (length Y) * Rsum P) (fl (1 / INR (length Y) * sum_fl arr P))).
  replace (length Y) with (S (length Y - 1)) at 1 by lia. unfold mean. rewrite map_length. apply off_fl.
  - rewrite Rabs_mult. unfold Rdiv. rewrite Rmult_1_l, (Rabs_pos_eq (/ _)) by lra. rewrite Rmult_comm. apply Rplus_le_compat_r, Rmult_le_compat_r; lra.
  - eapply off_weaken; [apply Nat.le_refl| |  |exact O]; [apply Rmult_le_pos; [lra|eapply Rle_trans; [apply Rabs_pos|exact B]]|unfold Rdiv; lra].
Qed.

Lemma column_lengths : forall k c c2, (c < 2 ^ k)%nat -> (c2 < 2 ^ k)%nat -> let X := hadamard k ++ map (map Z.opp) (hadamard k) in
  length (map2 Z.mul (column X c) (column X c2)) = (2 * 2 ^ k)%nat.
Proof.
  intros k c c2 H H2 X. pose proof (contrast_column k c H) as L1. pose proof (contrast_column k c2 H2) as L2. fold X in L1, L2. revert L1 L2. generalize (column X c) (column X c2) (2 * 2 ^ k)%nat.
  induction l as [|a l IH]; intros [|b l0] n L1 L2; simpl in *; try lia. destruct n; [lia|]. rewrite (IH l0 n); lia.
Qed.

Lemma ff_near : forall p second, fst (ff_analyze_fl arr p Y second) = fst (ff_analyze p Y second) /\
  alike (effects_by near) (snd (ff_analyze p Y second)) (snd (ff_analyze_fl arr p Y second)).
Proof using A D.
  intros p second. unfold ff_analyze, ff_analyze_fl. destruct (Nat.le_gt_cases (p_num_vars p) 512) as [H|H].
  2:{ destruct (extend_refused p H) as (E & _). rewrite E. split; reflexivity. }
  destruct (extend_ok p H) as (k & K & _ & _ & F & E & _). rewrite E. cbn [fst snd]. split; auto. cbn [p_num_vars padded]. unfold generate_contrast. rewrite find_smallest_pow by auto. cbn [bind].
  pose proof (contrast_signs k) as CS. pose proof (contrast_width k) as CW. pose proof (contrast_column k) as CC. set (X := hadamard k ++ map (map Z.opp) (hadamard k)) in *. rewrite CW.
  assert (M : alike (Forall2 near) (mapM (fun j => do v <- dot Y (column X j) ;; Ok (1 / INR (2 * 2 ^ k) * v)) (seq 0 (2 ^ k)))
                                   (mapM (fun j => do v <- dot_fl arr Y (column X j) ;; Ok (share_fl (2 ^ k) v)) (seq 0 (2 ^ k)))).
  { apply mapM_alike. intros j Hj. apply in_seq in Hj. apply effect_near; auto; [apply column_signs; auto|apply CC; lia]. }
  assert (I : alike (Forall2 (fun a b => fst b = fst a /\ near (snd a) (snd b))) (interactions (p_names (padded p (2 ^ k))) (2 ^ k) X Y) (interactions_fl arr (p_names (padded p (2 ^ k))) (2 ^ k) X Y)).
  { unfold interactions, interactions_fl. rewrite CW. apply mapM_alike. intros [c c2] Hc. apply in_flat_map in Hc. destruct Hc as (c' & H1 & H2). apply in_map_iff in H2. destruct H2 as (d' & E2 & H2). injection E2 as -> ->.
    apply in_seq in H1, H2. destruct (get _ c2) as [n2|e]; [|reflexivity]. destruct (get _ c) as [n1|e]; [|reflexivity]. cbn [bind].
    pose proof (effect_near k (map2 Z.mul (column X c) (column X c2)) K (product_signs _ _ (column_signs X c CS) (column_signs X c2 CS)) (column_lengths k c c2 ltac:(lia) ltac:(lia))) as EN.
    unfold alike in *. destruct (dot Y _), (dot_fl arr Y _); cbn [bind fst snd] in *; auto. }
  unfold alike in M. destruct (mapM _ (seq 0 (2 ^ k))) as [me|e], (mapM _ (seq 0 (2 ^ k))) as [me'|e']; try contradiction; cbn [bind]; [|exact M].
  destruct second; cbn [bind].
  - unfold alike in I. destruct (interactions _ _ X Y), (interactions_fl arr _ _ X Y); try contradiction; cbn [bind]; [|exact I]. cbn [alike]. split; [reflexivity|]. split; auto.
  - cbn [alike]. split; [reflexivity|]. split; [exact M|exact Logic.I].
Qed.
End Near.

(** ** Exact results *)
Lemma tsum_exact : forall e t ks, (-1074 <= e)%Z -> (Rsum (map (fun i => Rabs (IZR (nth i ks 0%Z))) (leaves t)) <= IZR (2 ^ 53)) ->
  tsum t (map (fun k => IZR k * bpow radix2 e) ks) = Rsum (map (fun i => nth i (map (fun k => IZR k * bpow radix2 e) ks) 0) (leaves t)) /\
  exists m, tsum t (map (fun k => IZR k * bpow radix2 e) ks) = IZR m * bpow radix2 e /\ Rabs (IZR m) <= Rsum (map (fun i => Rabs (IZR (nth i ks 0%Z))) (leaves t)).
Proof.
  intros e t ks He. induction t as [i|a IHa b IHb]; intros H; cbn [leaves tsum map] in *.
  - unfold Rsum. cbn [fold_right]. split; [ring|]. exists (nth i ks 0%Z). split; [|lra].
    replace 0 with (IZR 0 * bpow radix2 e) by ring. rewrite (map_nth (fun k => IZR k * bpow radix2 e)). auto.
  - rewrite !map_app, !Rsum_app in *.
    assert (P : forall l, 0 <= Rsum (map (fun i => Rabs (IZR (nth i ks 0%Z))) l)).
    { unfold Rsum. induction l as [|i l IH]; cbn [map fold_right]; [lra|]. pose proof (Rabs_pos (IZR (nth i ks 0%Z))). lra. }
    pose proof (P (leaves a)). pose proof (P (leaves b)). destruct IHa as (Ea & ma & Fa & Ba); [lra|]. destruct IHb as (Eb & mb & Fb & Bb); [lra|].
    assert (F : tsum a (map (fun k => IZR k * bpow radix2 e) ks) + tsum b (map (fun k => IZR k * bpow radix2 e) ks) = IZR (ma + mb) * bpow radix2 e) by (rewrite Fa, Fb, plus_IZR; ring).
    assert (B : Rabs (IZR (ma + mb)) <= Rsum (map (fun i => Rabs (IZR (nth i ks 0%Z))) (leaves a)) + Rsum (map (fun i => Rabs (IZR (nth i ks 0%Z))) (leaves b))) by (rewrite plus_IZR; eapply Rle_trans; [apply Rabs_triang|lra]).
    assert (X : fl (tsum a (map (fun k => IZR k * bpow radix2 e) ks) + tsum b (map (fun k => IZR k * bpow radix2 e) ks)) = IZR (ma + mb) * bpow radix2 e).
    { rewrite F. apply fl_double. assert (Z : (Z.abs (ma + mb) <= 2 ^ 53)%Z) by (apply le_IZR; rewrite abs_IZR; lra).
      destruct (Z.eq_dec (Z.abs (ma + mb)) (2 ^ 53)) as [Q|Q]; [|apply double_F; lia].
      destruct (Z.abs_eq_or_opp (ma + mb)) as [R1|R1]; rewrite R1 in Q.
      - rewrite Q. replace (IZR (2 ^ 53) * bpow radix2 e) with (IZR 1 * bpow radix2 (53 + e)) by (rewrite bpow_plus; change (bpow radix2 53) with (IZR (2 ^ 53)); ring). apply double_F; [reflexivity|lia].
      - replace (ma + mb)%Z with (- 2 ^ 53)%Z by lia. replace (IZR (- 2 ^ 53) * bpow radix2 e) with (IZR (-1) * bpow radix2 (53 + e)); [apply double_F; [reflexivity|lia]|].
        rewrite bpow_plus. change (bpow radix2 53) with (IZR (2 ^ 53)). rewrite opp_IZR. change (IZR (-1)) with (- (1)). ring. }
    split; [rewrite X, <- F, Ea, Eb; auto|]. exists (ma + mb)%Z. auto.
Qed.
