(** * Forward errors of the Morris analysis in double precision. *)
From Coq Require Import Reals String List Arith ZArith Bool Lia Lra Psatz Permutation.
From Flocq Require Import Core Relative.
From Verif Require Import Base Arrays ListFacts ModelGroups ModelScale ProofsScale SpecGroups Stats ModelFast ModelMorris ModelMorrisAnalyze SpecMorris
  ModelDouble ModelDouble2 ModelDouble4 ModelDouble5 SpecDouble3 SpecError ProofsDouble ProofsDouble5 ProofsDouble10 ProofsGroups ProofsMorris1 ProofsMorris7 ProofsDouble15 ProofsDouble16 ProofsDouble17 ProofsSingle3 ProofsError ProofsError6.
From Verif Require ProofsDouble21.
Import ListNotations.
Local Open Scope R_scope.

(** The step, for up to 2^52 levels. *)
Lemma delta_off : forall levels, (2 <= levels)%nat -> (Z.of_nat levels <= 2 ^ 52)%Z -> step levels <> 0 /\ Rabs (delta_fl levels - step levels) <= u * Rabs (step levels).
Proof.
  intros levels L M. unfold delta_fl, step. set (n := Z.of_nat levels) in *. assert (EI : INR levels = IZR n) by (unfold n; apply INR_IZR_INZ). rewrite EI.
  assert (N2 : 2 <= IZR n) by (apply (IZR_le 2); lia). assert (NM : IZR n <= bpow radix2 52) by (change (bpow radix2 52) with (IZR (2 ^ 52)); apply IZR_le; auto).
  assert (E : fl (2 * (IZR n - 1)) = 2 * (IZR n - 1)).
  { replace (2 * (IZR n - 1)) with (IZR (2 * (n - 1))) by (rewrite mult_IZR, minus_IZR; ring). apply fl_double. apply generic_format_FLT.
    exists (Float radix2 (2 * (n - 1)) 0); cbn [Fnum Fexp]; [unfold F2R; cbn; ring| |lia].
    change (Z.abs (2 * (n - 1)) < 9007199254740992)%Z. change (2 ^ 52)%Z with 4503599627370496%Z in M. lia. }
  rewrite E. set (d := IZR n / (2 * (IZR n - 1))).
  assert (D1 : / 2 <= d). { unfold d. apply Rmult_le_reg_r with (2 * (IZR n - 1)); [lra|]. unfold Rdiv. rewrite Rmult_assoc, Rinv_l by lra. lra. }
  split; [lra|]. pose proof (relative_error_N_FLT radix2 (-1074) 53 ltac:(reflexivity) (fun t => negb (Z.even t)) d) as F.
  rewrite (Rabs_pos_eq d) in F |- * by lra. unfold fl. eapply Rle_trans; [apply F|].
  - apply Rle_trans with (/ 2); auto. change (/ 2) with (bpow radix2 (-1)). apply bpow_le. lia.
  - right. unfold u. change (/ 2) with (bpow radix2 (-1)). rewrite <- bpow_plus. reflexivity.
Qed.

(** ** One elementary effect *)
Lemma block_error : forall T (l : list T) size i r, nth_error (block l size i) r = if (r <? size)%nat then nth_error l (i * size + r) else None.
Proof. intros T l size i r. unfold block. rewrite nth_error_firstn, nth_error_skipn. reflexivity. Qed.
Lemma nth_from_error : forall T (d : T) l l' r r', nth_error l r = nth_error l' r' -> nth r l d = nth r' l' d.
Proof.
  intros T d l l' r r' H. destruct (nth_error l r) as [x|] eqn:E.
  - rewrite (nth_error_nth _ _ _ E), (nth_error_nth _ _ _ (eq_sym H)). auto.
  - rewrite !nth_overflow; auto; apply nth_error_None; auto.
Qed.
Lemma block_at : forall T (d : T) l size i r, (r < size)%nat -> nth r (block l size i) d = nth (i * size + r) l d.
Proof. intros T d l size i r L. apply nth_from_error. rewrite block_error, (proj2 (Nat.ltb_lt _ _) L). reflexivity. Qed.

Section Effect.
Variables (S : sums) (size : nat) (X : list (list R)) (Y : list R).
Hypothesis A : arrangement (s_einsum S).
Hypothesis P : (0 < size)%nat.
Hypothesis DX : forall r x, In r X -> In x r -> double x.
Hypothesis DY : forall y, In y Y -> double y.

Lemma coord_double : forall r j, double (coord X r j).
Proof using DX.
  intros r j. unfold coord. destruct (nth_in_or_default j (nth r X []) 0) as [I| ->]; [|apply double_0]. destruct (nth_in_or_default r X []) as [J|E]; [eauto|]. rewrite E in I. destruct I.
Qed.
Lemma out_double : forall r, double (nth r Y 0).
Proof using DY. intros r. destruct (nth_in_or_default r Y 0) as [I| ->]; [auto|apply double_0]. Qed.

(** The computed difference is that of the outputs at the step of the parameter. *)
Lemma difference_at : forall delta i j e, one_move size X j -> delta <> 0 -> is_effect delta (block X size i) (block Y size i) j e ->
  exists a b, double a /\ double b /\ difference_fl S size X Y i j = fl (a - b) /\ e = (a - b) / delta.
Proof using A P DX DY.
  intros delta i j e O ND (r & a & b & Ea & Eb & C). rewrite block_error in Ea, Eb. destruct (Nat.ltb_spec r size) as [L0|]; [|discriminate]. destruct (Nat.ltb_spec (r + 1) size) as [L|]; [|discriminate].
  rewrite !block_at in C by auto. assert (Ca : nth j a 0 = coord X (i * size + r) j) by (unfold coord; rewrite (nth_error_nth _ _ _ Ea); auto).
  assert (Cb : nth j b 0 = coord X (i * size + (r + 1)) j) by (unfold coord; rewrite (nth_error_nth _ _ _ Eb); auto). rewrite Ca, Cb in C.
  destruct (difference_moves S size X Y i j A P DY O) as [[_ Z]|(q & Q & M)].
  - exfalso. destruct (Z r L) as [Z1 Z2]. apply Rltb_false in Z1. apply Rltb_false in Z2. unfold x_at in Z1, Z2.
    fold (coord X (i * size + (r + 1)) j) in Z1, Z2. fold (coord X (i * size + r) j) in Z1, Z2.
    assert (F : fl (coord X (i * size + (r + 1)) j - coord X (i * size + r) j) = 0) by lra.
    apply ProofsDouble21.difference_nonzero in F; try apply coord_double. destruct C as [[C _]|[C _]]; lra.
  - assert (q = r). { apply (O i q r); auto; [destruct M as [[M _]|[M _]]|destruct C as [[C _]|[C _]]]; lra. } subst q.
    destruct C as [[C ->]|[C ->]], M as [[M ->]|[M ->]]; try lra; eexists _, _; (split; [apply out_double|split; [apply out_double|split; reflexivity]]).
Qed.
Lemma effect_off : forall levels i j e, (2 <= levels)%nat -> (Z.of_nat levels <= 2 ^ 52)%Z -> one_move size X j -> is_effect (step levels) (block X size i) (block Y size i) j e ->
  exists v, effect_fl S size X Y (delta_fl levels) false i j = Some v /\ double v /\ off 4 (Rabs e + tiny) e v.
Proof using A P DX DY.
  intros levels i j e L M O H. destruct (delta_off levels L M) as (SN & SD). destruct (difference_at (step levels) i j e O SN H) as (a & b & Da & Db & E & ->).
  unfold effect_fl. rewrite E. unfold fdiv_fl. destruct (inverse_ratio _ _ SN SD) as (ZN & _). destruct (Reqb (delta_fl levels) 0) eqn:Z; [apply Reqb_true in Z; congruence|].
  eexists. split; [reflexivity|]. split; [apply double_fl|]. apply quotient_off; auto.
Qed.
End Effect.

(** ** Means over trajectories *)
Lemma all_some_total : forall T (f : T -> fval) (g : T -> R) l, (forall x, In x l -> f x = Some (g x)) -> all_some (map f l) = Some (map g l).
Proof.
  intros T f g l. induction l as [|x l IH]; intros H; cbn; auto. rewrite (H x) by (left; auto). rewrite IH by (intros; apply H; right; auto). auto.
Qed.
Lemma column_off : forall arr (f : nat -> fval) (E : nat -> R) N k, arrangement arr -> (0 < N)%nat ->
  (forall i, (i < N)%nat -> exists v, f i = Some v /\ double v /\ off k (Rabs (E i) + tiny) (E i) v) ->
  (exists m, fmean_fl arr (map f (seq 0 N)) = Some m /\ double m /\ off (k + N) (mean (map (fun i => Rabs (E i)) (seq 0 N)) + tiny) (mean (map E (seq 0 N))) m) /\
  (exists m, fmean_fl arr (map fabs (map f (seq 0 N))) = Some m /\ double m /\ off (k + N) (mean (map (fun i => Rabs (E i)) (seq 0 N)) + tiny) (mean (map (fun i => Rabs (E i)) (seq 0 N))) m).
Proof.
  intros arr f E N k A PN H. set (g := fun i => match f i with Some v => v | None => 0 end).
  assert (G : forall i, In i (seq 0 N) -> f i = Some (g i) /\ double (g i) /\ off k (Rabs (E i) + tiny) (E i) (g i)).
  { intros i I. apply in_seq in I. destruct (H i ltac:(lia)) as (v & F & D & O). unfold g. rewrite F. auto. }
  assert (NE : seq 0 N <> []) by (destruct N; [lia|discriminate]). unfold fmean_fl. split.
  - rewrite (all_some_total _ f g) by (intros i I; apply G; auto). cbn [option_map]. eexists. split; [reflexivity|]. split; [apply double_fl|].
    rewrite <- mean_plus by auto. replace (k + N)%nat with (k + length (seq 0 N))%nat by (rewrite seq_length; auto).
    apply (mean_off arr A nat E g (fun i => Rabs (E i) + tiny) k); auto. intros i I. destruct (G i I) as (_ & D & O). split; auto. split; [lra|auto].
  - rewrite map_map. rewrite (all_some_total _ (fun i => fabs (f i)) (fun i => Rabs (g i))) by (intros i I; rewrite (proj1 (G i I)); auto).
    cbn [option_map]. eexists. split; [reflexivity|]. split; [apply double_fl|].
    rewrite <- mean_plus by auto. replace (k + N)%nat with (k + length (seq 0 N))%nat by (rewrite seq_length; auto).
    apply (mean_off arr A nat (fun i => Rabs (E i)) (fun i => Rabs (g i)) (fun i => Rabs (E i) + tiny) k); auto. intros i I. destruct (G i I) as (_ & D & O).
    split; [apply generic_format_abs; exact D|]. split; [rewrite Rabs_Rabsolu; lra|apply off_abs; auto].
Qed.

(** ** Means over the members of a group *)
Lemma Rsum_filter : forall (Pb : nat -> bool) (f : nat -> R) l, Rsum (map (fun j => if Pb j then f j else 0) l) = Rsum (map f (filter Pb l)).
Proof. intros Pb f l. unfold Rsum. induction l as [|x l IH]; cbn; auto. destruct (Pb x); cbn; rewrite IH; lra. Qed.
Lemma in_filter_bool : forall (Pb : nat -> bool) l j, In j l -> existsb (Nat.eqb j) (filter Pb l) = Pb j.
Proof.
  intros Pb l j I. destruct (Pb j) eqn:E.
  - apply existsb_exists. exists j. split; [apply filter_In; auto|apply Nat.eqb_refl].
  - destruct (existsb _ _) eqn:F; auto. apply existsb_in, filter_In in F. destruct F. congruence.
Qed.
Lemma grouped_off : forall arr (m : list fval) groups k (e w : nat -> R) n, arrangement arr -> members groups k <> [] ->
  (forall j, In j (members groups k) -> exists v, nth j m None = Some v /\ double v /\ Rabs (e j) + tiny <= w j /\ off n (w j) (e j) v) ->
  exists v, grouped_fl arr m groups k = Some v /\ off (n + length groups) (mean (map w (members groups k))) (mean (map e (members groups k))) v.
Proof.
  intros arr m groups k e w n A NE H. unfold grouped_fl. set (js := members groups k) in *. set (g := fun j => match nth j m None with Some v => v | None => 0 end).
  assert (G : forall j, In j js -> nth j m None = Some (g j) /\ double (g j) /\ Rabs (e j) + tiny <= w j /\ off n (w j) (e j) (g j)).
  { intros j J. destruct (H j J) as (v & F & R). unfold g. rewrite F. auto. }
  rewrite (all_some_total _ _ g) by (intros j J; apply G; auto). eexists. split; [reflexivity|]. pose proof tiny_pos as T.
  assert (PL : (0 < length groups)%nat). { unfold js, members in NE. destruct groups; [cbn in NE; congruence|cbn; lia]. }
  specialize (A (length groups) PL). set (L := length groups) in *. set (Pb := fun j => negb (nth k (nth j groups []) 0 =? 0)%nat).
  assert (JS : js = filter Pb (seq 0 L)) by reflexivity. set (pick := fun (f : nat -> R) (j : nat) => if existsb (Nat.eqb j) js then f j else 0).
  destruct (tsum_off (arr L) n (map (pick e) (seq 0 L)) (map (pick g) (seq 0 L)) (map (pick w) (seq 0 L))) as (D & B & O).
  { intros i Hi. apply (Permutation_in _ A), in_seq in Hi. rewrite !ProofsDouble21.nth_seq_fun, (proj2 (Nat.ltb_lt i L)) by lia. unfold pick. destruct (existsb (Nat.eqb i) js) eqn:Ex.
    - apply existsb_in in Ex. destruct (G i Ex) as (_ & G1 & G2 & G3). split; auto. split; auto. lra.
    - split; [apply double_0|]. rewrite Rabs_R0. split; [lra|]. unfold off. rewrite Rminus_0_r, Rabs_R0. lra. }
  assert (SM : forall f, Rsum (map (fun i => nth i (map (pick f) (seq 0 L)) 0) (leaves (arr L))) = Rsum (map f js)).
  { intros f. rewrite (Rsum_perm _ _ (Permutation_map _ A)). rewrite JS at 1. rewrite <- Rsum_filter. f_equal. apply map_ext_in. intros i Hi. pose proof Hi as Hi'. apply in_seq in Hi.
    rewrite ProofsDouble21.nth_seq_fun, (proj2 (Nat.ltb_lt i L)) by lia. unfold pick. rewrite JS, in_filter_bool by auto. reflexivity. }
  rewrite !SM, (Permutation_length A), seq_length in O. change (map _ (seq 0 L)) with (map (pick g) (seq 0 L)).
  pose proof (INR_length_pos nat js NE) as PN. pose proof (Rinv_0_lt_compat _ PN) as PI. unfold mean. rewrite !map_length.
  replace (n + L)%nat with (S (n + (L - 1))) by lia. apply off_fl.
  - assert (SS : Rabs (Rsum (map e js)) + INR (length js) * tiny <= Rsum (map w js)).
    { clear -G. clearbody js. induction js as [|x l IH]; unfold Rsum in *; cbn [map fold_right length]; [rewrite Rabs_R0; simpl; lra|].
      rewrite S_INR. destruct (G x (or_introl eq_refl)) as (_ & _ & Bx & _). specialize (IH ltac:(intros; apply G; right; auto)).
      pose proof (Rabs_triang (e x) (fold_right Rplus 0 (map e l))). lra. }
    unfold Rdiv. rewrite Rabs_mult, (Rabs_pos_eq (/ _)) by lra. apply Rmult_le_compat_r with (r := / INR (length js)) in SS; [|lra].
    rewrite Rmult_plus_distr_r in SS. replace (INR (length js) * tiny * / INR (length js)) with tiny in SS by (field; lra). exact SS.
  - unfold Rdiv. rewrite (Rmult_comm (Rsum (map w js))), (Rmult_comm (Rsum (map e js))), (Rmult_comm (tsum _ _)). rewrite <- (Rabs_pos_eq (/ INR (length js))) at 1 by lra. apply off_scale. exact O.
Qed.

Lemma mean_perm : forall T (f : T -> R) l l', Permutation l l' -> mean (map f l) = mean (map f l').
Proof. intros T f l l' H. unfold mean. rewrite !map_length, (Permutation_length H), (Rsum_perm _ _ (Permutation_map f H)). reflexivity. Qed.

Lemma morris_off : forall S nq p ls G N X Y cl levels resample out k x js E, proper p ls G N X Y -> (2 <= levels)%nat -> (Z.of_nat levels <= 2 ^ 52)%Z -> 0 < cl < 1 ->
  snd (morris_analyze_fl S nq p X Y cl false levels resample) = Ok out -> nth_error (m_names out) k = Some x -> members_of ls x js ->
  arrangement (s_einsum S) -> arrangement (s_over S) -> arrangement (s_within S) -> (forall r x, In r (rows X) -> In x r -> double x) -> (forall y, In y Y -> double y) ->
  (forall j, In j js -> one_move (G + 1) (rows X) j /\ forall i, (i < N)%nat -> is_effect (step levels) (block (rows X) (G + 1) i) (block Y (G + 1) i) j (E i j)) ->
  let M := mean (map (fun j => mean (map (fun i => Rabs (E i j)) (seq 0 N))) js) in
  exists mu mu_star, nth_error (m_mu out) k = Some (Some mu) /\ nth_error (m_mu_star out) k = Some (Some mu_star) /\
    off (N + p_num_vars p + 4) (M + tiny) (mean (map (fun j => mean (map (fun i => E i j) (seq 0 N))) js)) mu /\ off (N + p_num_vars p + 4) (M + tiny) M mu_star.
Proof.
  intros S nq p ls G N X Y cl levels resample out k x js E (H1 & H2 & H3 & H4 & H5 & H6 & H7 & H8) L1 L2 Hc Ho Hk Hjs AE AO AW DX DY H M.
  assert (NL : levels <> 1%nat) by lia.
  destruct (trend S nq p ls G N X Y cl false levels resample out k x H1 H2 H3 H4 H5 NL Hc H6 H7 H8 Ho Hk) as (m & Lm & Hm & Kk & R). cbv zeta in R.
  destruct R as (R1 & R2 & _). pose proof (members_of_perm _ _ _ _ Hm Hjs) as PJ.
  assert (LG : length m = p_num_vars p) by lia.
  assert (JN : forall j, In j (members m k) -> (j < p_num_vars p)%nat). { intros j J. apply filter_In in J. destruct J as [J _]. apply in_seq in J. lia. }
  assert (NE : members m k <> []).
  { intros Z. rewrite Z in Hm. destruct Hm as [_ Hm]. assert (IN : In x ls).
    { destruct (shaped S nq p ls G N X Y cl false levels resample) as (p1 & m' & Em & EG & _ & Q); auto. cbv zeta in Q. rewrite Q in Ho. cbn [snd] in Ho. injection Ho as <-. cbn [m_names] in Hk.
      apply nth_error_In in Hk. apply (proj1 (pd_unique_In ls x)). exact Hk. }
    apply In_nth_error in IN. destruct IN as (j & Ej). apply Hm in Ej. destruct Ej. }
  assert (C : forall j, In j (members m k) -> let c := col_fl S G (rows X) Y levels false N j in
    (exists v, fmean_fl (s_over S) c = Some v /\ double v /\ off (4 + N) (mean (map (fun i => Rabs (E i j)) (seq 0 N)) + tiny) (mean (map (fun i => E i j) (seq 0 N))) v) /\
    (exists v, fmean_fl (s_over S) (map fabs c) = Some v /\ double v /\ off (4 + N) (mean (map (fun i => Rabs (E i j)) (seq 0 N)) + tiny) (mean (map (fun i => Rabs (E i j)) (seq 0 N))) v)).
  { intros j J. destruct (H j (Permutation_in _ PJ J)) as (O & HE). apply (column_off (s_over S) (fun i => effect_fl S (G + 1) (rows X) Y (delta_fl levels) false i j) (fun i => E i j) N 4); auto.
    intros i I. apply (effect_off S (G + 1) (rows X) Y AE ltac:(lia) DX DY levels i j); auto. }
  assert (AT : forall f : nat -> fval, forall j, In j (members m k) -> nth j (map f (seq 0 (p_num_vars p))) None = f j).
  { intros f j J. apply nth_error_nth. rewrite nth_error_map', nth_error_seq, (proj2 (Nat.ltb_lt _ _) (JN j J)). reflexivity. }
  assert (AM : forall j, Rabs (mean (map (fun i => E i j) (seq 0 N))) <= mean (map (fun i => Rabs (E i j)) (seq 0 N))).
  { intros j. unfold mean. rewrite !map_length, seq_length. assert (PN : 0 < INR N) by (apply lt_0_INR; auto). pose proof (Rinv_0_lt_compat _ PN).
    unfold Rdiv. rewrite Rabs_mult, (Rabs_pos_eq (/ _)) by lra. apply Rmult_le_compat_r; [lra|]. clear. induction (seq 0 N) as [|i l IH]; unfold Rsum in *; cbn [map fold_right]; [rewrite Rabs_R0; lra|].
    eapply Rle_trans; [apply Rabs_triang|]. lra. }
  set (w := fun j => mean (map (fun i => Rabs (E i j)) (seq 0 N)) + tiny).
  destruct (grouped_off (s_within S) (map (fun j => fmean_fl (s_over S) (col_fl S G (rows X) Y levels false N j)) (seq 0 (p_num_vars p))) m k (fun j => mean (map (fun i => E i j) (seq 0 N))) w (4 + N) AW NE) as (mu & E1 & O1).
  { intros j J. destruct (C j J) as ((v & F & D & O) & _). exists v. rewrite AT by auto. split; auto. split; auto. split; [unfold w; specialize (AM j); lra|exact O]. }
  destruct (grouped_off (s_within S) (map (fun j => fmean_fl (s_over S) (map fabs (col_fl S G (rows X) Y levels false N j))) (seq 0 (p_num_vars p))) m k (fun j => mean (map (fun i => Rabs (E i j)) (seq 0 N))) w (4 + N) AW NE) as (ms & E2 & O2).
  { intros j J. destruct (C j J) as (_ & (v & F & D & O)). exists v. rewrite AT by auto. split; auto. split; auto. split; [|exact O]. unfold w. specialize (AM j).
    rewrite Rabs_pos_eq; [lra|]. pose proof (Rabs_pos (mean (map (fun i => E i j) (seq 0 N)))). lra. }
  exists mu, ms. rewrite R1, R2, E1, E2. split; auto. split; auto. unfold w in O1, O2. rewrite mean_plus in O1, O2 by auto.
  rewrite !(mean_perm _ _ _ _ PJ) in O1. rewrite !(mean_perm _ _ _ _ PJ) in O2. fold M in O1, O2. rewrite LG in O1, O2.
  replace (N + p_num_vars p + 4)%nat with (4 + N + p_num_vars p)%nat by lia. auto.
Qed.
