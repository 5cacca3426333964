(** * Fractional factorial effects that are exact, and dummies that are not. *)
From Coq Require Import Reals String List Arith ZArith Bool Lia Lra Psatz Permutation.
From Flocq Require Import Core.
From Verif Require Import Base Arrays ListFacts ModelGroups ModelScale ProofsScale Stats ModelSobol ModelDouble ModelDouble4 SpecError SpecError2 ProofsDouble ProofsDouble5 ProofsDouble10 ProofsDouble13 ProofsError ProofsError2 ProofsError3
  SpecSobol ModelFF SpecFF ProofsFF ProofsFF2 ProofsFF3 ModelDouble7 ProofsError4.
Import ListNotations.
Local Open Scope R_scope.

Lemma mapM_same : forall A B (f g : A -> result B) l, (forall x, In x l -> f x = g x) -> mapM f l = mapM g l.
Proof. intros A B f g l. induction l as [|x l IH]; intros H; auto. cbn [mapM]. rewrite (H x) by (left; auto). rewrite IH by (intros; apply H; right; auto). auto. Qed.

Lemma double_at : forall m e, (Z.abs m <= 2 ^ 53)%Z -> (-1074 <= e)%Z -> double (IZR m * bpow radix2 e).
Proof.
  intros m e Z He. destruct (Z.eq_dec (Z.abs m) (2 ^ 53)) as [Q|Q]; [|apply double_F; lia].
  destruct (Z.abs_eq_or_opp m) as [R1|R1]; rewrite R1 in Q.
  - rewrite Q. replace (IZR (2 ^ 53) * bpow radix2 e) with (IZR 1 * bpow radix2 (53 + e)) by (rewrite bpow_plus; change (bpow radix2 53) with (IZR (2 ^ 53)); ring). apply double_F; [reflexivity|lia].
  - replace m with (- 2 ^ 53)%Z by lia. replace (IZR (- 2 ^ 53) * bpow radix2 e) with (IZR (-1) * bpow radix2 (53 + e)); [apply double_F; [reflexivity|lia]|].
    rewrite bpow_plus. change (bpow radix2 53) with (IZR (2 ^ 53)). rewrite opp_IZR. change (IZR (-1)) with (- (1)). ring.
Qed.

Definition magnitude (ks : list Z) : Z := fold_right Z.add 0%Z (map Z.abs ks).
Lemma magnitude_sum : forall ks, Rsum (map (fun k => Rabs (IZR k)) ks) = IZR (magnitude ks).
Proof. unfold Rsum, magnitude. induction ks as [|k ks IH]; cbn [map fold_right]; auto. rewrite IH, plus_IZR, abs_IZR. auto. Qed.
Lemma magnitude_ge : forall ks k, In k ks -> (Z.abs k <= magnitude ks)%Z.
Proof.
  unfold magnitude. induction ks as [|a ks IH]; intros k H; [destruct H|]. cbn [map fold_right].
  assert (P : (0 <= fold_right Z.add 0 (map Z.abs ks))%Z) by (clear; induction ks; cbn [map fold_right]; lia). destruct H as [->|H]; [lia|]. specialize (IH k H). lia.
Qed.

Section Exact.
Variable arr : nat -> tree.
Hypothesis A : arrangement arr.
Variables (e : Z) (ks : list Z).
Hypothesis He : (-1064 <= e)%Z.
Hypothesis Hk : (magnitude ks <= 2 ^ 53)%Z.
Let Y := map (fun k => IZR k * bpow radix2 e) ks.

Lemma Y_double : List.Forall double Y.
Proof using He Hk. apply Forall_forall. intros y Hy. apply in_map_iff in Hy. destruct Hy as (k & <- & Ik). apply double_at; [|lia]. pose proof (magnitude_ge ks k Ik). lia. Qed.

Lemma products_Y : forall x, map2 (fun y z => y * IZR z) Y x = map (fun k => IZR k * bpow radix2 e) (map2 Z.mul ks x).
Proof. unfold Y. clear. induction ks as [|k l IH]; intros [|z x]; auto. cbn [map map2]. rewrite IH, mult_IZR. f_equal. ring. Qed.
Lemma products_magnitude : forall x, signs x -> length ks = length x -> magnitude (map2 Z.mul ks x) = magnitude ks.
Proof.
  clear. unfold magnitude. intros x S. revert ks. induction S as [|z x Hz S IH]; intros [|k l] L; try discriminate; auto. cbn [map2 map fold_right]. rewrite IH by (simpl in L; lia).
  f_equal. destruct Hz as [-> | ->]; lia.
Qed.

Lemma effect_exact : forall k x, (k < 10)%nat -> signs x -> length x = (2 * 2 ^ k)%nat ->
  (do v <- dot_fl arr Y x ;; Ok (share_fl (2 ^ k) v)) = (do v <- dot Y x ;; Ok (1 / INR (2 * 2 ^ k) * v)).
Proof using A He Hk.
  intros k x K SG LX. unfold dot, dot_fl. destruct (Nat.eqb_spec (length Y) (length x)) as [L|L]; [|reflexivity]. cbn [bind]. f_equal.
  rewrite dot_exact_products by (auto; apply Y_double). rewrite products_Y. set (qs := map2 Z.mul ks x).
  assert (LK : length ks = length x) by (unfold Y in L; rewrite map_length in L; auto).
  assert (LQ : length qs = (2 * 2 ^ k)%nat). { rewrite <- LX. unfold qs. clear -LK. revert x LK. induction ks as [|a l IH]; intros [|b x] H; try discriminate; auto. cbn [map2 length]. f_equal. apply IH. simpl in H. lia. }
  assert (MQ : magnitude qs = magnitude ks) by (apply products_magnitude; auto).
  pose proof (Nat.pow_nonzero 2 k). assert (LP : (0 < length qs)%nat) by lia.
  assert (PP : forall T (f : Z -> T) (h : T -> R) (d : T), f 0%Z = d -> Rsum (map (fun i => h (nth i (map f qs) d)) (leaves (arr (length qs)))) = Rsum (map (fun q => h (f q)) qs)).
  { intros T f h d Hd. rewrite (Rsum_perm _ _ (Permutation_map _ (A (length qs) LP))). f_equal. rewrite <- Hd. clear. induction qs as [|q l IH]; auto. cbn [length seq map nth]. f_equal. rewrite <- seq_shift, map_map. exact IH. }
  destruct (tsum_exact e (arr (length qs)) qs) as (E & m & F & B); [lia| |].
  { pose proof (PP Z (fun z => z) (fun z => Rabs (IZR z)) 0%Z eq_refl) as Q. rewrite map_id in Q. rewrite Q, magnitude_sum, MQ. apply IZR_le. auto. }
  pose proof (PP Z (fun z => z) (fun z => Rabs (IZR z)) 0%Z eq_refl) as Q. rewrite map_id in Q. rewrite Q, magnitude_sum, MQ in B. clear Q.
  unfold sum_fl. rewrite map_length. rewrite (PP R (fun q => IZR q * bpow radix2 e) (fun r => r) 0) in E by ring. rewrite <- E, F.
  destruct (share_exact k K) as (E1 & E2). unfold share_fl. rewrite E1, E2. apply fl_double. rewrite <- Rmult_assoc, (Rmult_comm (bpow _ _)), Rmult_assoc, <- bpow_plus. apply double_at; [|lia].
  apply le_IZR. rewrite abs_IZR. apply Rle_trans with (1 := B). apply IZR_le. auto.
Qed.

Lemma ff_exact : forall p second, ff_analyze_fl arr p Y second = ff_analyze p Y second.
Proof using A He Hk.
  intros p second. unfold ff_analyze, ff_analyze_fl. destruct (Nat.le_gt_cases (p_num_vars p) 512) as [H|H].
  2:{ destruct (extend_refused p H) as (E & _). rewrite E. reflexivity. }
  destruct (extend_ok p H) as (k & K & _ & _ & F & E & _). rewrite E. f_equal. cbn [p_num_vars padded]. unfold generate_contrast. rewrite find_smallest_pow by auto. cbn [bind].
  pose proof (contrast_signs k) as CS. pose proof (contrast_width k) as CW. pose proof (contrast_column k) as CC. set (X := hadamard k ++ map (map Z.opp) (hadamard k)) in *. rewrite CW.
  rewrite (mapM_same _ _ (fun j => do v <- dot_fl arr Y (column X j) ;; Ok (share_fl (2 ^ k) v)) (fun j => do v <- dot Y (column X j) ;; Ok (1 / INR (2 * 2 ^ k) * v))).
  2:{ intros j Hj. apply in_seq in Hj. apply effect_exact; auto; [apply column_signs; auto|apply CC; lia]. }
  assert (I : interactions_fl arr (p_names (padded p (2 ^ k))) (2 ^ k) X Y = interactions (p_names (padded p (2 ^ k))) (2 ^ k) X Y).
  { unfold interactions, interactions_fl. rewrite CW. apply mapM_same. intros [c c2] Hc. apply in_flat_map in Hc. destruct Hc as (c' & H1 & H2). apply in_map_iff in H2. destruct H2 as (d' & E2 & H2). injection E2 as -> ->.
    apply in_seq in H1, H2. destruct (get _ c2) as [n2|z]; [|reflexivity]. destruct (get _ c) as [n1|z]; [|reflexivity]. cbn [bind].
    pose proof (effect_exact k (map2 Z.mul (column X c) (column X c2)) K (product_signs _ _ (column_signs X c CS) (column_signs X c2 CS)) (column_lengths k c c2 ltac:(lia) ltac:(lia))) as EN.
    destruct (dot Y _) as [v|z], (dot_fl arr Y _) as [v'|z']; cbn [bind] in *; try discriminate; [injection EN as ->; auto|injection EN as ->; auto]. }
  rewrite I. reflexivity.
Qed.
End Exact.

(** ** The exact result of a linear model, and what rounding leaves of it *)
Lemma Forall2_nth : forall A B (Q : A -> B -> Prop) l l' j x, Forall2 Q l l' -> nth_error l j = Some x -> exists y, nth_error l' j = Some y /\ Q x y.
Proof. intros A B Q l l' j x H. revert j. induction H as [|a b l l' Hab H IH]; intros [|j] E; try discriminate; cbn [nth_error] in *; [injection E as <-; eauto|apply IH; auto]. Qed.

Lemma noise : forall nq tq p, ff_problem p ->
  exists n p' X, ff_sample nq tq p = (p', Ok (InPlace (mkMat n X))) /\ least_power (p_num_vars p) n /\
  forall arr c0 c q, arrangement arr -> (q = p \/ q = p') ->
  let Y := map (fun x => c0 + linear (p_num_vars p) c x) X in
  let limit := err (2 * n) * (mean (map Rabs Y) + tiny) in
  List.Forall double Y -> exists r l, snd (ff_analyze_fl arr q Y true) = Ok r /\ ff_IE r = Some l /\
    (forall j, (j < p_num_vars p)%nat -> exists v, nth_error (ff_ME r) j = Some v /\ Rabs (v - c j * (upper (p_bounds p) j - lower (p_bounds p) j) / 2) <= limit) /\
    (forall j, (p_num_vars p <= j < n)%nat -> exists v, nth_error (ff_ME r) j = Some v /\ Rabs v <= limit) /\
    List.Forall (fun ev => Rabs (snd ev) <= limit) l.
Proof.
  intros nq tq p H. destruct (main_effects nq tq p H) as (n & p' & X & E & L & G). destruct (no_interactions nq tq p H) as (n' & p'' & X' & E' & _ & G').
  rewrite E in E'. injection E' as <- <- <-. destruct (effects nq tq p H) as (n2 & p2 & X2 & E2 & _). pose proof (design_sample nq tq p H) as (n3 & p3 & X3 & E3 & _ & LX & _).
  rewrite E in E3. injection E3 as <- <- <-. clear E2 n2 p2 X2.
  exists n, p', X. split; auto. split; auto. intros arr c0 c q A Q Y limit D.
  assert (EY : map (fun x => c0 + linear (p_num_vars p) c x + (fun _ => 0) (coded (p_bounds p') x)) X = Y) by (apply map_ext; intros; ring).
  destruct (G c0 c (fun _ => 0) q true ltac:(intros z z' _; auto) Q) as (r & R1 & R2 & R3 & R4). rewrite EY in R1.
  destruct (G' c0 c q Q) as (r' & l & S1 & S2 & S3). fold Y in S1. rewrite R1 in S1. injection S1 as <-.
  destruct (ff_near arr A Y D q true) as (_ & N). rewrite R1 in N. unfold alike in N. destruct (snd (ff_analyze_fl arr q Y true)) as [rf|x]; [|contradiction].
  destruct N as (_ & N1 & N2). rewrite S2 in N2. destruct (ff_IE rf) as [l'|] eqn:EI; [|contradiction].
  assert (LY : length Y = (2 * n)%nat) by (unfold Y; rewrite map_length; auto). rewrite LY in N1, N2. fold limit in N1, N2.
  exists rf, l'. split; auto. split; auto. split; [|split].
  - intros j J. destruct (Forall2_nth _ _ _ _ _ j _ N1 (R3 j J)) as (y & Ey & By). exists y. auto.
  - intros j J. destruct (Forall2_nth _ _ _ _ _ j _ N1 (R4 j J)) as (y & Ey & By). exists y. rewrite Rminus_0_r in By. auto.
  - clear -S3 N2. revert S3. induction N2 as [|a b l l' Hab H IH]; intros S3; constructor; inversion S3 as [|a' l'' Ha Hl]; subst; auto. destruct Hab as (_ & B). rewrite Ha, Rminus_0_r in B. auto.
Qed.

(** A linear model whose outputs are doubles, with a dummy that does not get 0. *)
Definition noisy_p : problem := mkProblem 3 ["a"; "b"; "c"]%string [[-1; 1]; [-1; 1]; [-1; 1]] None None false.
Definition noisy_Y : list R := [big; -1; big; -1; - big; 1; - big; 1].
Lemma noisy_linear : exists a b, exists X, generate_contrast 3 = Ok X /\ noisy_Y = map (fun r => a * IZR (nth 0 r 0%Z) + b * IZR (nth 1 r 0%Z)) X.
Proof.
  exists ((big - 1) / 2), ((big + 1) / 2),
    [[1;1;1;1]; [1;-1;1;-1]; [1;1;-1;-1]; [1;-1;-1;1]; [-1;-1;-1;-1]; [-1;1;-1;1]; [-1;-1;1;1]; [-1;1;1;-1]]%Z. split; [reflexivity|]. unfold noisy_Y. cbn [map nth]. do 8 (apply (f_equal2 cons); [field|]). reflexivity.
Qed.
Lemma noisy_exact : exists r, snd (ff_analyze noisy_p noisy_Y false) = Ok r /\ nth_error (ff_names r) 3 = Some "dummy_0"%string /\ nth_error (ff_ME r) 3 = Some 0.
Proof.
  eexists. split; [unfold ff_analyze, noisy_Y; cbn -[Rmult Rdiv INR IZR big]; reflexivity|]. split; [reflexivity|]. cbn [ff_ME nth_error]. f_equal. unfold Rsum. cbn [fold_right]. ring.
Qed.
Lemma noisy_fl : exists r, snd (ff_analyze_fl left_to_right noisy_p noisy_Y false) = Ok r /\ nth_error (ff_names r) 3 = Some "dummy_0"%string /\ nth_error (ff_ME r) 3 = Some (- / 8).
Proof.
  eexists. split; [unfold ff_analyze_fl, noisy_Y; cbn -[Rmult Rdiv INR IZR big sum_fl share_fl fl]; reflexivity|]. split; [reflexivity|]. cbn [ff_ME nth_error]. f_equal.
  pose proof big_double as D. pose proof one_double as D1.
  rewrite !Rmult_1_r. replace (big * -1) with (- big) by ring. replace (-1 * -1) with 1 by ring. replace (- big * -1) with big by ring. replace (1 * -1) with (- (1)) by ring. rewrite ?fl_opp.
  rewrite !(fl_double big D), !(fl_double 1 D1). replace (fl (-1)) with (- (1)) by (symmetry; byZ (-1)%Z).
  unfold sum_fl, left_to_right. cbn [length Nat.sub comb tsum nth].
  rewrite absorbed, Rplus_opp_r, fl_0, Rplus_0_l, fl_opp, (fl_double 1 D1).
  assert (F1 : fl (- (1) + big) = big - 1) by (replace (big - 1) with (IZR 9007199254740991) by (unfold big; lra); unfold big; byZ 9007199254740991%Z). rewrite F1. replace (big - 1 + 1) with big by ring. rewrite (fl_double big D), Rplus_opp_r, fl_0, Rplus_0_l, fl_opp, (fl_double 1 D1).
  unfold share_fl. change (2 * 4)%nat with (2 * 2 ^ 2)%nat. destruct (share_exact 2 ltac:(lia)) as (-> & _). replace (bpow radix2 (- Z.of_nat 3) * - (1)) with (- bpow radix2 (-3)) by (cbn; ring).
  rewrite fl_opp. f_equal. rewrite fl_double; [simpl; lra|]. rewrite <- (Rmult_1_l (bpow _ _)). apply (double_F 1); [reflexivity|lia].
Qed.
