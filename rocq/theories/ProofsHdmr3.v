(** * HDMR: shapes, significance and variance decomposition. *)
From Coq Require Import Reals String List Arith ZArith Bool Lia Lra Sorted Permutation.
From Verif Require Import Base Arrays ListFacts ModelGroups ModelScale ProofsScale Stats Sums SpecMorris ModelFast ModelMorris ModelMorrisAnalyze ModelDgsm ModelPawn
  ProofsMorris3 ProofsMorris7 ProofsDgsm2 ProofsDelta5 ModelHdmr SpecHdmr ProofsHdmr ProofsHdmr2.
Import ListNotations.
Local Open Scope nat_scope.

(** ** Shapes *)
Lemma length_matvec : forall M v, length (matvec M v) = length M.
Proof. intros. apply map_length. Qed.
Lemma length_take_rows : forall A (d : A) idx l, length (take_rows d idx l) = length idx.
Proof. intros. apply map_length. Qed.
Lemma fold_update_length : forall A (g : list A -> nat -> A) js l, length (fold_left (fun C j => update C j (g C j)) js l) = length l.
Proof. induction js; intros l; auto. cbn [fold_left]. rewrite IHjs. apply length_update. Qed.
Lemma backfit_pass_length : forall B T Y C, length (backfit_pass B T Y C) = length C.
Proof. intros. apply (fold_update_length (list R) (fun C j => matvec (nth j T []) (without_others B Y C j))). Qed.
Lemma backfit_length : forall B T Y n v vo C, length (backfit B T Y n v vo C) = length C.
Proof.
  induction n; intros v vo C; auto. cbn [backfit]. destruct (Rltb (1 / 1000) v); auto. rewrite IHn. apply backfit_pass_length.
Qed.

Lemma map2_matvec_spec : forall (B : list (list (list R))) C r, length C = length B -> (forall b, In b B -> length b = r) ->
  length (map2 matvec B C) = length B /\ forall c, In c (map2 matvec B C) -> length c = r.
Proof.
  intros B C r L H. split; [rewrite length_map2; lia|]. revert C L. induction B as [|b B IH]; intros [|c C] L x Hx; try (destruct Hx; fail); try discriminate.
  cbn [map2] in Hx. destruct Hx as [<-|Hx].
  - rewrite length_matvec. apply H. left; auto.
  - apply (IH (fun b Hb => H b (or_intror Hb)) C); auto.
Qed.

Lemma first_order_spec : forall regress B1 Y_res junk mi la Y1 res C1 r,
  first_order regress B1 Y_res junk mi la = Ok (Y1, res, C1) -> (forall b, In b B1 -> length b = r) ->
  length C1 = length B1 /\ Y1 = map2 matvec B1 C1 /\ length Y1 = length B1 /\ (forall c, In c Y1 -> length c = r) /\ B1 <> [].
Proof.
  intros regress B1 Y_res junk mi la Y1 res C1 r E H. unfold first_order in E. destruct B1 as [|b B1]; [discriminate|].
  set (B := b :: B1) in *. destruct (mapM _ _) as [T1|] eqn:M in E; [|discriminate]. cbn [bind] in E. injection E as <- <- <-.
  assert (L : length T1 = length B) by (apply mapM_Ok_length in M; rewrite combine_length, seq_length in M; lia).
  assert (LC : length (backfit B T1 Y_res mi 1 (map sumsq (map (fun T => matvec T Y_res) T1)) (map (fun T => matvec T Y_res) T1)) = length B).
  { rewrite backfit_length, map_length. auto. }
  destruct (map2_matvec_spec B _ r LC H) as (H1 & H2). repeat (split; auto). discriminate.
Qed.

Lemma higher_order_spec : forall regress size B Y_res la Y2 res C2 r,
  higher_order regress size B Y_res la = Ok (Y2, res, C2) -> (forall b, In b B -> length b = r) ->
  length C2 = length B /\ Y2 = map2 matvec B C2 /\ length Y2 = length B /\ forall c, In c Y2 -> length c = r.
Proof.
  intros regress size B Y_res la Y2 res C2 r E H. unfold higher_order in E.
  destruct (mapM _ _) as [C|] eqn:M in E; [|discriminate]. cbn [bind] in E. injection E as <- <- <-.
  assert (L : length C = length B) by (apply mapM_Ok_length in M; auto).
  destruct (map2_matvec_spec B _ r L H) as (H1 & H2). auto.
Qed.

Lemma compute_one_inv : forall regress crit st B1 Y idx junk f, compute_one regress crit st B1 Y idx junk = Ok f ->
  exists Bs Y1 Y2 Y3, all_some B1 = Some Bs /\
    let d := length B1 in let k := st_maxorder st in
    let m1 := st_m st + 3 in
    let Y_id := take_rows 0%R idx Y in
    length (fit_C1 f) = d /\ length (fit_C2 f) = length (hdmr_c2 d k) /\ length (fit_C3 f) = length (hdmr_c3 d k) /\
    Y1 = map2 matvec (map (fun B => take_rows [] idx B) Bs) (fit_C1 f) /\
    Y2 = map2 matvec (map (fun c => take_rows [] idx (term_basis Bs c)) (hdmr_c2 d k)) (fit_C2 f) /\
    Y3 = map2 matvec (map (fun c => take_rows [] idx (term_basis Bs c)) (hdmr_c3 d k)) (fit_C3 f) /\
    fit_Y_em f = Y1 ++ Y2 ++ Y3 /\ length (fit_Y_em f) = hdmr_n d k /\ (forall c, In c (fit_Y_em f) -> length c = length idx) /\
    fit_f0 f = (Rsum Y_id / INR (st_R st))%R /\
    fit_select f = f_test crit Y_id (fit_f0 f) (fit_Y_em f) (st_R st) m1 (m1 * m1) (m1 * m1 * m1) d (length (hdmr_c2 d k)) /\
    fit_Y_e f = map (fun y => fit_f0 f + y)%R (row_sums (st_R st) (fit_Y_em f)) /\
    (fit_S f, fit_Sa f, fit_Sb f) = ancova Y_id (fit_Y_em f) (var Y_id) /\ 0 < d.
Proof.
  intros regress crit st B1 Y idx junk f E. unfold compute_one in E. destruct (all_some B1) as [Bs|] eqn:A; [|discriminate].
  assert (LB : length Bs = length B1) by (apply all_some_inv in A; rewrite A, map_length; auto).
  destruct (first_order _ _ _ _ _ _) as [((Y1, res1), C1)|] eqn:E1 in E; [|discriminate]. cbn [bind] in E.
  destruct (higher_order _ _ _ _ _) as [((Y2, res2), C2)|] eqn:E2 in E; [|discriminate]. cbn [bind] in E.
  destruct (higher_order _ _ _ _ _) as [((Y3, res3), C3)|] eqn:E3 in E; [|discriminate]. cbn [bind] in E.
  apply first_order_spec with (r := length idx) in E1.
  2:{ intros b Hb. apply in_map_iff in Hb. destruct Hb as (x & <- & _). apply length_take_rows. }
  apply higher_order_spec with (r := length idx) in E2.
  2:{ intros b Hb. apply in_map_iff in Hb. destruct Hb as (x & <- & _). apply length_take_rows. }
  apply higher_order_spec with (r := length idx) in E3.
  2:{ intros b Hb. apply in_map_iff in Hb. destruct Hb as (x & <- & _). apply length_take_rows. }
  destruct E1 as (L1 & -> & K1 & I1 & NE), E2 as (L2 & -> & K2 & I2), E3 as (L3 & -> & K3 & I3).
  rewrite map_length in L1, L2, L3, K1, K2, K3.
  destruct (ancova _ _ _) as ((s, sa), sb) eqn:AN in E. injection E as <-.
  eexists Bs, _, _, _. cbv zeta. cbn [fit_C1 fit_C2 fit_C3 fit_Y_em fit_f0 fit_select fit_Y_e fit_S fit_Sa fit_Sb].
  split; auto. split; [congruence|]. split; auto. split; auto. split; auto. split; auto. split; auto. split; auto.
  split; [rewrite !app_length, K1, K2, K3, LB; unfold hdmr_n; lia|].
  split; [intros c Hc; rewrite !in_app_iff in Hc; destruct Hc as [Hc|[Hc|Hc]]; auto|].
  split; auto. split; auto. split; auto. split; auto.
  destruct B1; [|simpl; lia]. cbn in A. injection A as <-. exfalso. apply NE. reflexivity.
Qed.

(** ** Significance *)
Lemma f_selected_spec : forall crit a b r p, f_selected crit a b r p = true <-> significant crit a b r p.
Proof.
  intros. unfold f_selected, significant. destruct (Z.leb_spec (Z.of_nat r - Z.of_nat p) 0).
  - split; [discriminate|]. intros (H1 & _). lia.
  - replace (IZR (Z.of_nat r - Z.of_nat p)) with (INR r - INR p)%R by (rewrite minus_IZR, <- !INR_IZR_INZ; auto).
    split.
    + intros E. split; [lia|]. destruct (crit p _) as [c|]; [|discriminate]. exists c. split; auto.
      destruct (Reqb b 0) eqn:B.
      * apply Reqb_true in B. apply Rltb_true in E. auto.
      * apply Rltb_true in E. right. split; auto. intros ->. rewrite (proj2 (Reqb_true 0 0) eq_refl) in B. discriminate.
    + intros (H1 & c & E & D). rewrite E. destruct (Reqb b 0) eqn:B.
      * apply Reqb_true in B. destruct D as [(_ & D)|(D & _)]; [apply Rltb_true; auto|contradiction].
      * destruct D as [(D & _)|(_ & D)]; [|apply Rltb_true; auto]. rewrite (proj2 (Reqb_true b 0) D) in B. discriminate.
Qed.

Lemma nth_f_test : forall crit Y f0 Y_em r m1 m2 m3 n1 n2 i c, nth_error Y_em i = Some c ->
  nth_error (f_test crit Y f0 Y_em r m1 m2 m3 n1 n2) i =
  Some (f_selected crit (squares (map (fun y => y - f0)%R Y)) (squares (map2 Rminus (map (fun y => y - f0)%R Y) c)) r (f_test_p m1 m2 m3 n1 n2 i)).
Proof.
  intros crit Y f0 Y_em r m1 m2 m3 n1 n2 i c H. unfold f_test. rewrite nth_error_map'.
  assert (E : nth_error (combine (seq 0 (length Y_em)) Y_em) i = Some (i, c)).
  { pose proof (nth_error_Some_lt _ _ H).
    assert (G : forall (l : list (list R)) a i c, nth_error l i = Some c -> nth_error (combine (seq a (length l)) l) i = Some (a + i, c)).
    { clear. induction l; intros b i c H; [destruct i; discriminate|]. destruct i; cbn.
      - injection H as ->. rewrite Nat.add_0_r. auto.
      - rewrite (IHl (S b) i c H). f_equal. f_equal. lia. }
    rewrite (G _ 0 _ _ H). auto. }
  rewrite E. reflexivity.
Qed.

(** Outside the two boundaries each term is tested with its own number of coefficients. *)
Lemma own_count : forall d k m i t, 1 <= k <= 3 -> nth_error (hdmr_term_list d k) i = Some t -> i <> d -> i <> d + length (hdmr_c2 d k) ->
  f_test_p m (m * m) (m * m * m) d (length (hdmr_c2 d k)) i = m ^ length t.
Proof.
  intros d k m i t K H N1 N2. unfold f_test_p, hdmr_term_list in *.
  assert (L1 : length (map (fun j : nat => [j]) (seq 0 d)) = d) by (rewrite map_length, seq_length; auto).
  destruct (Nat.leb_spec i d).
  - rewrite nth_error_app1 in H by lia. apply nth_error_In, in_map_iff in H. destruct H as (j & <- & _). simpl. lia.
  - destruct (Nat.ltb_spec d i); [|lia]. rewrite nth_error_app2 in H by lia. rewrite L1 in H. cbn [andb].
    destruct (Nat.leb_spec i (d + length (hdmr_c2 d k))).
    + rewrite nth_error_app1 in H by lia. apply nth_error_In, in_c2 in H. destruct H as (_ & H & _). rewrite H. simpl. lia.
    + rewrite nth_error_app2 in H by lia. apply nth_error_In, in_c3 in H. destruct H as (_ & H & _). rewrite H. simpl. lia.
Qed.

(** The first pair and the first triple are tested with the number of coefficients of the order below. *)
Lemma wrong_count : forall d k m, 1 <= k <= 3 ->
  f_test_p m (m * m) (m * m * m) d (length (hdmr_c2 d k)) d = m /\
  (0 < length (hdmr_c2 d k) -> f_test_p m (m * m) (m * m * m) d (length (hdmr_c2 d k)) (d + length (hdmr_c2 d k)) = m * m).
Proof.
  intros d k m K. unfold f_test_p. split.
  - rewrite Nat.leb_refl. auto.
  - intros H. destruct (Nat.leb_spec (d + length (hdmr_c2 d k)) d); [lia|]. destruct (Nat.ltb_spec d (d + length (hdmr_c2 d k))); [|lia].
    rewrite Nat.leb_refl. auto.
Qed.

(** ** Variance decomposition *)
Lemma mean_map2_minus : forall b c, length b = length c -> (mean (map2 Rminus b c) = mean b - mean c)%R.
Proof.
  intros b c L. unfold mean. rewrite length_map2, L, Nat.min_id.
  assert (E : (Rsum (map2 Rminus b c) = Rsum b - Rsum c)%R).
  { revert c L. induction b; intros [|y c] L; try discriminate; cbn; [lra|]. unfold Rsum in IHb. rewrite IHb by (simpl in L; lia). lra. }
  rewrite E. unfold Rdiv. ring.
Qed.
Lemma mean_map2_plus : forall b c, length b = length c -> (mean (map2 Rplus b c) = mean b + mean c)%R.
Proof.
  intros b c L. unfold mean. rewrite length_map2, L, Nat.min_id.
  assert (E : (Rsum (map2 Rplus b c) = Rsum b + Rsum c)%R).
  { revert c L. induction b; intros [|y c] L; try discriminate; cbn; [lra|]. unfold Rsum in IHb. rewrite IHb by (simpl in L; lia). lra. }
  rewrite E. unfold Rdiv. ring.
Qed.

Lemma cov1_minus : forall a b c, length a = length b -> length b = length c ->
  (cov1 a (vsub b c) = cov1 a b - cov1 a c)%R.
Proof.
  intros a b c L1 L2. unfold cov1, vsub. rewrite mean_map2_minus by auto. generalize (mean a) (mean b) (mean c). intros ma mb mc.
  assert (E : (Rsum (map2 (fun x y => (x - ma) * (y - (mb - mc))) a (map2 Rminus b c)) =
    Rsum (map2 (fun x y => (x - ma) * (y - mb)) a b) - Rsum (map2 (fun x y => (x - ma) * (y - mc)) a c))%R).
  { clear - L1 L2. revert b c L1 L2. induction a; intros [|y b] [|z c] L1 L2; try discriminate; cbn; [lra|].
    unfold Rsum in IHa. rewrite IHa by (simpl in *; lia). lra. }
  rewrite E. unfold Rdiv. ring.
Qed.

Lemma map2_same : forall A B (f : A -> A -> B) l, map2 f l l = map (fun x => f x x) l.
Proof. induction l; cbn; congruence. Qed.

Lemma cov1_self : forall a, 2 <= length a -> (cov1 a a = var a + var a / (INR (length a) - 1))%R.
Proof.
  intros a L. unfold cov1. rewrite map2_same. rewrite (map_ext _ (fun x => (x - mean a) ^ 2)%R) by (intros; ring).
  apply (le_INR 2) in L; simpl INR in L.
  assert (E : (Rsum (map (fun x => (x - mean a) ^ 2) a) = var a * INR (length a))%R).
  { unfold var. unfold mean at 2. rewrite map_length. field. lra. }
  rewrite E. field. lra.
Qed.

Lemma cov1_covariance : forall a b, length a = length b -> 2 <= length a -> covariance a b (cov1 a b).
Proof.
  intros a b L L2. unfold covariance, cov1. assert (0 < INR (length a) - 1)%R by (apply (le_INR 2) in L2; simpl INR in L2; lra).
  unfold Rdiv. rewrite Rmult_assoc, Rinv_l, Rmult_1_r by lra. generalize (mean a) (mean b). intros ma mb. clear - L.
  revert b L. induction a; intros [|y b] L; try discriminate; [reflexivity|]. cbn [length seq map map2].
  transitivity ((a - ma) * (y - mb) + Rsum (map2 (fun x y => (x - ma) * (y - mb)) a0 b))%R; [reflexivity|].
  rewrite IHa by (simpl in L; lia). rewrite <- seq_shift, map_map. reflexivity.
Qed.

Lemma covariance_unique : forall a b c c', 2 <= length a -> covariance a b c -> covariance a b c' -> c = c'.
Proof.
  unfold covariance. intros a b c c' L H H'. rewrite <- H' in H. apply (le_INR 2) in L; simpl INR in L.
  apply (Rmult_eq_reg_r (INR (length a) - 1)); lra.
Qed.

Lemma cov1_shift : forall a b t, b <> [] -> cov1 a (map (fun y => t + y)%R b) = cov1 a b.
Proof.
  intros a b t NE. unfold cov1.
  assert (M : (mean (map (fun y => t + y)%R b) = t + mean b)%R).
  { rewrite (map_ext _ (fun y => 1 * y + t)%R) by (intros; ring). rewrite mean_map_affine by auto. ring. }
  rewrite M. f_equal. f_equal. generalize (mean a) (mean b). intros ma mb. clear. revert b. induction a; intros [|y b]; cbn; auto.
  rewrite IHa. f_equal. ring.
Qed.

(** Row sums as sums over the columns. *)
Lemma nth_map2R : forall (f : R -> R -> R) a b i, i < length a -> i < length b -> nth i (map2 f a b) 0%R = f (nth i a 0%R) (nth i b 0%R).
Proof.
  intros f. induction a; intros [|y b] i H1 H2; try (simpl in *; lia). destruct i; cbn; auto. apply IHa; simpl in *; lia.
Qed.

Lemma row_sums_spec : forall r cs, (forall c, In c cs -> length c = r) -> length (row_sums r cs) = r /\
  forall i, i < r -> nth i (row_sums r cs) 0%R = Rsum (map (fun c => nth i c 0%R) cs).
Proof.
  intros r cs H. unfold row_sums.
  assert (G : forall cs acc, length acc = r -> (forall c, In c cs -> length c = r) -> length (fold_left vadd cs acc) = r /\
    forall i, i < r -> (nth i (fold_left vadd cs acc) 0 = nth i acc 0 + Rsum (map (fun c => nth i c 0%R) cs))%R).
  { clear. induction cs as [|c cs IH]; intros acc L H.
    - cbn. split; auto. intros. lra.
    - cbn [fold_left]. assert (Lc : length c = r) by (apply H; left; auto).
      destruct (IH (vadd acc c)) as (I1 & I2).
      + unfold vadd. rewrite length_map2, L, Lc. lia.
      + intros; apply H; right; auto.
      + split; auto. intros i Hi. rewrite I2 by auto. unfold vadd. rewrite nth_map2R by lia. cbn [map].
        change (Rsum (nth i c 0%R :: map (fun c0 => nth i c0 0%R) cs)) with (nth i c 0 + Rsum (map (fun c0 => nth i c0 0%R) cs))%R. lra. }
  destruct (G cs (repeat 0%R r)) as (G1 & G2); [apply repeat_length|auto|]. split; auto. intros i Hi. rewrite G2 by auto.
  rewrite nth_repeat. lra.
Qed.

(** The gap between a term's total and its two parts. *)
Lemma ancova_gap : forall Y Y_em V j y, V <> 0%R -> 2 <= length Y -> (forall c, In c Y_em -> length c = length Y) -> nth_error Y_em j = Some y ->
  exists s sa sb, let '(St, Sa, Sb) := ancova Y Y_em V in
    nth_error St j = Some (Some s) /\ nth_error Sa j = Some (Some sa) /\ nth_error Sb j = Some (Some sb) /\
    s = (cov1 y Y / V)%R /\
    (sa = var y / V)%R /\
    (s - (sa + sb) = (cov1 y (vsub Y (row_sums (length Y) Y_em)) + var y / (INR (length Y) - 1)) / V)%R.
Proof.
  intros Y Y_em V j y HV L H E. assert (Ly : length y = length Y) by (apply H; eapply nth_error_In; eauto).
  destruct (row_sums_spec (length Y) Y_em H) as (L0 & _).
  exists (cov1 y Y / V)%R, (var y / V)%R, (cov1 y (vsub (row_sums (length Y) Y_em) y) / V)%R. unfold ancova.
  rewrite !nth_error_map', E. cbn [option_map]. unfold fdiv.
  assert (Z : Reqb V 0 = false) by (destruct (Reqb V 0) eqn:Q; auto; apply Reqb_true in Q; contradiction).
  rewrite Z. split; auto. split; auto. split; auto. split; auto. split; auto.
  rewrite !cov1_minus, cov1_self by congruence. rewrite Ly. field.
  assert (0 < INR (length Y) - 1)%R by (apply (le_INR 2) in L; simpl INR in L; lra). split; lra.
Qed.

(** With an emulator that reproduces the output up to a constant, the parts of a term that varies fall short of its total. *)
Lemma ancova_exact_emulator : forall Y Y_em V j y t, (0 < V)%R -> 2 <= length Y -> (forall c, In c Y_em -> length c = length Y) ->
  nth_error Y_em j = Some y -> Y = map (fun e => t + e)%R (row_sums (length Y) Y_em) -> (0 < var y)%R ->
  exists s sa sb, let '(St, Sa, Sb) := ancova Y Y_em V in
    nth_error St j = Some (Some s) /\ nth_error Sa j = Some (Some sa) /\ nth_error Sb j = Some (Some sb) /\ (sa + sb < s)%R.
Proof.
  intros Y Y_em V j y t HV L H E EX VY. destruct (ancova_gap Y Y_em V j y) as (s & sa & sb & G); auto; [lra|].
  exists s, sa, sb. destruct (ancova Y Y_em V) as ((S', Sa), Sb). destruct G as (G1 & G2 & G3 & G4 & G5 & G6).
  split; auto. split; auto. split; auto.
  destruct (row_sums_spec (length Y) Y_em H) as (L0 & _).
  assert (Ly : length y = length Y) by (apply H; eapply nth_error_In; eauto).
  assert (Z : cov1 y (vsub Y (row_sums (length Y) Y_em)) = 0%R).
  { rewrite cov1_minus by congruence.
    assert (Q : cov1 y Y = cov1 y (row_sums (length Y) Y_em)); [|rewrite Q; ring].
    transitivity (cov1 y (map (fun e => t + e)%R (row_sums (length Y) Y_em))); [f_equal; exact EX|].
    apply cov1_shift. intros Q. rewrite Q in L0. simpl in L0. lia. }
  rewrite Z in G6. assert (0 < INR (length Y) - 1)%R by (apply (le_INR 2) in L; simpl INR in L; lra).
  assert (0 < (0 + var y / (INR (length Y) - 1)) / V)%R.
  { rewrite Rplus_0_l. apply Rdiv_lt_0_compat; auto. apply Rdiv_lt_0_compat; auto. }
  lra.
Qed.
