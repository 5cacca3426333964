(** * Proofs about the FAST analyser. *)
From Coq Require Import Reals List Arith ZArith Bool Lia Lra.
From Verif Require Import Base ListFacts Arrays ModelGroups ModelScale ProofsScale Stats Sums ModelFast SpecFast.
Import ListNotations.
Local Open Scope nat_scope.

Lemma power_nonneg : forall y q, (0 <= power y q)%R.
Proof.
  intros. unfold power. cbv zeta. set (a := Rsum _). set (b := Rsum (map _ _)).
  pose proof (sq_nonneg a). pose proof (sq_nonneg b).
  destruct (Req_dec (INR (length y)) 0) as [E|E].
  - rewrite E. unfold Rdiv. rewrite pow_i, Rinv_0 by lia. lra.
  - apply Rdiv_nonneg; [lra|]. assert (0 < INR (length y) * INR (length y))%R by nra.
    replace (INR (length y) ^ 2)%R with (INR (length y) * INR (length y))%R by ring. auto.
Qed.

Lemma half_len : forall n, (n + 1) / 2 - 1 = (n - 1) / 2.
Proof.
  intros n. destruct n as [|n]; [reflexivity|]. replace (S n + 1) with (n + 1 * 2) by lia.
  rewrite Nat.div_add by lia. replace (S n - 1) with n by lia. lia.
Qed.

Lemma sqrt_over : forall x n, (0 <= x)%R -> (0 < n)%R -> ((sqrt x / n) ^ 2 = x / n ^ 2)%R.
Proof.
  intros x n Hx Hn. assert (E : (sqrt x * sqrt x = x)%R) by (apply sqrt_sqrt; auto).
  replace ((sqrt x / n) ^ 2)%R with ((sqrt x * sqrt x) / n ^ 2)%R by (field; lra). rewrite E. auto.
Qed.

Lemma spectrum_power : forall y, y <> [] -> spectrum y = map (power y) (visible (length y)).
Proof.
  intros y Hy. unfold spectrum, visible. rewrite half_len. apply map_ext. intros q.
  unfold power, dft_re, dft_im. cbv zeta.
  set (a := Rsum (map (fun t => (nth t y 0 * cos (2 * PI * INR q * INR t / INR (length y)))%R) (seq 0 (length y)))).
  set (b := Rsum (map (fun t => (nth t y 0 * sin (2 * PI * INR q * INR t / INR (length y)))%R) (seq 0 (length y)))).
  pose proof (INR_length_pos _ y Hy). pose proof (sq_nonneg a). pose proof (sq_nonneg b).
  replace ((- b) ^ 2)%R with (b ^ 2)%R by ring. apply sqrt_over; lra.
Qed.

(** The variance captured by the visible frequencies. *)
Lemma visible_variance_odd : forall y, Nat.Odd (length y) ->
  (2 * band y (visible (length y)) = var y)%R.
Proof.
  intros y [h Hh]. assert (Hy : y <> []) by (intros ->; simpl in Hh; lia).
  pose proof (INR_length_pos _ y Hy) as HN.
  unfold band, visible. replace ((length y - 1) / 2) with h by (apply Nat.div_unique with 0; lia).
  pose proof (half_spectrum (length y) ltac:(lia) (fun t => nth t y 0%R) h Hh) as P.
  rewrite var_alt by auto. rewrite (sum_list_map R 0%R (fun x => (x ^ 2)%R)), (sum_list y).
  rewrite (Rsum_ext _ (power y) (fun q => / INR (length y) ^ 2 *
    (re (length y) (fun t => nth t y 0%R) q ^ 2 + im (length y) (fun t => nth t y 0%R) q ^ 2))%R).
  - rewrite Rsum_map_scal. set (S2 := sum _ _) in *. set (S1 := sum _ _) in *.
    replace (2 * (/ INR (length y) ^ 2 * Rsum (map (fun q => re (length y) (fun t => nth t y 0%R) q ^ 2 +
      im (length y) (fun t => nth t y 0%R) q ^ 2) (seq 1 h))))%R
      with (/ INR (length y) ^ 2 * (2 * Rsum (map (fun q => re (length y) (fun t => nth t y 0%R) q ^ 2 +
      im (length y) (fun t => nth t y 0%R) q ^ 2) (seq 1 h))))%R by ring.
    rewrite P. field. lra.
  - intros q Hq. unfold power, re, im, sum. cbv zeta. field. lra.
Qed.

Lemma visible_variance_even : forall y, y <> [] -> Nat.Even (length y) ->
  (2 * band y (visible (length y)) = var y - (alternating y / INR (length y)) ^ 2)%R.
Proof.
  intros y Hy [h' Hh']. pose proof (INR_length_pos _ y Hy) as HN.
  assert (Hl : length y <> 0) by (destruct y; simpl; congruence).
  set (h := h' - 1). assert (Hh : length y = 2 * h + 2) by (unfold h; lia).
  unfold band, visible. replace ((length y - 1) / 2) with h by (apply Nat.div_unique with 1; lia).
  pose proof (half_spectrum_even (length y) ltac:(lia) (fun t => nth t y 0%R) h Hh) as P.
  rewrite var_alt by auto. rewrite (sum_list_map R 0%R (fun x => (x ^ 2)%R)), (sum_list y).
  unfold alternating. fold (sum (length y) (fun t => ((-1) ^ t * nth t y 0)%R)).
  rewrite (Rsum_ext _ (power y) (fun q => / INR (length y) ^ 2 *
    (re (length y) (fun t => nth t y 0%R) q ^ 2 + im (length y) (fun t => nth t y 0%R) q ^ 2))%R).
  - rewrite Rsum_map_scal. set (S2 := sum _ (fun t => (nth t y 0 ^ 2)%R)) in *.
    set (S1 := sum _ (fun t => nth t y 0%R)) in *. set (S3 := sum _ _) in *.
    replace (2 * (/ INR (length y) ^ 2 * Rsum (map (fun q => re (length y) (fun t => nth t y 0%R) q ^ 2 +
      im (length y) (fun t => nth t y 0%R) q ^ 2) (seq 1 h))))%R
      with (/ INR (length y) ^ 2 * (2 * Rsum (map (fun q => re (length y) (fun t => nth t y 0%R) q ^ 2 +
      im (length y) (fun t => nth t y 0%R) q ^ 2) (seq 1 h))))%R by ring.
    rewrite P. field. lra.
  - intros q Hq. unfold power, re, im, sum. cbv zeta. field. lra.
Qed.

(** ** First and total order *)
Lemma get_spectrum : forall y q, y <> [] -> 1 <= q <= (length y - 1) / 2 ->
  get (spectrum y) (q - 1) = Ok (power y q).
Proof.
  intros y q Hy Hq. rewrite spectrum_power by auto. unfold get, visible.
  rewrite nth_error_map'. rewrite nth_error_seq. rewrite (proj2 (Nat.ltb_lt _ _)) by lia.
  simpl. f_equal. f_equal. lia.
Qed.

Lemma compute_orders_spec : forall y M w, 1 <= M -> 1 <= w -> y <> [] -> M * w <= (length y - 1) / 2 ->
  let V := band y (visible (length y)) in
  let D1 := band y (map (fun k => k * w) (seq 1 M)) in
  let Dt := band y (seq 1 (w / 2)) in
  (V <> 0%R -> compute_orders y M w = Ok (Some (D1 / V)%R, Some (1 - Dt / V)%R)) /\
  (V = 0%R -> compute_orders y M w = Ok (None, None)) /\
  (0 <= D1)%R /\ (0 <= Dt)%R /\ (D1 + Dt <= V)%R.
Proof.
  intros y M w HM Hw Hy HMw V D1 Dt.
  assert (Hl : length y <> 0) by (destruct y; simpl; congruence).
  assert (Hw2 : w / 2 < w) by (apply Nat.div_lt; lia).
  assert (E1 : mapM (fun k => py_get (spectrum y) (Z.of_nat (k * w) - 1)) (seq 1 M)
             = Ok (map (power y) (map (fun k => k * w) (seq 1 M)))).
  { rewrite map_map. rewrite <- mapM_Ok_map. apply mapM_ext. intros k Hk. apply in_seq in Hk.
    assert (1 <= k * w <= (length y - 1) / 2) by nia.
    unfold py_get. replace (Z.ltb (Z.of_nat (k * w) - 1) 0) with false by (symmetry; apply Z.ltb_ge; lia).
    replace (Z.to_nat (Z.of_nat (k * w) - 1)) with (k * w - 1) by lia. apply get_spectrum; auto. }
  assert (E2 : mapM (get (spectrum y)) (seq 0 (w / 2)) = Ok (map (power y) (seq 1 (w / 2)))).
  { rewrite <- seq_shift, map_map, <- mapM_Ok_map. apply mapM_ext. intros k Hk. apply in_seq in Hk.
    rewrite <- (get_spectrum y (S k)); [f_equal; lia|auto|nia]. }
  assert (ES : Rsum (spectrum y) = V) by (rewrite spectrum_power by auto; reflexivity).
  assert (EQ : compute_orders y M w =
    Ok (fdiv (2 * D1) (2 * V), match fdiv (2 * Dt) (2 * V) with Some x => Some (1 - x)%R | None => None end)).
  { unfold compute_orders. rewrite (proj2 (Nat.eqb_neq _ _) Hl), E1. cbn [bind]. rewrite E2. cbn [bind].
    rewrite ES. reflexivity. }
  split; [|split; [|split; [|split]]].
  - intros HV. rewrite EQ. unfold fdiv. replace (Reqb (2 * V) 0) with false.
    + f_equal. f_equal; f_equal; field; auto.
    + symmetry. apply Reqb_false. lra.
  - intros HV. rewrite EQ, HV. unfold fdiv. replace (Reqb (2 * 0) 0) with true; auto.
    symmetry. apply Reqb_true. lra.
  - apply Rsum_nonneg. intros x Hx. apply in_map_iff in Hx. destruct Hx as (q & <- & _). apply power_nonneg.
  - apply Rsum_nonneg. intros x Hx. apply in_map_iff in Hx. destruct Hx as (q & <- & _). apply power_nonneg.
  - unfold D1, Dt, V, band. rewrite <- Rsum_app, <- map_app. apply Rsum_incl.
    + apply NoDup_app_intro.
      * apply map_NoDup_in; [|apply seq_NoDup]. intros a b _ _ E. nia.
      * apply seq_NoDup.
      * intros x H1 H2. apply in_map_iff in H1. destruct H1 as (k & <- & Hk). apply in_seq in Hk, H2. nia.
    + intros x Hx. unfold visible. apply in_seq. apply in_app_or in Hx. destruct Hx as [Hx|Hx].
      * apply in_map_iff in Hx. destruct Hx as (k & <- & Hk). apply in_seq in Hk. nia.
      * apply in_seq in Hx. nia.
    + intros x _. apply power_nonneg.
Qed.

(** Driver frequency of a design of [n] points. *)
Lemma driver_in_range : forall n M, 1 <= M -> 2 * M < n ->
  1 <= (n - 1) / (2 * M) /\ M * ((n - 1) / (2 * M)) <= (n - 1) / 2.
Proof.
  intros n M HM Hn. split.
  - apply Nat.div_le_lower_bound; lia.
  - apply Nat.div_le_lower_bound; [lia|].
    pose proof (Nat.mul_div_le (n - 1) (2 * M) ltac:(lia)). lia.
Qed.

(** ** The whole analysis *)
Lemma slice_map_range : forall A (l : list A) a b d, a <= b -> b <= length l ->
  slice l a b = map (fun t => nth (a + t) l d) (seq 0 (b - a)).
Proof.
  intros A l a b d Ha Hb. apply nth_error_ext'. intros i. rewrite nth_error_slice, nth_error_map_seq.
  destruct (i <? b - a) eqn:E; auto. apply Nat.ltb_lt in E. apply nth_error_nth'. lia.
Qed.

Lemma compute_orders_ok : forall y M, 1 <= M -> 2 * M < length y ->
  exists S1 ST, compute_orders y M ((length y - 1) / (2 * M)) = Ok (S1, ST) /\ orders_ok y M S1 ST.
Proof.
  intros y M HM Hl. set (w := (length y - 1) / (2 * M)).
  destruct (driver_in_range (length y) M HM Hl) as [H1 H2]. fold w in H1, H2.
  assert (Hy : y <> []) by (intros ->; simpl in Hl; lia).
  destruct (compute_orders_spec y M w HM H1 Hy H2) as (C1 & C2 & C3 & C4 & C5).
  set (V := band y (visible (length y))) in *.
  destruct (Req_dec V 0) as [EV|EV].
  - exists None, None. split; auto. left. auto.
  - eexists. eexists. split; [apply C1; auto|]. right. split; auto.
    eexists. eexists. split; [reflexivity|]. split; [reflexivity|]. fold w V.
    split; auto. split; auto.
    assert (HV : (0 < V)%R) by lra.
    set (D1 := band y (map (fun k => k * w) (seq 1 M))) in *. set (Dt := band y (seq 1 (w / 2))) in *.
    assert (A1 : (0 <= D1 / V)%R) by (apply Rdiv_nonneg; auto).
    assert (A2 : (0 <= Dt / V)%R) by (apply Rdiv_nonneg; auto).
    assert (A3 : ((D1 + Dt) / V <= 1)%R).
    { apply Rmult_le_reg_r with V; auto. unfold Rdiv. rewrite Rmult_assoc, Rinv_l by auto. lra. }
    assert (A4 : ((D1 + Dt) / V = D1 / V + Dt / V)%R) by (field; auto).
    split; [auto|]. split; lra.
Qed.

Lemma analyze_errors : forall D Y M bnd draws,
  (D = 0 -> fast_analyze D Y M bnd draws = Err ZeroDivisionError) /\
  (0 < D -> length Y mod D <> 0 -> fast_analyze D Y M bnd draws = Err ValueError).
Proof.
  intros. split.
  - intros ->. reflexivity.
  - intros HD HY. unfold fast_analyze. rewrite (proj2 (Nat.eqb_neq _ _)) by lia.
    rewrite (proj2 (Nat.eqb_neq _ _) HY). reflexivity.
Qed.

Lemma all_some_map : forall A (l : list A), all_some (map Some l) = Some l.
Proof. induction l; simpl; auto. rewrite IHl. auto. Qed.

Lemma width_nonneg : forall bnd l x, (0 <= bnd)%R -> width bnd l = Some x -> (0 <= x)%R.
Proof.
  intros bnd l x Hb H. unfold width in H. destruct (all_some l); [|discriminate].
  unfold sd1 in H. destruct (_ <? _); [discriminate|]. injection H as <-.
  apply Rmult_le_pos; auto. apply sqrt_pos.
Qed.

Lemma bootstrap_total : forall y M bnd l, 1 <= M -> 4 * M < length y -> good_draws (length y) l ->
  exists a b, bootstrap y M bnd l = Ok (a, b) /\
    ((0 <= bnd)%R -> (forall x, a = Some x -> 0 <= x)%R /\ (forall x, b = Some x -> 0 <= x)%R).
Proof.
  intros y M bnd l HM Hy Hl. unfold bootstrap.
  assert (T : forall idx, In idx l -> exists o, (do ys <- mapM (get y) idx ;;
      compute_orders ys M ((length ys - 1) / (2 * M))) = Ok o).
  { intros idx Hi. destruct (Hl idx Hi) as [Li Bi].
    destruct (proj2 (mapM_Ok_iff (get y) idx)) as [ys Eys].
    { intros i Hin. destruct (nth_error_lt_Some y (i:=i)) as [v Ev]; [auto|]. exists v. unfold get. rewrite Ev. auto. }
    rewrite Eys. cbn [bind]. pose proof (mapM_Ok_length _ _ Eys) as Ly.
    assert (2 * M + 1 <= (length y + 1) / 2) by (apply Nat.div_le_lower_bound; lia).
    destruct (compute_orders_ok ys M HM ltac:(lia)) as (a & b & E & _). eauto. }
  destruct (proj2 (mapM_Ok_iff _ l) T) as [rs Ers]. rewrite Ers. cbn [bind].
  eexists. eexists. split; [reflexivity|]. intros Hb. split; intros x Hx; eapply width_nonneg; eauto.
Qed.

Lemma fast_analyze_spec : forall D N M bnd draws Y, 0 < D -> 1 <= M -> 4 * M < N -> length Y = N * D ->
  (forall i, i < D -> good_draws N (draws i)) ->
  exists res, fast_analyze D Y M bnd draws = Ok res /\ length res = D /\
    forall i r, nth_error res i = Some r ->
      orders_ok (map (fun k => nth (i * N + k) Y 0%R) (seq 0 N)) M (f_S1 r) (f_ST r) /\
      ((0 <= bnd)%R -> (forall x, f_S1c r = Some x -> 0 <= x)%R /\ (forall x, f_STc r = Some x -> 0 <= x)%R).
Proof.
  intros D N M bnd draws Y HD HM HN HY Hdr.
  assert (E1 : length Y mod D = 0) by (rewrite HY; apply Nat.mod_mul; lia).
  assert (E2 : length Y / D = N) by (rewrite HY; apply Nat.div_mul; lia).
  assert (Bl : forall i, i < D -> slice Y (i * N) ((i + 1) * N) = map (fun k => nth (i * N + k) Y 0%R) (seq 0 N)).
  { intros i Hi. rewrite (slice_map_range _ Y _ _ 0%R) by nia.
    replace ((i + 1) * N - i * N) with N by nia. auto. }
  assert (T : forall i, In i (seq 0 D) -> exists r,
    (let y := slice Y (i * N) ((i + 1) * N) in
      do o <- compute_orders y M ((N - 1) / (2 * M)) ;;
      do c <- bootstrap y M bnd (draws i) ;;
      Ok (mkFast (fst o) (snd o) (fst c) (snd c))) = Ok r /\
      orders_ok (map (fun k => nth (i * N + k) Y 0%R) (seq 0 N)) M (f_S1 r) (f_ST r) /\
      ((0 <= bnd)%R -> (forall x, f_S1c r = Some x -> 0 <= x)%R /\ (forall x, f_STc r = Some x -> 0 <= x)%R)).
  { intros i Hi. apply in_seq in Hi. cbv zeta. rewrite Bl by lia.
    set (y := map (fun k => nth (i * N + k) Y 0%R) (seq 0 N)).
    assert (Ly : length y = N) by (unfold y; rewrite map_length, seq_length; auto).
    destruct (compute_orders_ok y M HM ltac:(lia)) as (S1 & ST & Eo & Ho). rewrite Ly in Eo. rewrite Eo. cbn [bind].
    destruct (bootstrap_total y M bnd (draws i) HM ltac:(lia)) as (a & b & Eb & Hb).
    { rewrite Ly. apply Hdr. lia. }
    rewrite Eb. cbn [bind fst snd]. eexists. split; [reflexivity|]. simpl. auto. }
  unfold fast_analyze. rewrite (proj2 (Nat.eqb_neq D 0)) by lia. rewrite E1. cbn [Nat.eqb negb].
  rewrite (proj2 (Nat.eqb_neq M 0)) by lia. rewrite E2.
  destruct (proj2 (mapM_Ok_iff _ (seq 0 D)) (fun i Hi => match T i Hi with ex_intro _ r (conj E _) => ex_intro _ r E end))
    as [res Eres].
  exists res. split; auto. split; [rewrite (mapM_Ok_length _ _ Eres), seq_length; auto|].
  intros i r Hr.
  assert (Hi : i < D).
  { rewrite <- (seq_length D 0), <- (mapM_Ok_length _ _ Eres). apply nth_error_Some. congruence. }
  assert (Hs : nth_error (seq 0 D) i = Some i).
  { rewrite nth_error_seq, (proj2 (Nat.ltb_lt _ _) Hi). auto. }
  destruct (mapM_Ok_nth _ _ i Eres (x:=i) Hs) as (r' & Er & En). rewrite Hr in En. injection En as <-.
  destruct (T i) as (r0 & E0 & H0); [apply in_seq; lia|]. cbv zeta in E0, Er. rewrite E0 in Er. injection Er as <-. auto.
Qed.

(** The analyser does not check the sample size: below 2M+1 points per block the driver frequency is
    0 and the harmonics wrap round to the last coefficient. *)
Lemma small_design : forall D1 bnd, D1 = 1 ->
  fast_analyze D1 [1; 0; 0]%R 4 bnd (fun _ => []) = Ok [mkFast (Some 4%R) (Some 1%R) None None].
Proof.
  intros D1 bnd ->.
  assert (E : compute_orders [1; 0; 0]%R 4 0 = Ok (Some 4%R, Some 1%R)).
  { assert (P : spectrum [1; 0; 0]%R = [(1 / 9)%R]).
    { rewrite spectrum_power by discriminate. unfold visible, power. cbn [length Nat.sub seq map Nat.div Nat.divmod fst].
      cbv zeta. unfold Rsum. cbn [fold_right nth].
      replace (2 * PI * INR 1 * INR 0 / INR 3)%R with 0%R by (simpl INR; field).
      rewrite cos_0, sin_0. f_equal. simpl INR. field. }
    unfold compute_orders. rewrite P. cbn [length Nat.eqb seq mapM]. cbn.
    unfold fdiv. replace (Reqb _ 0) with false by (symmetry; apply Reqb_false; lra).
    f_equal. f_equal; f_equal; field. }
  unfold fast_analyze. cbn [Nat.eqb length Nat.modulo Nat.divmod snd Nat.sub negb seq mapM].
  cbn [Nat.div Nat.divmod fst Nat.sub Nat.mul Nat.add slice skipn firstn].
  change (slice [1%R; 0%R; 0%R] 0 3) with [1%R; 0%R; 0%R].
  rewrite E. reflexivity.
Qed.
