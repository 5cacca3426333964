(** * The Morris analysis in double precision: outputs multiplied by a power of two. *)
From Coq Require Import Reals String List Arith ZArith Bool Lia Lra Permutation.
From Flocq Require Import Core.
From Verif Require Import Base Arrays ListFacts ModelGroups ModelScale ProofsScale SpecGroups ProofsGroups Stats ModelFast ModelMorris ModelMorrisAnalyze SpecMorris ProofsMorris1 ProofsMorris3 ProofsMorris7
  ModelDouble ModelDouble2 ModelDouble4 ModelDouble5 SpecDouble3 ProofsDouble ProofsDouble2 ProofsDouble5 ProofsDouble10 ProofsDouble11 ProofsDouble12 ProofsDouble15 ProofsDouble16 ProofsDouble17.
Import ListNotations.
Local Open Scope R_scope.

Definition big (e : Z) (x : R) : Prop := x = 0 \/ bpow radix2 e <= Rabs x.
Definition fine (e : Z) (x : R) : Prop := double x /\ big e x.

Lemma fine_mult : forall e x, fine e x -> mult (e - 52) x.
Proof. intros e x [D B]. apply double_mult; auto. Qed.
Lemma fine_0 : forall e, fine e 0.
Proof. intros e. split; [apply generic_format_0|left; auto]. Qed.
Lemma big_weaken : forall e e' x, (e' <= e)%Z -> big e x -> big e' x.
Proof. intros e e' x H [->|B]; [left; auto|right]. eapply Rle_trans; [apply bpow_le; exact H|exact B]. Qed.
Lemma fine_weaken : forall e e' x, (e' <= e)%Z -> fine e x -> fine e' x.
Proof. intros e e' x H [D B]. split; auto. eapply big_weaken; eauto. Qed.
Lemma fine_fl : forall e x, (-1074 <= e)%Z -> big e x -> fine e (fl x).
Proof. intros e x He B. split; [apply double_fl|apply fl_big; auto]. Qed.
Lemma big_normal : forall e x, (-1022 <= e)%Z -> big e x -> normal x.
Proof. intros e x He [->|B]; [left; auto|right]. eapply Rle_trans; [apply bpow_le; exact He|exact B]. Qed.
Lemma fine_abs : forall e x, fine e x -> fine e (Rabs x).
Proof. intros e x [D B]. split; [apply generic_format_abs; auto|]. destruct B as [->|B]; [left; apply Rabs_R0|right; rewrite Rabs_Rabsolu; auto]. Qed.
Lemma big_square : forall e d, big e d -> big (2 * e) (d * d).
Proof.
  intros e d [->|B]; [left; ring|right]. rewrite Rabs_mult. replace (2 * e)%Z with (e + e)%Z by ring. rewrite bpow_plus. pose proof (bpow_ge_0 radix2 e). apply Rmult_le_compat; auto.
Qed.
Lemma big_sqrt : forall e e' v, (2 * e' <= e)%Z -> big e v -> big e' (sqrt v).
Proof.
  intros e e' v He [->|B]; [left; apply sqrt_0|]. destruct (Rle_dec v 0) as [N|N]; [left; apply sqrt_neg_0; auto|right]. rewrite Rabs_pos_eq in B by lra. rewrite Rabs_pos_eq by apply sqrt_pos.
  rewrite <- (sqrt_square (bpow radix2 e')) by apply bpow_ge_0. apply sqrt_le_1_alt. rewrite <- bpow_plus. eapply Rle_trans; [|exact B]. apply bpow_le. lia.
Qed.

Section K.
Variable k : Z.
Local Notation c := (bpow radix2 k).
Definition scales (e : Z) (x : R) : Prop := fine e x /\ fine e (c * x).

Lemma fl_step : forall e x, (-1022 <= e)%Z -> big e x -> big e (c * x) -> fl (c * x) = c * fl x /\ scales e (fl x).
Proof.
  intros e x He B B'. assert (E : fl (c * x) = c * fl x) by (apply fl_scale; apply (big_normal e); auto). split; auto. split; [apply fine_fl; auto; lia|].
  rewrite <- E. apply fine_fl; auto; lia.
Qed.
Lemma sum_step : forall e arr l, (-970 <= e)%Z -> (forall x, In x l -> scales e x) ->
  sum_fl arr (map (Rmult c) l) = c * sum_fl arr l /\ mult (e - 52) (sum_fl arr l) /\ mult (e - 52) (c * sum_fl arr l).
Proof.
  intros e arr l He H. assert (M : forall x, In x l -> mult (e - 52) x) by (intros x Hx; apply fine_mult, H, Hx).
  assert (M' : forall x, In x l -> mult (e - 52) (c * x)) by (intros x Hx; apply fine_mult, H, Hx).
  assert (E : sum_fl arr (map (Rmult c) l) = c * sum_fl arr l) by (unfold sum_fl; rewrite map_length; apply (tsum_scale k (e - 52)); auto; lia).
  split; auto. split; [apply tsum_mult; auto; lia|]. rewrite <- E. apply tsum_mult; [lia|]. intros x Hx. apply in_map_iff in Hx. destruct Hx as (y & <- & Hy). auto.
Qed.
Lemma quot_step : forall e s n, (-969 <= e)%Z -> (Z.of_nat n <= 2 ^ 53)%Z -> mult e s -> mult e (c * s) -> fl (c * s / INR n) = c * fl (s / INR n) /\ scales (e - 53) (fl (s / INR n)).
Proof.
  intros e s n He N2 M M'. destruct (Nat.eq_dec n 0) as [->|N0].
  - cbn [INR]. unfold Rdiv. rewrite Rinv_0, !Rmult_0_r, fl_0, Rmult_0_r. split; auto. split; [apply fine_0|rewrite Rmult_0_r; apply fine_0].
  - destruct (quotient_scale k e s n He ltac:(lia) N2 M M') as [E _]. split; auto.
    split; [apply fine_fl; [lia|apply div_big; auto; [lia|apply mult_big; auto]]|]. rewrite <- E. apply fine_fl; [lia|apply div_big; auto; [lia|apply mult_big; auto]].
Qed.
Lemma mean_step : forall e arr l, (-900 <= e)%Z -> (Z.of_nat (length l) <= 2 ^ 53)%Z -> (forall x, In x l -> scales e x) ->
  mean_fl arr (map (Rmult c) l) = c * mean_fl arr l /\ scales (e - 105) (mean_fl arr l).
Proof.
  intros e arr l He N2 H. destruct (sum_step e arr l ltac:(lia) H) as (E & M & M'). unfold mean_fl. rewrite map_length, E. replace (e - 105)%Z with (e - 52 - 53)%Z by ring. apply quot_step; auto. lia.
Qed.
Lemma minus_step : forall e x y, (-970 <= e)%Z -> scales e x -> scales e y -> fl (c * x - c * y) = c * fl (x - y) /\ scales (e - 52) (fl (x - y)).
Proof.
  intros e x y He [X X'] [Y Y']. replace (c * x - c * y) with (c * (x - y)) by ring. apply fl_step; [lia|apply mult_big, mult_minus; apply fine_mult; auto|].
  replace (c * (x - y)) with (c * x - c * y) by ring. apply mult_big, mult_minus; apply fine_mult; auto.
Qed.
Lemma scales_weaken : forall e e' x, (e' <= e)%Z -> scales e x -> scales e' x.
Proof. intros e e' x H [A B]. split; eapply fine_weaken; eauto. Qed.
End K.

Lemma std1_step : forall k e arr l, (-300 <= e)%Z -> (Z.of_nat (length l) <= 2 ^ 53)%Z -> (forall x, In x l -> scales k e x) ->
  std1_fl arr (map (Rmult (bpow radix2 k)) l) = times (bpow radix2 k) (std1_fl arr l) /\ (forall v, std1_fl arr l = Some v -> scales k (e - 210) v).
Proof.
  intros k e arr l He N2 H. unfold std1_fl. rewrite map_length. destruct (length l <? 2)%nat; [split; [reflexivity|discriminate]|].
  destruct (mean_step k e arr l ltac:(lia) N2 H) as (E & M). rewrite E. set (mu := mean_fl arr l) in *. set (c := bpow radix2 k) in *.
  assert (SQ : forall y, In y l -> fl (fl (c * y - c * mu) * fl (c * y - c * mu)) = bpow radix2 (2 * k) * fl (fl (y - mu) * fl (y - mu)) /\ scales (2 * k) (2 * e - 314) (fl (fl (y - mu) * fl (y - mu)))).
  { intros y Hy. destruct (minus_step k (e - 105) y mu ltac:(lia) (scales_weaken k e (e - 105) y ltac:(lia) (H y Hy)) M) as (D & [D1 D2]). fold c in D, D2. rewrite D. set (d := fl (y - mu)) in *.
    replace (c * d * (c * d)) with (bpow radix2 (2 * k) * (d * d)) by (replace (2 * k)%Z with (k + k)%Z by ring; rewrite bpow_plus; unfold c; ring).
    apply fl_step; [lia| |].
    - replace (2 * e - 314)%Z with (2 * (e - 105 - 52))%Z by ring. apply big_square, D1.
    - replace (bpow radix2 (2 * k) * (d * d)) with (c * d * (c * d)) by (replace (2 * k)%Z with (k + k)%Z by ring; rewrite bpow_plus; unfold c; ring).
      replace (2 * e - 314)%Z with (2 * (e - 105 - 52))%Z by ring. apply big_square, D2. }
  assert (L : squares_fl (c * mu) (map (Rmult c) l) = map (Rmult (bpow radix2 (2 * k))) (squares_fl mu l)).
  { unfold squares_fl. rewrite !map_map. apply map_ext_in. intros y Hy. apply SQ; auto. }
  destruct (sum_step (2 * k) (2 * e - 314) arr (squares_fl mu l) ltac:(lia)) as (SE & S1 & S2).
  { intros x Hx. apply in_map_iff in Hx. destruct Hx as (y & <- & Hy). apply SQ; auto. }
  rewrite L, SE. destruct (quot_step (2 * k) (2 * e - 314 - 52) _ (length l - 1) ltac:(lia) ltac:(lia) S1 S2) as (QE & [Q1 Q2]). rewrite QE. set (v := fl (sum_fl arr (squares_fl mu l) / INR (length l - 1))) in *.
  assert (RE : sqrt (bpow radix2 (2 * k) * v) = c * sqrt v).
  { rewrite sqrt_mult_alt by apply bpow_ge_0. f_equal. replace (2 * k)%Z with (k + k)%Z by ring. rewrite bpow_plus. apply sqrt_square, bpow_ge_0. }
  rewrite RE. destruct (fl_step k (e - 210) (sqrt v) ltac:(lia)) as (F & F').
  - apply (big_sqrt (2 * e - 314 - 52 - 53)); [lia|apply Q1].
  - fold c. rewrite <- RE. apply (big_sqrt (2 * e - 314 - 52 - 53)); [lia|apply Q2].
  - split; [unfold times; cbn; f_equal; exact F|]. intros w W. injection W as <-. exact F'.
Qed.

(** ** Numbers or nan *)
Definition fscales (k e : Z) (v : fval) : Prop := match v with Some x => scales k e x | None => True end.
Lemma in_all_some : forall k e (l : list fval) r, all_some l = Some r -> (forall v, In v l -> fscales k e v) -> forall x, In x r -> scales k e x.
Proof. intros k e l r E H x Hx. apply (H (Some x)). eapply all_some_in; eauto. Qed.
Lemma all_some_length : forall (l : list fval) r, all_some l = Some r -> length r = length l.
Proof. induction l as [|[x|] l IH]; cbn; intros r E; try discriminate; [injection E as <-; auto|]. destruct (all_some l) as [r0|]; [|discriminate]. injection E as <-. cbn. f_equal. auto. Qed.

Lemma fmean_step : forall k e arr (l : list fval), (-900 <= e)%Z -> (Z.of_nat (length l) <= 2 ^ 53)%Z -> (forall v, In v l -> fscales k e v) ->
  fmean_fl arr (map (times (bpow radix2 k)) l) = times (bpow radix2 k) (fmean_fl arr l) /\ fscales k (e - 105) (fmean_fl arr l).
Proof.
  intros k e arr l He N2 H. unfold fmean_fl. rewrite all_some_times. destruct (all_some l) as [r|] eqn:E; [|split; [reflexivity|exact I]]. cbn [option_map].
  destruct (mean_step k e arr r He) as (M & S); [rewrite (all_some_length _ _ E); auto|eapply in_all_some; eauto|]. split; [unfold times; cbn [option_map]; f_equal; exact M|exact S].
Qed.
Lemma fsd1_step : forall k e arr (l : list fval), (-300 <= e)%Z -> (Z.of_nat (length l) <= 2 ^ 53)%Z -> (forall v, In v l -> fscales k e v) ->
  fsd1_fl arr (map (times (bpow radix2 k)) l) = times (bpow radix2 k) (fsd1_fl arr l) /\ fscales k (e - 210) (fsd1_fl arr l).
Proof.
  intros k e arr l He N2 H. unfold fsd1_fl. rewrite all_some_times. destruct (all_some l) as [r|] eqn:E; [|split; [reflexivity|exact I]]. cbn [option_map].
  destruct (std1_step k e arr r He) as (M & S); [rewrite (all_some_length _ _ E); auto|eapply in_all_some; eauto|]. split; [exact M|]. destruct (std1_fl arr r); cbn; auto.
Qed.
Lemma fabs_step : forall k v, fabs (times (bpow radix2 k) v) = times (bpow radix2 k) (fabs v).
Proof. intros k [x|]; cbn; auto. f_equal. rewrite Rabs_mult, (Rabs_pos_eq (bpow _ _)) by apply bpow_ge_0. reflexivity. Qed.
Lemma fscales_abs : forall k e v, fscales k e v -> fscales k e (fabs v).
Proof.
  intros k e [x|]; cbn; auto. intros [A B]. split; [apply fine_abs; auto|]. replace (bpow radix2 k * Rabs x) with (Rabs (bpow radix2 k * x)); [apply fine_abs; auto|].
  rewrite Rabs_mult, (Rabs_pos_eq (bpow _ _)) by apply bpow_ge_0. reflexivity.
Qed.

Lemma filter_short : forall A (f : A -> bool) l, (length (filter f l) <= length l)%nat.
Proof. induction l as [|a l IH]; cbn; auto. destruct (f a); cbn; lia. Qed.
Lemma members_length : forall m j, (length (members m j) <= length m)%nat.
Proof. intros m j. unfold members. rewrite <- (seq_length (length m) 0) at 2. apply filter_short. Qed.

Lemma grouped_step : forall k e arr m m' groups j, (-900 <= e)%Z -> (Z.of_nat (length groups) <= 2 ^ 53)%Z ->
  (forall i, In i (members groups j) -> nth i m' None = times (bpow radix2 k) (nth i m None) /\ fscales k e (nth i m None)) ->
  grouped_fl arr m' groups j = times (bpow radix2 k) (grouped_fl arr m groups j).
Proof.
  intros k e arr m m' groups j He N2 H. unfold grouped_fl. set (js := members groups j) in *.
  assert (A : map (fun i => nth i m' None) js = map (times (bpow radix2 k)) (map (fun i => nth i m None) js)) by (rewrite map_map; apply map_ext_in; intros i Hi; apply H; auto).
  rewrite A, all_some_times. destruct (all_some (map (fun i => nth i m None) js)) as [r|] eqn:E; [|reflexivity]. cbn [option_map times].
  set (f := map (fun i => if existsb (Nat.eqb i) js then match nth i m None with Some x => x | None => 0 end else 0) (seq 0 (length groups))).
  assert (F : map (fun i => if existsb (Nat.eqb i) js then match nth i m' None with Some x => x | None => 0 end else 0) (seq 0 (length groups)) = map (Rmult (bpow radix2 k)) f).
  { unfold f. rewrite map_map. apply map_ext. intros i. destruct (existsb (Nat.eqb i) js) eqn:Ex; [|ring]. rewrite (proj1 (H i (existsb_in _ _ Ex))). destruct (nth i m None); cbn; auto; ring. }
  rewrite F. assert (FS : forall x, In x f -> scales k e x).
  { intros x Hx. apply in_map_iff in Hx. destruct Hx as (i & <- & _). assert (Z : scales k e 0) by (split; [apply fine_0|rewrite Rmult_0_r; apply fine_0]).
    destruct (existsb (Nat.eqb i) js) eqn:Ex; auto. pose proof (proj2 (H i (existsb_in _ _ Ex))) as Q. destruct (nth i m None); cbn in Q; auto. }
  assert (LF : length f = length groups) by (unfold f; rewrite map_length, seq_length; auto).
  destruct (sum_step k e arr f ltac:(lia) FS) as (SE & S1 & S2). unfold sum_fl in SE, S1, S2. rewrite map_length, LF in SE. rewrite LF in S1, S2. rewrite SE. f_equal.
  apply (quot_step k (e - 52)); auto; [lia|]. pose proof (members_length groups j). fold js in H0. lia.
Qed.

(** ** Effects *)
Lemma not_tiny_fine : forall x, not_tiny x -> fine (-100) x.
Proof. intros x [D H]. split; auto. unfold big. rewrite bpow_powerRZ. exact H. Qed.

Lemma effect_step : forall k S size X Y levels i j, (2 <= levels)%nat -> (Z.of_nat levels <= 2 ^ 52)%Z -> (forall y, In y Y -> not_tiny y /\ not_tiny (bpow radix2 k * y)) ->
  effect_fl S size X (map (Rmult (bpow radix2 k)) Y) (delta_fl levels) false i j = times (bpow radix2 k) (effect_fl S size X Y (delta_fl levels) false i j) /\
  fscales k (-152) (effect_fl S size X Y (delta_fl levels) false i j).
Proof.
  intros k S size X Y levels i j L1 L2 H. set (c := bpow radix2 k).
  assert (Z : scales k (-100) 0) by (split; [apply fine_0|rewrite Rmult_0_r; apply fine_0]).
  assert (P : forall up, picked size X (map (Rmult c) Y) up i j = map (Rmult c) (picked size X Y up i j)).
  { intros up. unfold picked. rewrite map_map. apply map_ext. intros q. cbv zeta. destruct (if up then _ else _); [|ring]. unfold y_at. apply nth_scaled. }
  assert (F : forall up x, In x (picked size X Y up i j) -> scales k (-100) x).
  { intros up x Hx. apply in_map_iff in Hx. destruct Hx as (q & <- & _). cbv zeta. destruct (if up then _ else _); auto. unfold y_at. destruct (nth_in_or_default (i * size + q) Y 0) as [I|E]; [|rewrite E; auto].
    destruct (H _ I). split; apply not_tiny_fine; auto. }
  assert (R : forall up, reorganize_fl S size X (map (Rmult c) Y) up i j = c * reorganize_fl S size X Y up i j /\ mult (-152) (reorganize_fl S size X Y up i j) /\ mult (-152) (c * reorganize_fl S size X Y up i j)).
  { intros up. unfold reorganize_fl. rewrite P. pose proof (sum_step k (-100) (s_einsum S) (picked size X Y up i j) ltac:(lia) (F up)) as Q. unfold sum_fl in Q. rewrite map_length in Q.
    assert (LP : length (picked size X Y up i j) = size) by (unfold picked; rewrite map_length, seq_length; auto). rewrite LP in Q. exact Q. }
  assert (D : difference_fl S size X (map (Rmult c) Y) i j = c * difference_fl S size X Y i j /\ scales k (-152) (difference_fl S size X Y i j)).
  { unfold difference_fl. destruct (R true) as (-> & T1 & T2). destruct (R false) as (-> & U1 & U2). set (a := reorganize_fl S size X Y true i j) in *. set (b := reorganize_fl S size X Y false i j) in *.
    replace (c * a - c * b) with (c * (a - b)) by ring. apply fl_step; [lia|apply mult_big, mult_minus; auto|]. fold c. replace (c * (a - b)) with (c * a - c * b) by ring. apply mult_big, mult_minus; auto. }
  unfold effect_fl, fdiv_fl. destruct (delta_range levels L1 L2) as [D1 D2]. destruct (Reqb _ 0) eqn:Z0; [apply Reqb_true in Z0; lra|]. destruct D as (-> & V1 & V2). set (d := difference_fl S size X Y i j) in *.
  set (dl := delta_fl levels) in *.
  assert (Q : forall e x, big e x -> big e (x / dl)).
  { intros e x [->|B]; [left; unfold Rdiv; ring|right]. unfold Rdiv. rewrite Rabs_mult, Rabs_inv, (Rabs_pos_eq dl) by lra. assert (1 <= / dl) by (rewrite <- Rinv_1; apply Rinv_le_contravar; lra).
    pose proof (Rabs_pos x). nra. }
  replace (c * d / dl) with (c * (d / dl)) by (unfold Rdiv; ring). destruct (fl_step k (-152) (d / dl) ltac:(lia)) as (E & S').
  - apply Q, V1.
  - replace (bpow radix2 k * (d / dl)) with (c * d / dl) by (unfold c, Rdiv; ring). apply Q, V2.
  - split; [unfold times; cbn; f_equal; exact E|]. exact S'.
Qed.

Lemma conf_step : forall k S nq cl idxs ee, (let z := nq (fl (/ 2 + fl (cl / 2))) in z = 0 \/ powerRZ 2 (-100) <= Rabs z) ->
  (Z.of_nat (length idxs) <= 2 ^ 53)%Z -> (forall idx, In idx idxs -> (Z.of_nat (length idx) <= 2 ^ 53)%Z) -> (forall v, In v ee -> fscales k (-152) v) ->
  conf_fl S nq cl idxs (map (times (bpow radix2 k)) ee) = times (bpow radix2 k) (conf_fl S nq cl idxs ee) /\ fscales k (-567) (conf_fl S nq cl idxs ee).
Proof.
  intros k S nq cl idxs ee Z N1 N2 H. unfold conf_fl. set (z := nq (fl (/ 2 + fl (cl / 2)))) in *. cbv zeta in Z.
  assert (M : forall idx, In idx idxs -> fmean_fl (s_over S) (map (fun t => fabs (nth t (map (times (bpow radix2 k)) ee) None)) idx) = times (bpow radix2 k) (fmean_fl (s_over S) (map (fun t => fabs (nth t ee None)) idx)) /\
    fscales k (-257) (fmean_fl (s_over S) (map (fun t => fabs (nth t ee None)) idx))).
  { intros idx I. replace (map (fun t => fabs (nth t (map (times (bpow radix2 k)) ee) None)) idx) with (map (times (bpow radix2 k)) (map (fun t => fabs (nth t ee None)) idx)).
    - apply (fmean_step k (-152)); [lia|rewrite map_length; auto|]. intros v V. apply in_map_iff in V. destruct V as (t & <- & _). apply fscales_abs. destruct (nth_in_or_default t ee None) as [J|J]; auto. rewrite J. exact Logic.I.
    - rewrite map_map. apply map_ext. intros t. rewrite <- fabs_step. f_equal. change (@None R) with (times (bpow radix2 k) None) at 2. rewrite map_nth. reflexivity. }
  replace (map (fun idx => fmean_fl (s_over S) (map (fun t => fabs (nth t (map (times (bpow radix2 k)) ee) None)) idx)) idxs) with
    (map (times (bpow radix2 k)) (map (fun idx => fmean_fl (s_over S) (map (fun t => fabs (nth t ee None)) idx)) idxs)) by (rewrite map_map; apply map_ext_in; intros idx I; symmetry; apply M; auto).
  destruct (fsd1_step k (-257) (s_again S) (map (fun idx => fmean_fl (s_over S) (map (fun t => fabs (nth t ee None)) idx)) idxs)) as (E & F); [lia|rewrite map_length; auto|..].
  { intros v V. apply in_map_iff in V. destruct V as (idx & <- & I). apply M; auto. }
  rewrite E. clear E. match type of F with fscales _ _ ?t => destruct t as [s|] end; [|split; [reflexivity|exact Logic.I]]. cbn [times option_map fmul_fl]. destruct F as [F1 F2].
  replace (z * (bpow radix2 k * s)) with (bpow radix2 k * (z * s)) by ring.
  assert (B : forall t, fine (-257 - 210) t -> big (-567) (z * t)).
  { intros t [_ T]. destruct Z as [->|Z]; [left; ring|]. destruct T as [->|T]; [left; ring|right]. rewrite Rabs_mult. change (-567)%Z with (-100 + (-257 - 210))%Z. rewrite bpow_plus.
    rewrite (bpow_powerRZ radix2 (-100)). apply Rmult_le_compat; auto; [|apply bpow_ge_0]. rewrite <- (bpow_powerRZ radix2). apply bpow_ge_0. }
  destruct (fl_step k (-567) (z * s) ltac:(lia)) as (E2 & F3); auto.
  - replace (bpow radix2 k * (z * s)) with (z * (bpow radix2 k * s)) by ring. auto.
  - rewrite E2. split; [reflexivity|exact F3].
Qed.

Definition scale_out (c : R) (o : morris_out) : morris_out := mkMorris (m_names o) (map (times c) (m_mu o)) (map (times c) (m_mu_star o)) (map (times c) (m_sigma o)) (map (times c) (m_conf o)).

Lemma power_of_two : forall k S nq p ls G N X Y cl levels resample, labels_of p ls -> distinct_count ls G -> length ls = p_num_vars p -> cols X = p_num_vars p -> (0 < p_num_vars p)%nat ->
  0 < cl < 1 -> length (rows X) = length Y -> length Y = (N * (G + 1))%nat -> (0 < N)%nat ->
  (2 <= levels)%nat -> (Z.of_nat levels <= 2 ^ 52)%Z -> (Z.of_nat N <= 2 ^ 53)%Z -> (Z.of_nat (p_num_vars p) <= 2 ^ 53)%Z ->
  (forall j, (Z.of_nat (length (resample j)) <= 2 ^ 53)%Z /\ forall idx, In idx (resample j) -> (Z.of_nat (length idx) <= 2 ^ 53)%Z) ->
  (let z := nq (fl (/ 2 + fl (cl / 2))) in z = 0 \/ powerRZ 2 (-100) <= Rabs z) ->
  (forall y, In y Y -> not_tiny y /\ not_tiny (bpow radix2 k * y)) ->
  snd (morris_analyze_fl S nq p X (map (Rmult (bpow radix2 k)) Y) cl false levels resample) = map_ok (scale_out (bpow radix2 k)) (snd (morris_analyze_fl S nq p X Y cl false levels resample)).
Proof.
  intros k S nq p ls G N X Y cl levels resample Hls HG Hn Hc Hp Hcl HX HY HT L1 L2 N2 V2 R2 Z H.
  destruct (shaped S nq p ls G N X Y cl false levels resample) as (p1 & m & Em & EG & Lm & E); auto; [lia|].
  destruct (shaped S nq p ls G N X (map (Rmult (bpow radix2 k)) Y) cl false levels resample) as (p1' & m' & Em' & EG' & Lm' & E'); auto; [lia|rewrite map_length; auto|rewrite map_length; auto|].
  rewrite Em' in Em. injection Em as ->. cbv zeta in E, E'. rewrite E, E'. cbn [snd map_ok]. unfold scale_out. cbn [m_names m_mu m_mu_star m_sigma m_conf]. set (c := bpow radix2 k) in *.
  assert (C : forall j, col_fl S G (rows X) (map (Rmult c) Y) levels false N j = map (times c) (col_fl S G (rows X) Y levels false N j)).
  { intros j. unfold col_fl. rewrite map_map. apply map_ext. intros i. apply effect_step; auto. }
  assert (CF : forall j v, In v (col_fl S G (rows X) Y levels false N j) -> fscales k (-152) v).
  { intros j v V. apply in_map_iff in V. destruct V as (i & <- & _). apply effect_step; auto. }
  assert (CL : forall j, (Z.of_nat (length (col_fl S G (rows X) Y levels false N j)) <= 2 ^ 53)%Z) by (intros j; unfold col_fl; rewrite map_length, seq_length; auto).
  unfold grouped_metric_fl, grouped_sigma_fl. rewrite !map_map.
  assert (MJ : forall j i, In i (members m j) -> (i < p_num_vars p)%nat).
  { intros j i I. unfold members in I. apply filter_In in I. destruct I as [I _]. apply in_seq in I. lia. }
  do 2 f_equal; apply map_ext; intros j.
  - apply (grouped_step k (-257)); [lia|lia|]. intros i I. rewrite !nth_seq_map by eauto. rewrite C. apply (fmean_step k (-152)); auto; [lia|eauto].
  - apply (grouped_step k (-257)); [lia|lia|]. intros i I. rewrite !nth_seq_map by eauto. rewrite C, map_map.
    rewrite (map_ext _ (fun v => times c (fabs v))) by (intros v; apply fabs_step). rewrite <- (map_map fabs (times c)). apply (fmean_step k (-152)); [lia|rewrite map_length; auto|].
    intros v V. apply in_map_iff in V. destruct V as (u & <- & U). apply fscales_abs. eauto.
  - destruct (_ =? 1)%nat; auto. apply (grouped_step k (-362)); [lia|lia|]. intros i I. rewrite !nth_seq_map by eauto. rewrite C. apply (fsd1_step k (-152)); auto; [lia|eauto].
  - apply (grouped_step k (-567)); [lia|lia|]. intros i I. rewrite !nth_seq_map by eauto. rewrite C. destruct (R2 i). apply conf_step; auto. eauto.
Qed.
