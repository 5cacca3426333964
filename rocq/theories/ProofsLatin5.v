(** * Latin hypercube samples and additive monotone models. *)
From Coq Require Import Reals String List Arith Lia Lra Permutation Bool.
From Verif Require Import Base Arrays ListFacts ModelGroups ModelScale ModelLatin Stats SpecGroups SpecSobol SpecLatin SpecFF SpecMorris SpecFast2 SpecIntegral SpecLatin2
  ProofsFF2 ProofsIntegral ProofsExpect ProofsLatin4.
Import ListNotations.
Local Open Scope nat_scope.

(** ** Additive models *)
Lemma sub_integral : forall g a b c d v, (a <= c)%R -> (c <= d)%R -> (d <= b)%R -> integral g a b v -> exists w, integral g c d w.
Proof.
  intros g a b c d v AC CD DB (pr & _).
  assert (pr1 : Riemann_integrable g a d) by (apply (RiemannInt_P22 pr); lra).
  assert (pr2 : Riemann_integrable g c d) by (apply (RiemannInt_P23 pr1); lra). exists (RiemannInt pr2), pr2. reflexivity.
Qed.
Lemma integral_between : forall g a b m M v, (a <= b)%R -> (forall x, a <= x <= b -> m <= g x <= M)%R -> integral g a b v -> (m * (b - a) <= v <= M * (b - a))%R.
Proof.
  intros g a b m M v AB H I. split.
  - assert (J : integral (fun x => g x + (-1) * m)%R a b (v + (-1) * (m * (b - a)))%R) by (apply (integral_lin g (fun _ => m)); [exact I|apply integral_const]).
    apply integral_nonneg in J; [lra|exact AB|]. intros x X. specialize (H x X). lra.
  - assert (J : integral (fun x => M + (-1) * g x)%R a b (M * (b - a) + (-1) * v)%R) by (apply (integral_lin (fun _ => M) g); [apply integral_const|exact I]).
    apply integral_nonneg in J; [lra|exact AB|]. intros x X. specialize (H x X). lra.
Qed.

Section Strata.
Variables (lo h : R) (g : R -> R) (x : nat -> R) (N : nat) (v : R).
Hypothesis Hh : (0 < h)%R.
Let e (k : nat) : R := (lo + INR k * h)%R.
Hypothesis HX : forall k, k < N -> (e k <= x k <= e (S k))%R.
Hypothesis HM : forall a b, (lo <= a)%R -> (a <= b)%R -> (b <= e N)%R -> (g a <= g b)%R.
Hypothesis HV : integral g lo (e N) v.

Lemma e_S : forall k, e (S k) = (e k + h)%R.
Proof. intros k. unfold e. rewrite S_INR. ring. Qed.
Lemma e_0 : e 0 = lo.
Proof. unfold e. cbn [INR]. ring. Qed.
Lemma e_le : forall a b, a <= b -> (e a <= e b)%R.
Proof. intros a b H. apply le_INR in H. unfold e. nra. Qed.

Lemma increasing_prefix : forall k, k <= N -> exists w, integral g lo (e k) w /\ (Rabs (h * Rsum (map (fun i => g (x i)) (seq 0 k)) - w) <= h * (g (e k) - g lo))%R.
Proof.
  induction k as [|k IH]; intros K.
  - exists (0 * (e 0 - lo))%R. rewrite e_0. split.
    + destruct (sub_integral g lo (e N) lo lo v) as (w & I); [lra|lra|rewrite <- e_0; apply e_le; lia|exact HV|].
      assert (w = 0 * (lo - lo))%R; [|subst w; exact I]. pose proof (integral_between g lo lo (g lo) (g lo) w) as Q.
      destruct Q as (Q1 & Q2); [lra| |exact I|lra]. intros y Y. assert (y = lo) by lra. subst y. lra.
    + cbn [seq map]. change (Rsum []) with 0%R. replace (h * 0 - 0 * (lo - lo))%R with 0%R by ring. rewrite Rabs_R0. lra.
  - destruct IH as (w & I & B); [lia|]. assert (L1 := e_le k (S k) ltac:(lia)). assert (L2 := e_le (S k) N K). assert (L0 : (lo <= e k)%R) by (rewrite <- e_0; apply e_le; lia).
    destruct (sub_integral g lo (e N) (e k) (e (S k)) v L0 L1 L2 HV) as (z & J).
    exists (w + z)%R. split; [apply (integral_chasles g lo (e k)); assumption|].
    destruct (integral_between g (e k) (e (S k)) (g (e k)) (g (e (S k))) z L1) as (Z1 & Z2); [|exact J|].
    { intros y (Y1 & Y2). split; apply HM; lra. }
    rewrite e_S in Z1 at 1. rewrite e_S in Z2 at 2. destruct (HX k ltac:(lia)) as (X1 & X2).
    assert (G1 : (g (e k) <= g (x k))%R) by (apply HM; lra). assert (G2 : (g (x k) <= g (e (S k)))%R) by (apply HM; lra).
    rewrite seq_S, map_app, Rsum_app. cbn [plus map]. change (Rsum [g (x k)]) with (g (x k) + 0)%R.
    replace (h * (Rsum (map (fun i => g (x i)) (seq 0 k)) + (g (x k) + 0)) - (w + z))%R with ((h * Rsum (map (fun i => g (x i)) (seq 0 k)) - w) + (h * g (x k) - z))%R by ring.
    eapply Rle_trans; [apply Rabs_triang|]. replace (h * (g (e (S k)) - g lo))%R with (h * (g (e k) - g lo) + h * (g (e (S k)) - g (e k)))%R by ring.
    apply Rplus_le_compat; [exact B|]. apply Rabs_le. split; nra.
Qed.
End Strata.

Lemma stratified : forall lo up g (x : nat -> R) N v, (lo < up)%R -> 1 <= N -> monotone lo up g ->
  (forall k, k < N -> (lo + INR k / INR N * (up - lo) <= x k <= lo + INR (S k) / INR N * (up - lo))%R) -> integral g lo up (v * (up - lo)) ->
  (Rabs (mean (map (fun k => g (x k)) (seq 0 N)) - v) <= Rabs (g up - g lo) / INR N)%R.
Proof.
  intros lo up g x N v LU HN HM HX HV. assert (NP : (0 < INR N)%R) by (apply lt_0_INR; lia). set (h := ((up - lo) / INR N)%R).
  assert (Hh : (0 < h)%R) by (apply Rdiv_lt_0_compat; lra). assert (EN : (lo + INR N * h)%R = up) by (unfold h; field; lra).
  assert (HX' : forall k, k < N -> (lo + INR k * h <= x k <= lo + INR (S k) * h)%R).
  { intros k K. replace (INR k * h)%R with (INR k / INR N * (up - lo))%R by (unfold h; field; lra).
    replace (INR (S k) * h)%R with (INR (S k) / INR N * (up - lo))%R by (unfold h; field; lra). apply HX. exact K. }
  assert (INC : forall (g : R -> R) v, (forall a b, (lo <= a)%R -> (a <= b)%R -> (b <= up)%R -> (g a <= g b)%R) -> integral g lo up (v * (up - lo)) ->
     (Rabs (mean (map (fun k => g (x k)) (seq 0 N)) - v) <= (g up - g lo) / INR N)%R).
  { clear g v HM HV. intros g v HM HV. destruct (increasing_prefix lo h g x N (v * (up - lo))%R Hh HX') with (k := N) as (w & I & B).
    - intros a b A1 A2 A3. apply HM; lra.
    - rewrite EN. exact HV.
    - lia.
    - rewrite EN in I, B. apply (integral_unique _ _ _ _ _ HV) in I. subst w. unfold mean. rewrite map_length, seq_length.
      set (S := Rsum (map (fun i => g (x i)) (seq 0 N))) in *. replace (h * S - v * (up - lo))%R with ((up - lo) * (S / INR N - v))%R in B by (unfold h; field; lra).
      rewrite Rabs_mult, (Rabs_right (up - lo)) in B by lra. apply (Rmult_le_reg_l (up - lo)); [lra|]. eapply Rle_trans; [exact B|]. apply Req_le. unfold h. field. lra. }
  destruct HM as [HM|HM].
  - eapply Rle_trans; [apply INC; assumption|]. apply Rmult_le_compat_r; [left; apply Rinv_0_lt_compat; lra|]. apply Rle_abs.
  - assert (HV' : integral (fun y => (-1) * g y)%R lo up (- v * (up - lo))%R).
    { replace (- v * (up - lo))%R with ((-1) * (v * (up - lo)))%R by ring. apply integral_scal; [lra|exact HV]. }
    assert (B := INC (fun y => (-1) * g y)%R (- v)%R). cbv beta in B.
    replace (mean (map (fun k => (-1) * g (x k))%R (seq 0 N)) - - v)%R with (- (mean (map (fun k => g (x k)) (seq 0 N)) - v))%R in B.
    2: { unfold mean. rewrite !map_length, Rsum_map_scal. unfold Rdiv. ring. }
    rewrite Rabs_Ropp in B. eapply Rle_trans; [apply B; [|exact HV']|].
    + intros a b A1 A2 A3. specialize (HM a b A1 A2 A3). lra.
    + apply Rmult_le_compat_r; [left; apply Rinv_0_lt_compat; lra|]. replace (-1 * g up - -1 * g lo)%R with (- (g up - g lo))%R by ring.
      rewrite <- Rabs_Ropp. apply Rle_abs.
Qed.

Lemma average_parts : forall b gs v, proper b -> length gs = length b -> average b (separable gs) v ->
  exists ms, Forall2 (fun ig m => mean_of (fst ig) (snd ig) m) (combine b gs) ms /\ v = Rsum ms.
Proof.
  induction b as [|[lo hi] b IH]; intros gs v P L A.
  - destruct gs; [|discriminate]. exists []. split; [constructor|]. cbn in A. exact A.
  - destruct gs as [|g gs]; [discriminate|]. inversion P as [|? ? P1 P2]; subst. cbn [fst snd] in P1. cbn [average] in A. destruct A as (h & H & I).
    assert (K : forall x, (lo <= x <= hi)%R -> average b (separable gs) (h x - g x)%R).
    { intros x X. replace (h x - g x)%R with (h x + (-1) * g x)%R by ring.
      apply (average_ext b (fun xs => separable (g :: gs) (x :: xs) + (-1) * g x)%R); [exact P2|intros; cbn [separable]; ring|].
      apply (average_lin b (fun xs => separable (g :: gs) (x :: xs)) (fun _ => g x)); [exact P2|apply H; exact X|apply average_const]. }
    set (s := (h lo - g lo)%R). assert (K0 : average b (separable gs) s) by (apply K; lra).
    destruct (IH gs s P2 ltac:(cbn in L; lia) K0) as (ms & F & E). exists ((v - s)%R :: ms). split.
    + cbn [combine]. constructor; [|exact F]. cbn [fst snd]. unfold mean_of. cbn [fst snd].
      replace ((v - s) * (hi - lo))%R with (v * (hi - lo) + (-1) * (s * (hi - lo)))%R by ring.
      apply (integral_ext (fun x => h x + (-1) * s)%R); [lra| |].
      * intros x X. assert (Q := average_unique b _ _ _ P2 (K x X) K0). lra.
      * apply (integral_lin h (fun _ => s)); [exact I|apply integral_const].
    + change (Rsum ((v - s)%R :: ms)) with ((v - s) + Rsum ms)%R. lra.
Qed.

Lemma separable_seq : forall gs F n, separable gs (map F (seq n (length gs))) = Rsum (map (fun j => nth j gs (fun _ => 0%R) (F (n + j))) (seq 0 (length gs))).
Proof.
  induction gs as [|g gs IH]; intros F n; [reflexivity|]. cbn [length seq map separable nth]. rewrite IH.
  match goal with |- context [Rsum (?z :: ?l)] => change (Rsum (z :: l)) with (z + Rsum l)%R end. rewrite Nat.add_0_r. f_equal.
  rewrite <- seq_shift, map_map. apply Rsum_ext. intros j _. cbn [nth]. f_equal. f_equal. lia.
Qed.
Lemma Rsum_list_seq : forall l, Rsum l = Rsum (map (fun j => nth j l 0%R) (seq 0 (length l))).
Proof.
  intros l. f_equal. apply nth_error_ext'. intros j. rewrite nth_error_map_seq. destruct (Nat.ltb_spec j (length l)) as [J|J].
  - apply nth_error_nth'. exact J.
  - apply nth_error_None. exact J.
Qed.
Lemma Rsum_le_abs : forall {A} (l : list A) f h, (forall x, In x l -> (Rabs (f x) <= h x)%R) -> (Rabs (Rsum (map f l)) <= Rsum (map h l))%R.
Proof.
  intros A l f h. induction l as [|x l IH]; intros H.
  - cbn [map]. change (Rsum []) with 0%R. rewrite Rabs_R0. lra.
  - cbn [map]. change (Rsum (f x :: map f l)) with (f x + Rsum (map f l))%R. change (Rsum (h x :: map h l)) with (h x + Rsum (map h l))%R.
    eapply Rle_trans; [apply Rabs_triang|]. apply Rplus_le_compat; [apply H; left; reflexivity|]. apply IH. intros y Y. apply H. right. exact Y.
Qed.

Lemma permuted_mean : forall N l (H : nat -> R), Permutation l (seq 0 N) -> mean (map (fun s => H (nth s l 0)) (seq 0 N)) = mean (map H (seq 0 N)).
Proof.
  intros N l H P. unfold mean. rewrite !map_length. f_equal. transitivity (Rsum (map H l)).
  - f_equal. apply nth_error_ext'. intros j. rewrite nth_error_map_seq, nth_error_map'. pose proof (Permutation_length P) as L. rewrite seq_length in L.
    destruct (Nat.ltb_spec j N) as [J|J]; [rewrite (nth_error_nth' l 0) by lia; reflexivity|].
    assert (nth_error l j = None) as -> by (apply nth_error_None; lia). reflexivity.
  - apply Rsum_perm, Permutation_map, P.
Qed.

Theorem latin_additive : forall p b gs v, box_problem p -> p_bounds p = bounds_of b -> length gs = p_num_vars p ->
  (forall j i g, nth_error b j = Some i -> nth_error gs j = Some g -> monotone (fst i) (snd i) g) -> average b (separable gs) v ->
  forall nq tq N u perm junk, 0 < N -> inside_strata u -> (forall g, Permutation (perm g) (seq 0 N)) ->
  exists p' X, latin_sample nq tq p N u perm junk = (p', Ok (InPlace X)) /\
    (Rabs (mean (map (separable gs) (rows X)) - v) <= rise b gs / INR N)%R.
Proof.
  intros p b gs v HP EB LG HM HA nq tq N u perm junk HN HU HPm. destruct (latin_rows p HP) as (G & gof & HG & LR).
  destruct (LR nq tq N u perm junk HN HU HPm) as (p' & E). exists p'. eexists. split; [exact E|]. clear E LR. cbn [rows].
  destruct HP as (_ & _ & Hn & HB & HGB). assert (LB : length b = p_num_vars p) by (rewrite <- HB, EB; unfold bounds_of; rewrite map_length; reflexivity).
  set (D := p_num_vars p) in *. assert (NP : (0 < INR N)%R) by (apply lt_0_INR; lia).
  assert (BJ : forall j, j < D -> exists lo hi, nth_error b j = Some (lo, hi) /\ (lo < hi)%R /\ lower (p_bounds p) j = lo /\ upper (p_bounds p) j = hi).
  { intros j J. destruct (nth_error b j) as [[lo hi]|] eqn:Ej; [|apply nth_error_None in Ej; lia]. exists lo, hi. split; [reflexivity|].
    destruct (good_box_nth (p_bounds p) j HGB ltac:(lia)) as [H1 H2]. rewrite EB in H1 at 1. unfold bounds_of in H1. rewrite nth_error_map', Ej in H1. cbn in H1.
    injection H1 as H3 H4. rewrite <- H3, <- H4 in *. repeat split; auto. }
  assert (PB : proper b).
  { apply Forall_forall. intros [lo hi] I. apply In_nth_error in I as (j & J). destruct (BJ j) as (lo' & hi' & J' & L & _); [rewrite <- LB; apply nth_error_Some; congruence|].
    rewrite J in J'. injection J' as <- <-. exact L. }
  destruct (average_parts b gs v PB ltac:(lia) HA) as (ms & FM & EV).
  assert (LM : length ms = D) by (rewrite <- (Forall2_length _ _ _ _ _ FM), combine_length; lia).
  set (val := fun j k => (lower (p_bounds p) j + (INR k + u k (gof j)) / INR N * ranges (p_bounds p) j)%R).
  set (gj := fun j => nth j gs (fun _ => 0%R)).
  assert (ES : mean (map (separable gs) (map (fun s => stratum_point (p_bounds p) gof N u (map (fun g => nth s (perm g) 0) (seq 0 G))) (seq 0 N)))
     = Rsum (map (fun j => mean (map (fun k => gj j (val j k)) (seq 0 N))) (seq 0 D))).
  { transitivity (mean (map (fun s => Rsum (map (fun j => gj j (val j (nth s (perm (gof j)) 0))) (seq 0 D))) (seq 0 N))).
    - f_equal. rewrite map_map. apply map_ext. intros s. unfold stratum_point. rewrite HB, <- LG. rewrite separable_seq. apply Rsum_ext. intros j J. apply in_seq in J.
      cbn [plus]. unfold gj, val. cbv zeta. assert (nth (gof j) (map (fun g => nth s (perm g) 0) (seq 0 G)) 0 = nth s (perm (gof j)) 0) as ->; [|reflexivity].
      apply nth_error_nth. rewrite nth_error_map_seq. destruct HG as (HG & _). assert (GJ := HG j ltac:(lia)). apply Nat.ltb_lt in GJ. rewrite GJ. reflexivity.
    - unfold mean at 1. rewrite map_length, seq_length, (Rsum_swap _ _ (fun s j => gj j (val j (nth s (perm (gof j)) 0)))).
      unfold Rdiv. rewrite Rmult_comm, <- Rsum_map_scal. apply Rsum_ext. intros j _. rewrite <- (permuted_mean N (perm (gof j)) (fun k => gj j (val j k)) (HPm _)).
      unfold mean. rewrite map_length, seq_length. unfold Rdiv. ring. }
  rewrite ES, EV, (Rsum_list_seq ms), LM, <- Rsum_map_minus. unfold rise.
  assert (ER : Rsum (map2 (fun i g => Rabs (g (snd i) - g (fst i))) b gs) = Rsum (map (fun j => Rabs (gj j (upper (p_bounds p) j) - gj j (lower (p_bounds p) j))) (seq 0 D))).
  { f_equal. apply nth_error_ext'. intros j. rewrite nth_error_map2, nth_error_map_seq. destruct (Nat.ltb_spec j D) as [J|J].
    - destruct (BJ j J) as (lo & hi & E1 & _ & -> & ->). rewrite E1. unfold gj. rewrite (nth_error_nth' gs (fun _ => 0%R)) by lia. reflexivity.
    - assert (nth_error b j = None) as -> by (apply nth_error_None; lia). reflexivity. }
  rewrite ER. unfold Rdiv. rewrite Rmult_comm, <- Rsum_map_scal. apply Rsum_le_abs. intros j J. apply in_seq in J.
  destruct (BJ j ltac:(lia)) as (lo & hi & E1 & LH & E2 & E3).
  assert (EG : nth_error gs j = Some (gj j)) by (apply nth_error_nth'; lia).
  assert (EM : nth_error ms j = Some (nth j ms 0%R)) by (apply nth_error_nth'; lia).
  assert (MO : mean_of (lo, hi) (gj j) (nth j ms 0%R)).
  { destruct (Forall2_nth_error _ _ _ _ _ j _ FM (combine_nth_some _ _ b gs j _ _ E1 EG)) as (m & M1 & M2). rewrite EM in M1. injection M1 as <-. exact M2. }
  rewrite Rmult_comm. change (?a * / INR N)%R with (a / INR N)%R. rewrite E2, E3.
  apply (stratified lo hi (gj j) (val j) N (nth j ms 0%R) LH HN (HM j (lo, hi) (gj j) E1 EG)); [|exact MO].
  intros k K. unfold val, ranges. rewrite E2, E3. destruct (HU k (gof j)) as (U1 & U2). rewrite S_INR.
  assert (IP : (0 < / INR N)%R) by (apply Rinv_0_lt_compat; exact NP). unfold Rdiv. split; apply Rplus_le_compat_l; apply Rmult_le_compat_r; try lra; apply Rmult_le_compat_r; lra.
Qed.
