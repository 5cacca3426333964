(** * Finite differences and DGSM. *)
From Coq Require Import Reals String List Arith ZArith Bool Lia Lra.
From Verif Require Import Base Arrays ListFacts ModelGroups ModelScale ProofsScale Stats Sums SpecSobol SpecFF ProofsSobol6
  ProofsFF ProofsFF2 ProofsFF3 ModelFast ProofsFast2 ModelMorrisAnalyze SpecMorris ProofsMorris2 ProofsMorris5 ProofsMorris6 ProofsMorris7 ProofsMorris9
  ModelDgsm SpecDgsm.
Import ListNotations.
Local Open Scope nat_scope.

(** ** Sampler *)
Definition clamp_step (lo up delta x : R) : R := Rmax (Rmin (x + x * delta) up) lo.

Lemma clamp_step_spec : forall lo up delta x, (lo <= up)%R ->
  (lo <= clamp_step lo up delta x <= up)%R /\
  (lo <= x + x * delta <= up -> clamp_step lo up delta x = x + x * delta)%R /\
  (up < x + x * delta -> clamp_step lo up delta x = up)%R /\ (x + x * delta < lo -> clamp_step lo up delta x = lo)%R.
Proof.
  intros. unfold clamp_step, Rmax, Rmin. destruct (Rle_dec (x + x * delta) up);
    [destruct (Rle_dec (x + x * delta) lo)|destruct (Rle_dec up lo)]; repeat split; intros; lra.
Qed.

Lemma good_box_pair : forall bounds j, good_box bounds -> j < length bounds ->
  nth_error bounds j = Some [lower bounds j; upper bounds j] /\ (lower bounds j < upper bounds j)%R.
Proof.
  intros bounds j HB Hj. destruct (nth_error_lt_Some bounds Hj) as [b Hb].
  unfold good_box in HB. rewrite Forall_forall in HB. destruct (HB b (nth_error_In _ _ Hb)) as (lo & up & -> & Hlt).
  unfold lower, upper. rewrite (nth_error_nth _ _ _ Hb). auto.
Qed.

Lemma map_update : forall A B (f : A -> B) l i x, map f (update l i x) = update (map f l) i (f x).
Proof. induction l; intros; destruct i; simpl; auto. f_equal; auto. Qed.

Lemma perturb_ok : forall bounds delta b j, good_box bounds -> length b = length bounds -> j < length bounds ->
  perturb bounds delta (map Some b) j
  = Ok (map Some (update b j (clamp_step (lower bounds j) (upper bounds j) delta (nth j b 0%R)))).
Proof.
  intros bounds delta b j HB Lb Hj. destruct (good_box_pair bounds j HB Hj) as [Hp _].
  rewrite map_update. unfold perturb. unfold get at 1. rewrite Hp. cbn [bind].
  assert (E : get (map Some b : list fval) j = Ok (Some (nth j b 0%R))).
  { unfold get. rewrite nth_error_map, (nth_error_nth' b 0%R) by lia. auto. }
  rewrite E. reflexivity.
Qed.

Lemma update_agree : forall A (b : list A) j x, j < length b -> agree_except j b (update b j x) /\ nth_error (update b j x) j = Some x.
Proof.
  intros A b j x Hj. split; [split; [rewrite length_update; auto|]|].
  - intros k Hk. rewrite nth_error_update. destruct (Nat.eqb_spec k j); [congruence|]. auto.
  - rewrite nth_error_update, Nat.eqb_refl. apply Nat.ltb_lt in Hj. rewrite Hj. auto.
Qed.

(** The design as one expression. *)
Definition fd_block (bounds : list (list R)) (v : list (R * R)) (delta : R) (D : nat) (a : list R) : list (list R) :=
  let b := to_physical v a in
  b :: map (fun j => update b j (clamp_step (lower bounds j) (upper bounds j) delta (nth j b 0%R))) (seq 0 D).

Lemma fd_sample_ok : forall nq tq sobol p N skip delta base, plain_problem p ->
  sobol (N + skip) (p_num_vars p) = Ok base -> unit_points (N + skip) (p_num_vars p) base ->
  exists v p', scaler (p_bounds p) v /\
    fd_sample nq tq sobol p N skip delta =
    (p', Ok (map (map Some) (concat (map (fun i => fd_block (p_bounds p) v delta (p_num_vars p) (nth i base [])) (seq skip N))))).
Proof.
  intros nq tq sobol p N skip delta base (Hn & HL & HB & Hd) Es [Lb Fb].
  destruct (scale_design nq tq p base Hn HL HB Hd) as (v & Hv & Hs).
  destruct (Hs base eq_refl) as (m' & p' & E). exists v, p'. split; auto.
  unfold fd_sample. rewrite Es, E. cbn [bind scaled_rows rows]. f_equal.
  assert (EM : mapM (fun i => do r <- get (map (map Some) (map (to_physical v) base)) i ;;
      do qs <- mapM (perturb (p_bounds p) delta r) (seq 0 (p_num_vars p)) ;; Ok (r :: qs)) (seq skip N)
    = Ok (map (fun i => map (map Some) (fd_block (p_bounds p) v delta (p_num_vars p) (nth i base []))) (seq skip N))).
  { rewrite <- mapM_Ok_map. apply mapM_ext. intros i Hi. apply in_seq in Hi.
    assert (Ni : nth_error base i = Some (nth i base [])) by (apply nth_error_nth'; lia).
    assert (Li : length (nth i base []) = p_num_vars p).
    { rewrite Forall_forall in Fb. apply (Fb _ (nth_error_In _ _ Ni)). }
    assert (G : get (map (map Some) (map (to_physical v) base)) i = Ok (map Some (to_physical v (nth i base [])))).
    { unfold get. rewrite !nth_error_map, Ni. auto. }
    rewrite G. cbn [bind].
    assert (M : mapM (perturb (p_bounds p) delta (map Some (to_physical v (nth i base [])))) (seq 0 (p_num_vars p))
      = Ok (map (fun j => map Some (update (to_physical v (nth i base [])) j
           (clamp_step (lower (p_bounds p) j) (upper (p_bounds p) j) delta (nth j (to_physical v (nth i base [])) 0%R)))) (seq 0 (p_num_vars p)))).
    { rewrite <- mapM_Ok_map. apply mapM_ext. intros j Hj. apply in_seq in Hj. apply perturb_ok; auto; try lia.
      destruct Hv as [Lv _]. rewrite to_physical_length by lia. lia. }
    rewrite M. cbn [bind]. unfold fd_block. cbn [map]. rewrite map_map. reflexivity. }
  etransitivity; [apply f_equal with (f := fun z => bind z (fun blocks => Ok (concat blocks))); exact EM|].
  cbn [bind]. rewrite concat_map, map_map. reflexivity.
Qed.

Lemma fd_block_length : forall bounds v delta D a, length (fd_block bounds v delta D a) = D + 1.
Proof. intros. unfold fd_block. simpl. rewrite map_length, seq_length. lia. Qed.

Lemma fd_rows : forall bounds v delta D base skip N i k, i < N -> k < D + 1 ->
  nth_error (concat (map (fun i => fd_block bounds v delta D (nth i base [])) (seq skip N))) (i * (D + 1) + k)
  = nth_error (fd_block bounds v delta D (nth (skip + i) base [])) k.
Proof.
  intros bounds v delta D base skip N i k Hi Hk. rewrite concat_uniform_nth with (k := D + 1); try lia.
  - assert (E1 : (i * (D + 1) + k) / (D + 1) = i) by (rewrite Nat.add_comm, Nat.div_add by lia; rewrite Nat.div_small; lia).
    assert (E2 : (i * (D + 1) + k) mod (D + 1) = k) by (rewrite Nat.add_comm, Nat.mod_add by lia; apply Nat.mod_small; auto).
    rewrite E1, E2. rewrite nth_error_map, nth_error_seq. assert (E : i <? N = true) by (apply Nat.ltb_lt; auto).
    rewrite E. reflexivity.
  - rewrite Forall_forall. intros x Hx. apply in_map_iff in Hx. destruct Hx as (q & <- & _). apply fd_block_length.
Qed.

Lemma unit_physical : forall bounds v a, good_box bounds -> scaler bounds v -> length a = length bounds ->
  Forall (fun x => 0 <= x <= 1)%R a ->
  physical bounds a (to_physical v a) /\ length (to_physical v a) = length bounds /\
  forall j, j < length bounds ->
    nth j (to_physical v a) 0%R = (lower bounds j + nth j a 0 * (upper bounds j - lower bounds j))%R /\
    (lower bounds j <= nth j (to_physical v a) 0 <= upper bounds j)%R.
Proof.
  intros bounds v a HB [Lv Hv] La Ha.
  assert (L : length (to_physical v a) = length bounds) by (rewrite to_physical_length; lia).
  split; [|split; auto].
  - split; [rewrite L; auto|]. intros j x lo up Hx Hb. rewrite to_physical_nth, Hx.
    assert (Hj : j < length bounds) by (apply nth_error_Some; congruence).
    rewrite Hv by auto. destruct (good_box_pair bounds j HB Hj) as [Hp _]. rewrite Hp in Hb. inversion Hb. auto.
  - intros j Hj. destruct (good_box_pair bounds j HB Hj) as [_ Hlt].
    assert (Nj : nth_error a j = Some (nth j a 0%R)) by (apply nth_error_nth'; lia).
    assert (E : nth j (to_physical v a) 0%R = (lower bounds j + nth j a 0 * (upper bounds j - lower bounds j))%R).
    { apply nth_error_nth. rewrite to_physical_nth, Nj, Hv by auto. auto. }
    split; auto. rewrite E. rewrite Forall_forall in Ha. specialize (Ha _ (nth_error_In _ _ Nj)). nra.
Qed.

Theorem fd_sample_spec : forall nq tq sobol p N skip delta base, plain_problem p ->
  sobol (N + skip) (p_num_vars p) = Ok base -> unit_points (N + skip) (p_num_vars p) base ->
  let D := p_num_vars p in
  exists p' X, fd_sample nq tq sobol p N skip delta = (p', Ok (map (map Some) X)) /\
    length X = N * (D + 1) /\
    forall i, i < N -> exists a b,
      nth_error base (skip + i) = Some a /\ nth_error X (i * (D + 1)) = Some b /\
      physical (p_bounds p) a b /\ length b = D /\
      (forall j, j < D -> (lower (p_bounds p) j <= nth j b 0 <= upper (p_bounds p) j)%R) /\
      forall j, j < D -> exists r, nth_error X (i * (D + 1) + 1 + j) = Some r /\
        stepped (lower (p_bounds p) j) (upper (p_bounds p) j) delta j b r.
Proof.
  intros nq tq sobol p N skip delta base HP Es HU D.
  destruct (fd_sample_ok nq tq sobol p N skip delta base HP Es HU) as (v & p' & Hv & E).
  destruct HP as (Hn & HL & HB & Hd). destruct HU as [Lb Fb].
  eexists p', _. split; [exact E|]. split.
  - rewrite length_concat_uniform with (k := D + 1).
    + rewrite map_length, seq_length. auto.
    + rewrite Forall_forall. intros x Hx. apply in_map_iff in Hx. destruct Hx as (q & <- & _). apply fd_block_length.
  - intros i Hi. assert (Ni : nth_error base (skip + i) = Some (nth (skip + i) base [])) by (apply nth_error_nth'; lia).
    set (a := nth (skip + i) base []) in *. exists a, (to_physical v a).
    rewrite Forall_forall in Fb. destruct (Fb _ (nth_error_In _ _ Ni)) as [La Fa].
    destruct (unit_physical (p_bounds p) v a HB Hv ltac:(lia) Fa) as (Hph & Lp & Hr).
    split; auto. split.
    { replace (i * (D + 1)) with (i * (D + 1) + 0) by lia. unfold D. rewrite fd_rows by lia. reflexivity. }
    split; auto. split; [unfold D; lia|]. split; [intros j Hj; apply Hr; unfold D in Hj; lia|].
    intros j Hj. unfold D in Hj.
    exists (update (to_physical v a) j (clamp_step (lower (p_bounds p) j) (upper (p_bounds p) j) delta (nth j (to_physical v a) 0%R))).
    split.
    { replace (i * (D + 1) + 1 + j) with (i * (D + 1) + S j) by lia. unfold D. rewrite fd_rows by lia.
      unfold fd_block. cbn [nth_error]. rewrite nth_error_map, nth_error_seq.
      assert (El : j <? p_num_vars p = true) by (apply Nat.ltb_lt; auto). rewrite El. reflexivity. }
    destruct (update_agree R (to_physical v a) j (clamp_step (lower (p_bounds p) j) (upper (p_bounds p) j) delta (nth j (to_physical v a) 0%R)) ltac:(lia)) as [HA Hn'].
    split; auto. cbv zeta. rewrite (nth_error_nth _ _ _ Hn'). apply clamp_step_spec.
    destruct (good_box_pair (p_bounds p) j HB ltac:(lia)). lra.
Qed.

Lemma stepped_same : forall lo up delta j b r, (lo < up)%R -> (lo <= nth j b 0 <= up)%R -> stepped lo up delta j b r ->
  (nth j r 0 = nth j b 0 <->
   nth j b 0 = 0 \/ delta = 0 \/ (nth j b 0 = up /\ 0 < nth j b 0 * delta) \/ (nth j b 0 = lo /\ nth j b 0 * delta < 0))%R.
Proof.
  intros lo up delta j b r Hlt Hb [_ (H1 & H2 & H3 & H4)]. set (x := nth j b 0%R) in *. set (y := nth j r 0%R) in *.
  split.
  - intros Hy. destruct (Req_dec x 0) as [->|Hx]; auto. destruct (Req_dec delta 0) as [->|Hd]; auto.
    assert (x * delta <> 0)%R by (apply Rmult_integral_contrapositive; auto).
    destruct (Rlt_le_dec up (x + x * delta)) as [Hu|Hu]; [specialize (H3 Hu); right; right; left; split; lra|].
    destruct (Rlt_le_dec (x + x * delta) lo) as [Hl|Hl]; [specialize (H4 Hl); right; right; right; split; lra|].
    exfalso. specialize (H2 (conj Hl Hu)). lra.
  - intros [Hx|[Hd|[[Hx Hp]|[Hx Hp]]]].
    + assert (x * delta = 0)%R by (rewrite Hx; ring). rewrite H2; lra.
    + assert (x * delta = 0)%R by (rewrite Hd; ring). rewrite H2; lra.
    + rewrite H3; lra.
    + rewrite H4; lra.
Qed.
