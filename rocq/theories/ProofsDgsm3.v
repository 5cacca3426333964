(** * Finite-difference design and DGSM together. *)
From Coq Require Import Reals String List Arith ZArith Bool Lia Lra.
From Verif Require Import Base Arrays ListFacts ModelGroups ModelScale ProofsScale Stats Sums SpecSobol SpecFF ProofsSobol6
  ProofsFF ProofsFF2 ProofsFF3 ModelFast ProofsFast2 ModelMorrisAnalyze SpecMorris ProofsMorris2 ProofsMorris5 ProofsMorris6 ProofsMorris7 ProofsMorris9
  ModelSobolSeq SpecSobolSeq ProofsSobolSeq ModelDgsm SpecDgsm ProofsDgsm ProofsDgsm2.
Import ListNotations.
Local Open Scope nat_scope.

(** ** Rescaling the outputs *)
Lemma secant_affine : forall X Y D i j a b, i * (D + 1) < length Y -> i * (D + 1) + 1 + j < length Y ->
  secant X (map (fun y => a * y + b)%R Y) D i j = (a * secant X Y D i j)%R.
Proof.
  intros X Y D i j a b H1 H2. unfold secant. rewrite !(nth_map_in _ _ _ Y _ 0%R) by auto. unfold Rdiv. ring.
Qed.

Lemma base_affine : forall Y D N a b, length Y = N * (D + 1) -> 0 < N ->
  var (base_outputs (map (fun y => a * y + b)%R Y) D N) = (a ^ 2 * var (base_outputs Y D N))%R.
Proof.
  intros Y D N a b LY HN. rewrite <- var_affine with (b := b).
  - f_equal. unfold base_outputs. rewrite map_map. apply map_ext_in. intros i Hi. apply in_seq in Hi.
    apply (nth_map_in _ _ (fun y => a * y + b)%R Y _ 0%R). nia.
  - unfold base_outputs. destruct N; [lia|discriminate].
Qed.

Lemma dgsm_affine : forall nq p X Y N cl resample a b out out', let D := p_num_vars p in
  plain_problem p -> block_rows D N X -> length Y = N * (D + 1) -> 0 < N -> (0 < cl < 1)%R ->
  (forall j, valid_resample N (resample j)) -> a <> 0%R ->
  dgsm_analyze nq p X Y cl resample = Ok out ->
  dgsm_analyze nq p X (map (fun y => a * y + b)%R Y) cl resample = Ok out' ->
  d_vi out' = map (option_map (Rmult (a ^ 2))) (d_vi out) /\ d_dgsm out' = d_dgsm out.
Proof.
  intros nq p X Y N cl resample a b out out' D HP HX LY HN Hc HR Ha E E'.
  assert (LY' : length (map (fun y => a * y + b)%R Y) = N * (D + 1)) by (rewrite map_length; auto).
  destruct (dgsm_formula nq p X Y N cl resample LY HN HP HR Hc HX) as (o & Eo & _ & L1 & _ & L3 & _ & H).
  destruct (dgsm_formula nq p X (map (fun y => a * y + b)%R Y) N cl resample LY' HN HP HR Hc HX) as (o' & Eo' & _ & L1' & _ & L3' & _ & H').
  assert (o = out) by congruence. assert (o' = out') by congruence. subst o o'.
  assert (HJ : forall j, j < D -> nth_error (d_vi out') j = option_map (option_map (Rmult (a ^ 2))) (nth_error (d_vi out) j) /\
     nth_error (d_dgsm out') j = nth_error (d_dgsm out) j).
  { intros j Hj. destruct (H j Hj) as [Hs Hz]. destruct (H' j Hj) as [Hs' Hz'].
    assert (DEC : (forall i, i < N -> step_of X D i j <> 0%R) \/ exists i, i < N /\ step_of X D i j = 0%R).
    { assert (HD : forall n, (forall i, i < n -> step_of X D i j <> 0%R) \/ exists i, i < n /\ step_of X D i j = 0%R).
      { induction n as [|n IH]; [left; lia|]. destruct IH as [IH|(i & Hi & Ei)]; [|right; exists i; split; auto].
        destruct (Req_dec (step_of X D n j) 0) as [E0|E0]; [right; exists n; auto|].
        left. intros i Hi. assert (i < n \/ i = n) as [Hin| ->] by lia; auto. }
      apply HD. }
    destruct DEC as [DEC|DEC].
    - specialize (Hs DEC). specialize (Hs' DEC). cbv zeta in Hs, Hs'. destruct Hs as (V1 & _ & V3 & _). destruct Hs' as (V1' & _ & V3' & _).
      assert (EM : mean (map (fun i => secant X (map (fun y => a * y + b)%R Y) D i j ^ 2)%R (seq 0 N))
        = (a ^ 2 * mean (map (fun i => secant X Y D i j ^ 2)%R (seq 0 N)))%R).
      { rewrite <- mean_map_scal. f_equal. apply map_ext_in. intros i Hi. apply in_seq in Hi.
        rewrite secant_affine by (fold D in LY; nia). ring. }
      split.
      + etransitivity; [exact V1'|]. rewrite V1. cbn [option_map]. do 2 f_equal. exact EM.
      + etransitivity; [exact V3'|]. rewrite V3. f_equal. fold D. rewrite base_affine by auto.
        assert (a ^ 2 <> 0)%R by (apply pow_nonzero; auto).
        destruct (Req_EM_T (var (base_outputs Y D N)) 0) as [Ez|Hz0].
        * destruct (Req_EM_T (a ^ 2 * var (base_outputs Y D N)) 0) as [|n]; auto. exfalso. apply n. rewrite Ez. ring.
        * destruct (Req_EM_T (a ^ 2 * var (base_outputs Y D N)) 0) as [E0|n].
          { apply Rmult_integral in E0. tauto. }
          f_equal. etransitivity; [apply f_equal with (f := fun m => (m * (upper (p_bounds p) j - lower (p_bounds p) j) ^ 2 /
            (a ^ 2 * var (base_outputs Y D N) * PI ^ 2))%R); exact EM|].
          field. repeat split; auto. apply PI_neq0.
    - specialize (Hz DEC). specialize (Hz' DEC). destruct Hz as (V1 & _ & V3). destruct Hz' as (V1' & _ & V3').
      split; [etransitivity; [exact V1'|]; rewrite V1; reflexivity|congruence]. }
  assert (HO : forall l l' : list fval, length l = D -> length l' = D -> (forall j, j < D -> nth_error l j = nth_error l' j) -> l = l').
  { intros l l' Ll Ll' Hl. apply nth_error_ext'. intros j. destruct (Nat.ltb_spec j D) as [Hj|Hj]; auto.
    transitivity (@None fval); [|symmetry]; apply nth_error_None; lia. }
  split; apply HO; auto.
  - rewrite map_length. auto.
  - intros j Hj. rewrite nth_error_map. apply HJ. auto.
  - intros j Hj. apply HJ. auto.
Qed.

(** ** Sampler and analyser *)
Lemma fd_difference_design : forall nq tq sobol p N skip delta base, plain_problem p ->
  sobol (N + skip) (p_num_vars p) = Ok base -> length base = N + skip ->
  Forall (fun r => length r = p_num_vars p /\ Forall (fun x => 0 <= x < 1)%R r) base ->
  (forall j, j < p_num_vars p -> (0 < lower (p_bounds p) j)%R) -> (0 < delta)%R ->
  exists p' X, fd_sample nq tq sobol p N skip delta = (p', Ok (map (map Some) X)) /\
    difference_design (p_num_vars p) N X.
Proof.
  intros nq tq sobol p N skip delta base HP Es Lb Fb Hlo Hd.
  destruct (fd_sample_spec nq tq sobol p N skip delta base HP Es) as (p' & X & E & LX & H).
  { split; auto. eapply Forall_impl; [|exact Fb]. intros r [L F]. split; auto. eapply Forall_impl; [|exact F].
    intros x Hx. lra. }
  destruct HP as (Hn & HL & HB & Hdist).
  exists p', X. split; auto. split; auto. intros i Hi. destruct (H i Hi) as (a & b & Ha & Hb & Hph & L & Hr & Hst).
  exists b. split; auto. split; auto. intros j Hj. destruct (Hst j Hj) as (r & Er & S). exists r. split; auto.
  split; [apply S|]. specialize (Hr j Hj). specialize (Hlo j Hj).
  destruct (good_box_pair (p_bounds p) j HB ltac:(lia)) as [Hp Hlt].
  intros Eq. apply (stepped_same _ _ _ _ _ _ Hlt Hr S) in Eq.
  assert (Hup : (nth j b 0 < upper (p_bounds p) j)%R).
  { rewrite Forall_forall in Fb. destruct (Fb a (nth_error_In _ _ Ha)) as [La Fa].
    assert (Na : nth_error a j = Some (nth j a 0%R)) by (apply nth_error_nth'; lia).
    destruct Hph as [_ Hph]. specialize (Hph j _ _ _ Na Hp). rewrite (nth_error_nth _ _ _ Hph).
    rewrite Forall_forall in Fa. specialize (Fa _ (nth_error_In _ _ Na)). nra. }
  assert (0 < nth j b 0 * delta)%R by (apply Rmult_lt_0_compat; lra).
  destruct Eq as [Eq|[Eq|[[Eq _]|[_ Eq]]]]; lra.
Qed.


Theorem fd_dgsm_pipeline : forall nq tq bits p N skip delta cl resample c0 c,
  plain_problem p -> 0 < N -> (0 < cl < 1)%R -> (0 < delta)%R ->
  enough_bits bits (N + skip) -> bits (N + skip) <= 31 -> p_num_vars p <= length directions + 1 ->
  (forall j, j < p_num_vars p -> (0 < lower (p_bounds p) j)%R) ->
  (forall j, valid_resample N (resample j) /\ 2 <= length (resample j)) ->
  let D := p_num_vars p in
  exists p' X, fd_sample nq tq (sequence_sample bits directions) p N skip delta = (p', Ok (map (map Some) X)) /\
    let Y := map (fun x => c0 + linear D c x)%R X in
    (var (base_outputs Y D N) <> 0%R ->
     exists out, dgsm_analyze nq p X Y cl resample = Ok out /\
       forall j, j < D -> recovered p Y N out j (c j ^ 2)%R).
Proof.
  intros nq tq bits p N skip delta cl resample c0 c HP HN Hc Hd HBits H31 HD Hlo HR D.
  destruct (sequence_total directions (N + skip) (p_num_vars p) bits directions_good HBits) as [[Ht _] _].
  destruct Ht as [base Eb]; [split; [lia|auto]|].
  destruct (sequence_range directions _ _ bits base directions_good HBits Eb) as (Lb & Fb & _).
  destruct (fd_difference_design nq tq (sequence_sample bits directions) p N skip delta base HP Eb Lb Fb Hlo Hd) as (p' & X & E & HX).
  exists p', X. split; auto. cbv zeta. intros Hv. apply dgsm_linear; auto.
Qed.

Theorem origin_nan : forall nq tq bits p N delta cl resample p' X Y j,
  plain_problem p -> 0 < N -> (0 < cl < 1)%R -> enough_bits bits N ->
  fd_sample nq tq (sequence_sample bits directions) p N 0 delta = (p', Ok (map (map Some) X)) ->
  length Y = N * (p_num_vars p + 1) -> (forall j, valid_resample N (resample j)) ->
  j < p_num_vars p -> lower (p_bounds p) j = 0%R ->
  exists out, dgsm_analyze nq p X Y cl resample = Ok out /\
    nth_error (d_vi out) j = Some None /\ nth_error (d_dgsm out) j = Some None.
Proof.
  intros nq tq bits p N delta cl resample p' X Y j HP HN Hc HBits E LY HR Hj Hlo.
  destruct (sequence_sample bits directions (N + 0) (p_num_vars p)) as [base|e] eqn:Eb;
    [|unfold fd_sample in E; rewrite Eb in E; discriminate].
  rewrite Nat.add_0_r in Eb.
  destruct (sequence_range directions N _ bits base directions_good HBits Eb) as (Lb & Fb & H0).
  replace N with (N + 0) in Eb, Lb by lia.
  destruct (fd_sample_spec nq tq (sequence_sample bits directions) p N 0 delta base HP Eb) as (q & X' & E' & LX & H).
  { split; auto. eapply Forall_impl; [|exact Fb]. intros r [L F]. split; auto. eapply Forall_impl; [|exact F].
    intros x Hx. lra. }
  assert (X' = X).
  { rewrite E in E'. injection E' as _ E'. clear - E'. revert X' E'. induction X as [|r X IH]; intros [|r' X'] E'; try discriminate; auto.
    simpl in E'. injection E' as E1 E2. f_equal; [|auto]. clear - E1. revert r' E1.
    induction r as [|x r IH]; intros [|x' r'] E1; try discriminate; auto. simpl in E1. injection E1 as -> E2. f_equal. auto. }
  subst X'.
  assert (HX : block_rows (p_num_vars p) N X).
  { split; auto. rewrite Forall_forall. intros r Hr. apply In_nth_error in Hr. destruct Hr as [k Hk].
    assert (Hl : k < length X) by (apply nth_error_Some; congruence). rewrite LX in Hl.
    set (D := p_num_vars p) in *.
    assert (Hi : k / (D + 1) < N) by (apply Nat.div_lt_upper_bound; lia).
    pose proof (Nat.div_mod k (D + 1) ltac:(lia)) as Ek. pose proof (Nat.mod_upper_bound k (D + 1) ltac:(lia)) as Hm.
    set (i := k / (D + 1)) in *. set (m := k mod (D + 1)) in *.
    destruct (H i Hi) as (a & b & _ & Hb & _ & L & _ & Hs). clearbody m i. destruct m as [|m].
    - rewrite Ek in Hk. replace ((D + 1) * i + 0) with (i * (D + 1)) in Hk by lia. congruence.
    - destruct (Hs m ltac:(lia)) as (r' & Hr' & [[La _] _]).
      replace k with (i * (D + 1) + 1 + m) in Hk by lia. assert (r = r') by congruence. subst. congruence. }
  destruct (dgsm_formula nq p X Y N cl resample LY HN HP HR Hc HX) as (out & Eo & _ & _ & _ & _ & _ & Hf).
  exists out. split; auto. destruct (Hf j Hj) as [_ Hz]. destruct Hz as (A & _ & B); auto.
  exists 0. split; auto. destruct (H 0 HN) as (a & b & Ha & Hb & [_ Hph] & L & Hr & Hst).
  destruct (Hst j Hj) as (r & Er & S). destruct HP as (Hn & HL & HB & Hdist).
  destruct (good_box_pair (p_bounds p) j HB ltac:(lia)) as [Hp Hlt].
  assert (Hz : nth j b 0%R = 0%R).
  { apply nth_error_nth. rewrite Nat.add_0_l in Ha. rewrite H0 in Ha. injection Ha as <-.
    rewrite (Hph j 0%R _ _ ltac:(rewrite nth_error_repeat; destruct (Nat.ltb_spec j (p_num_vars p)); [auto|lia]) Hp), Hlo.
    f_equal. ring. }
  unfold step_of. rewrite (nth_error_nth _ _ _ Hb), (nth_error_nth _ _ _ Er).
  rewrite (proj2 (stepped_same _ _ _ _ _ _ Hlt (Hr j Hj) S) (or_introl Hz)). ring.
Qed.

(** ** Normal inputs *)
Definition normal_problem : problem := mkProblem 1 ["a"]%string [[2; 1]]%R None (Some ["norm"%string]) false.

Lemma normal_clamped : forall nq tq q delta, (0 < q < 1)%R -> exists p',
  fd_sample nq tq (fun _ _ => Ok [[q]]) normal_problem 1 0 delta = (p', Ok [[Some (2 + 1 * nq q)%R]; [Some 2%R]]).
Proof.
  intros nq tq q delta Hq. eexists. unfold fd_sample, normal_problem. cbn -[Rplus Rmult Rmax Rmin Rltb Rleb Reqb].
  rewrite (proj2 (Rleb_false 1 0)) by lra. cbn [bind].
  unfold norm_ppf. rewrite (proj2 (Rltb_true 0 q)), (proj2 (Rltb_true q 1)) by lra.
  cbn -[Rplus Rmult Rmax Rmin]. do 2 f_equal. do 3 f_equal. f_equal.
  unfold Rmax, Rmin. destruct (Rle_dec _ 1); destruct (Rle_dec _ 2); try reflexivity; lra.
Qed.
