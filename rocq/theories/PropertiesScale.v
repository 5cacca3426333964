(** * Properties C03-C06 (scaling of samples). *)
From Coq Require Import Reals String List Arith Lra Lia.
From Verif Require Import Base ModelGroups ModelScale SpecScale ProofsScale ProofsScale2.
Import ListNotations.
Local Open Scope R_scope.

(** C03: uniform scaling keeps the shape, maps [0,1] into the bounds, endpoints to endpoints, and
    preserves and reflects the strict order within a column.  [applies bounds c j lo up] says that
    row j of [bounds] (or its only row) starts with lo, up. *)
Theorem C03_uniform_scaling : forall m bounds m', wf_mat m ->
  scale_inplace m bounds = (m', Ok tt) ->
  cols m' = cols m /\ length (rows m') = length (rows m) /\ wf_mat m' /\
  (forall i j x, entry (rows m) i j = Some x ->
     exists lo up y, applies bounds (cols m) j lo up /\ lo < up /\
       entry (rows m') i j = Some y /\
       (0 <= x <= 1 -> lo <= y <= up) /\ (x = 0 -> y = lo) /\ (x = 1 -> y = up)) /\
  (forall i i' j x x' y y',
     entry (rows m) i j = Some x -> entry (rows m) i' j = Some x' ->
     entry (rows m') i j = Some y -> entry (rows m') i' j = Some y' ->
     (x < x' <-> y < y')).
Proof. exact scale_in_bounds. Qed.
Print Assumptions C03_uniform_scaling.

Example C03_example :
  scale_inplace (mkMat 2 [[0; 1/2]; [1; 1/4]]) [[10; 20]; [-10; 10]]
  = (mkMat 2 [[0*(20-10)+10; 1/2*(10 - -10) + -10]; [1*(20-10)+10; 1/4*(10 - -10) + -10]], Ok tt).
Proof.
  unfold scale_inplace, check_bounds, any_illegal. cbn -[Rleb]. rdec. reflexivity.
Qed.

(** C04: with one [lower, upper] pair per column, scaling and unscaling succeed or raise
    ValueError, the latter exactly when some lower >= upper. *)
Theorem C04_legal_bounds_iff : forall m bounds,
  pairs bounds -> bounds <> [] -> length bounds = cols m ->
  (forall m' r, scale_inplace m bounds = (m', r) ->
    (r = Ok tt \/ r = Err ValueError) /\
    (r = Err ValueError <-> exists lo up, In [lo; up] bounds /\ up <= lo)) /\
  (forall m' r, unscale_inplace m bounds = (m', r) ->
    (r = Ok tt \/ r = Err ValueError) /\
    (r = Err ValueError <-> exists lo up, In [lo; up] bounds /\ up <= lo)).
Proof. exact scale_rejects_iff. Qed.
Print Assumptions C04_legal_bounds_iff.

(** C04: for every input whatsoever, an exception leaves the caller's array untouched ... *)
Theorem C04_rejection_leaves_samples : forall m bounds m' e,
  (scale_inplace m bounds = (m', Err e) -> m' = m) /\
  (unscale_inplace m bounds = (m', Err e) -> m' = m).
Proof.
  exact (fun m bounds m' e =>
           conj (scale_err_unchanged m bounds m' e) (unscale_err_unchanged m bounds m' e)).
Qed.
Print Assumptions C04_rejection_leaves_samples.

(** ... and the problem unmarked, in the public entry point. *)
Theorem C04_rejection_leaves_problem : forall nq tq m p m' p' e,
  scale_samples nq tq m p = (m', p', Err e) -> m' = m /\ p' = p.
Proof. exact scale_samples_err_unchanged. Qed.
Print Assumptions C04_rejection_leaves_problem.

Example C04_example :
  scale_inplace (mkMat 2 [[0; 1/2]]) [[10; 20]; [3; 3]] = (mkMat 2 [[0; 1/2]], Err ValueError).
Proof.
  unfold scale_inplace, check_bounds, any_illegal. cbn -[Rleb]. rdec. reflexivity.
Qed.

(** C05: unscaling inverts scaling and conversely. *)
Theorem C05_scale_unscale : forall m bounds m', wf_mat m ->
  (scale_inplace m bounds = (m', Ok tt) -> unscale_inplace m' bounds = (m, Ok tt)) /\
  (unscale_inplace m bounds = (m', Ok tt) -> scale_inplace m' bounds = (m, Ok tt)).
Proof.
  exact (fun m bounds m' H => conj (scale_unscale_roundtrip m bounds m' H)
                                   (unscale_scale_roundtrip m bounds m' H)).
Qed.
Print Assumptions C05_scale_unscale.

Example C05_example :
  snd (scale_inplace (mkMat 1 [[1/3]; [2/3]]) [[5; 8]]) = Ok tt /\
  snd (unscale_inplace (mkMat 1 [[6]; [7]]) [[5; 8]]) = Ok tt.
Proof.
  unfold scale_inplace, unscale_inplace, check_bounds, any_illegal. cbn -[Rleb].
  rdec. split; reflexivity.
Qed.

(** C06: non-uniform scaling works column by column, leaves the input array alone, lands in the
    support, preserves strict order, and gives finite values for proper parameters. *)
Theorem C06_nonuniform_scaling : forall nq tq m p m' p' cs,
  truncated_quantile tq -> increasing_on_unit nq -> wf_mat m ->
  scale_samples nq tq m p = (m', p', Ok (Fresh cs)) ->
  m' = m /\ p_scaled p' = true /\ length cs = cols m /\
  (forall c, In c cs -> length c = length (rows m)) /\
  forall j, (j < cols m)%nat ->
  exists b dists d, nth_error (p_bounds p) j = Some b /\ p_dists p = Some dists /\
    nth_error dists j = Some d /\
    (forall i q y, entry (rows m) i j = Some q -> 0 <= q <= 1 ->
       entry cs j i = Some (Some y) -> in_support d b y) /\
    (forall i i' q q' y y',
       entry (rows m) i j = Some q -> entry (rows m) i' j = Some q' ->
       entry cs j i = Some (Some y) -> entry cs j i' = Some (Some y') ->
       (q < q' -> y < y')) /\
    (proper d b -> forall i q, entry (rows m) i j = Some q -> 0 < q < 1 ->
       exists y, entry cs j i = Some (Some y)).
Proof. exact scale_samples_nonuniform. Qed.
Print Assumptions C06_nonuniform_scaling.

(** C06: a column is refused with ValueError exactly for the listed parameter errors. *)
Theorem C06_refused_iff : forall nq tq b d col, (2 <= length b)%nat ->
  (nonuniform_column nq tq b d col = Err ValueError <-> refused d b).
Proof. exact column_refused_iff. Qed.
Print Assumptions C06_refused_iff.

(** C06: proper parameters are accepted (triangles: when the end is not negative). *)
Theorem C06_proper_accepted_partial : forall nq tq d b col, proper d b ->
  (d = "triang"%string -> match b with [_; e; _] => 0 <= e | _ => True end) ->
  exists ys, nonuniform_column nq tq b d col = Ok ys /\
    forall i q, nth_error col i = Some q -> 0 < q < 1 -> exists y, nth_error ys i = Some (Some y).
Proof. exact proper_accepted. Qed.
Print Assumptions C06_proper_accepted_partial.

(** C06: rejection at the public entry point; the caller's data are untouched. *)
Theorem C06_rejections : forall nq tq m p dists,
  p_dists p = Some dists ->
  (cols m <> length dists -> scale_samples nq tq m p = (m, p, Err ValueError)) /\
  (cols m = length dists -> length (p_bounds p) = cols m ->
   (forall b, In b (p_bounds p) -> (2 <= length b)%nat) ->
   (exists j b d, nth_error (p_bounds p) j = Some b /\ nth_error dists j = Some d /\
      refused d b) ->
   exists e, scale_samples nq tq m p = (m, p, Err e)).
Proof. exact scale_samples_rejects. Qed.
Print Assumptions C06_rejections.

(** C06, what fails: "accepted parameters give numbers" is false.  A triangle of zero width and a
    log-uniform with reversed bounds are accepted and every value is nan. *)
Theorem C06_accepted_gives_numbers_refuted :
  exists d b, forall nq tq col,
    exists ys, nonuniform_column nq tq b d col = Ok ys /\
      forall i v, nth_error ys i = Some v -> v = None.
Proof.
  exists "triang"%string, [1; 1; 1/2]. intros nq tq col.
  exists (map (fun _ => None) col). split.
  - apply degenerate_triangle_accepted; lra.
  - intros i v H. rewrite nth_error_map' in H. destruct (nth_error col i); inversion H; auto.
Qed.
Print Assumptions C06_accepted_gives_numbers_refuted.

Theorem C06_logunif_unchecked_refuted : forall nq tq a b col, b <= a ->
  nonuniform_column nq tq [a; b] "logunif" col = Ok (map (fun _ => None) col).
Proof. exact reversed_logunif_accepted. Qed.
Print Assumptions C06_logunif_unchecked_refuted.

(** C06, what fails: a proper triangle on the negative axis is refused. *)
Theorem C06_negative_triangle_refuted : exists s e c,
  proper "triang" [s; e; c] /\
  forall nq tq col, nonuniform_column nq tq [s; e; c] "triang" col = Err ValueError.
Proof.
  exists (-3), (-1), (1/2). split.
  - apply ok_triang3; lra.
  - intros. apply negative_triangle_refused. lra.
Qed.
Print Assumptions C06_negative_triangle_refuted.

(** C06/C07, what fails: a truncated normal declared in a parameter file can never be sampled
    (files carry two bounds per parameter, truncnorm needs four). *)
Theorem C06_truncnorm_file_refuted : forall nq tq rs p m j,
  read_param_file rs = Ok p ->
  match p_dists p with Some ds => nth_error ds j = Some "truncnorm"%string | None => False end ->
  exists e, scale_samples nq tq m p = (m, p, Err e).
Proof. exact file_truncnorm_unusable. Qed.
Print Assumptions C06_truncnorm_file_refuted.

(** A problem meeting the hypotheses of C06_nonuniform_scaling (three columns, three
    distributions); the oracles below satisfy the quantile assumptions. *)
Example C06_example : forall q, 0 < q < 1 ->
  let p := mkProblem 3 ["a"; "b"; "c"]%string [[1; 2]; [1; 3; 1/2]; [2; 1; 0]] None
             (Some ["logunif"; "triang"; "weibull"]%string) false in
  let m := mkMat 3 [[q; q; q]] in
  wf_mat m /\
  truncated_quantile (fun q a b => a + q * (b - a)) /\ increasing_on_unit (fun q => q) /\
  exists cs, scale_samples (fun q => q) (fun q a b => a + q * (b - a)) m p
    = (m, mkProblem 3 ["a"; "b"; "c"]%string [[1; 2]; [1; 3; 1/2]; [2; 1; 0]] None
             (Some ["logunif"; "triang"; "weibull"]%string) true, Ok (Fresh cs)).
Proof.
  intros q Hq p m. split; [repeat constructor|]. split.
  { intros a b Hab. split; intros; nra. }
  split. { intros x x' _ H _. exact H. }
  unfold scale_samples, p, m, nonuniform_scale, nonuniform_column. cbn -[Rleb Rltb].
  rdec. eexists. reflexivity.
Qed.
