(** * Properties C22-C25 (extended FAST). *)
From Coq Require Import Reals String List Arith ZArith Lia Lra.
From Verif Require Import Base Arrays ModelGroups ModelScale Stats SpecSobol ModelFast SpecFast ProofsFast ProofsFast2 ProofsFast3.
Import ListNotations.
Local Open Scope nat_scope.

(** C22: the sampler finds frequencies exactly when N > 4M^2 with M, D positive. *)
Theorem C22_accepts : forall N M D,
  (exists wc, fast_frequencies N M D = Ok wc) <-> (4 * M ^ 2 < N /\ 1 <= M /\ 1 <= D).
Proof. exact frequencies_total. Qed.
Print Assumptions C22_accepts.

(** C22: then the harmonics of the driver stay below the Nyquist index; the complementary
    frequencies lie in 1..m, their first M harmonics stay in the lower half of the band below the
    driver, and they are distinct as long as there are at most m of them. *)
Theorem C22_frequencies : forall N M D w0 comp, fast_frequencies N M D = Ok (w0, comp) ->
  length comp = D - 1 /\ 2 * M * w0 < N /\ N <= 2 * M * (w0 + 1) /\
  exists m, 1 <= m /\ 2 * M * m <= w0 /\ w0 < 2 * M * (m + 1) /\
    (forall w, In w comp -> 1 <= w <= m /\ M * w <= w0 / 2) /\
    (D - 1 <= m -> NoDup comp) /\
    (m < D - 1 -> forall w, 1 <= w <= m -> In w comp).
Proof. exact frequencies_spec. Qed.
Print Assumptions C22_frequencies.

Example C22_example : fast_frequencies 65 4 4 = Ok (8, [1; 1; 1]) /\
  fast_frequencies 1000 4 4 = Ok (124, [1; 8; 15]) /\ fast_frequencies 64 4 4 = Err ValueError.
Proof. repeat split; reflexivity. Qed.

(** C23: N*D rows of D values in [0,1]; in block i parameter i follows the curve at the driver
    frequency and the others at the complementary frequencies in order. *)
Theorem C23_unit_sample : forall N M D u, 4 * M ^ 2 < N -> 1 <= M -> 1 <= D ->
  exists w0 comp rs, fast_frequencies N M D = Ok (w0, comp) /\ fast_unit N M D u = Ok rs /\
  length rs = N * D /\ Forall (fun r => length r = D) rs /\
  forall i k j, i < D -> k < N -> j < D ->
    exists w x, frequency_of w0 comp i j w /\ entry rs (i * N + k) j = Some x /\
      on_curve (INR w * (2 * PI / INR N * INR k) + 2 * PI * u i)%R x.
Proof. exact fast_unit_spec. Qed.
Print Assumptions C23_unit_sample.

(** C23: the returned sample, in parameter units and within the bounds. *)
Theorem C23_sample : forall nq tq p N M u,
  4 * M ^ 2 < N -> 1 <= M -> p_dists p = None -> 0 < p_num_vars p ->
  length (p_bounds p) = p_num_vars p -> good_box (p_bounds p) ->
  exists p' m w0 comp, fast_sample nq tq p N M u = (p', Ok (InPlace m)) /\
    fast_frequencies N M (p_num_vars p) = Ok (w0, comp) /\
    length (rows m) = N * p_num_vars p /\ Forall (fun r => length r = p_num_vars p) (rows m) /\
    forall i k j lo up, i < p_num_vars p -> k < N -> nth_error (p_bounds p) j = Some [lo; up] ->
      exists w x, frequency_of w0 comp i j w /\
        on_curve (INR w * (2 * PI / INR N * INR k) + 2 * PI * u i)%R x /\
        entry (rows m) (i * N + k) j = Some (lo + x * (up - lo))%R /\ (lo <= lo + x * (up - lo) <= up)%R.
Proof. exact fast_public. Qed.
Print Assumptions C23_sample.

Theorem C23_refused : forall N M D u, ~ (4 * M ^ 2 < N /\ 1 <= M /\ 1 <= D) ->
  exists e, fast_unit N M D u = Err e /\ (N <= 4 * M ^ 2 -> e = ValueError).
Proof. exact fast_refused. Qed.
Print Assumptions C23_refused.

(** The search curve is determined by the condition used above. *)
Theorem C23_curve_unique : forall a x x', on_curve a x -> on_curve a x' -> x = x'.
Proof. exact on_curve_unique. Qed.
Print Assumptions C23_curve_unique.

Example C23_example : frequency_of 124 [1; 8; 15] 1 0 1 /\ frequency_of 124 [1; 8; 15] 1 1 124 /\
  frequency_of 124 [1; 8; 15] 1 3 15 /\ on_curve 0 (1 / 2).
Proof.
  unfold frequency_of, on_curve. split; [right; left; auto|]. split; [left; auto|].
  split; [right; right; split; auto|]. split; [lra|]. replace (PI * (1 / 2 - 1 / 2))%R with 0%R by ring. auto.
Qed.

(** C24/C25: the rows of the analysis.  [orders_ok] gives S1 and ST of block i as ratios of spectral
    power of the block's own outputs and says 0 <= S1 <= ST <= 1, both nan when there is no power. *)
Theorem C24_orders : forall D N M bnd draws Y, 0 < D -> 1 <= M -> 4 * M < N -> length Y = N * D ->
  (forall i, i < D -> good_draws N (draws i)) ->
  exists res, fast_analyze D Y M bnd draws = Ok res /\ length res = D /\
    forall i r, nth_error res i = Some r ->
      orders_ok (map (fun k => nth (i * N + k) Y 0%R) (seq 0 N)) M (f_S1 r) (f_ST r) /\
      ((0 <= bnd)%R -> (forall x, f_S1c r = Some x -> 0 <= x)%R /\ (forall x, f_STc r = Some x -> 0 <= x)%R).
Proof. exact fast_analyze_spec. Qed.
Print Assumptions C24_orders.

(** C24: the power the indices are relative to is the output variance (N odd), or the variance less
    the share of the highest frequency (N even). *)
Theorem C24_variance : forall y,
  (Nat.Odd (length y) -> 2 * band y (visible (length y)) = var y)%R /\
  (y <> [] -> Nat.Even (length y) ->
     2 * band y (visible (length y)) = var y - (alternating y / INR (length y)) ^ 2)%R.
Proof. exact (fun y => conj (visible_variance_odd y) (visible_variance_even y)). Qed.
Print Assumptions C24_variance.

(** The analyser does not insist on a FAST-sized sample: with 3 outputs and M = 4 it reports S1 = 4. *)
Theorem C24_any_size_refuted : ~ (forall D Y M bnd draws res r s1, 0 < D ->
  fast_analyze D Y M bnd draws = Ok res -> In r res -> f_S1 r = Some s1 -> (s1 <= 1)%R).
Proof.
  intros H.
  assert (4 <= 1)%R; [|lra].
  apply (H 1 [1; 0; 0]%R 4 0%R (fun _ => []) _ (mkFast (Some 4%R) (Some 1%R) None None) 4%R
           ltac:(lia) (small_design 1 0%R eq_refl)); simpl; auto.
Qed.
Print Assumptions C24_any_size_refuted.

Example C24_example : 4 * 1 < 5 /\ good_draws 5 [[0; 1; 4]; [2; 2; 2]] /\
  (var [1; 0; 0] = 2 / 9)%R /\ Nat.Odd (length [1; 0; 0]%R).
Proof.
  split; [lia|]. split.
  - intros idx [<-|[<-|[]]]; (split; [reflexivity|]); simpl; intros i Hi; lia.
  - split; [|exists 1; reflexivity]. unfold var, mean, Rsum. simpl. field.
Qed.

(** C25: analysing the values of a model on the design, row i of the result is computed from the
    model's values on the block in which parameter i has the driver frequency. *)
Theorem C25_blocks : forall nq tq p N M u (f : list R -> R) bnd draws,
  4 * M ^ 2 < N -> 1 <= M -> p_dists p = None -> 0 < p_num_vars p ->
  length (p_bounds p) = p_num_vars p -> good_box (p_bounds p) ->
  (forall i, i < p_num_vars p -> good_draws N (draws i)) ->
  exists p' m res w0 comp, fast_sample nq tq p N M u = (p', Ok (InPlace m)) /\
    fast_frequencies N M (p_num_vars p) = Ok (w0, comp) /\
    fast_analyze (p_num_vars p) (map f (rows m)) M bnd draws = Ok res /\ length res = p_num_vars p /\
    forall i r, nth_error res i = Some r -> exists block, length block = N /\
      orders_ok (map f block) M (f_S1 r) (f_ST r) /\
      forall k row, nth_error block k = Some row -> length row = p_num_vars p /\
        nth_error (rows m) (i * N + k) = Some row /\
        forall j lo up, nth_error (p_bounds p) j = Some [lo; up] ->
          exists w x, frequency_of w0 comp i j w /\
            on_curve (INR w * (2 * PI / INR N * INR k) + 2 * PI * u i)%R x /\
            nth_error row j = Some (lo + x * (up - lo))%R.
Proof. exact fast_end_to_end. Qed.
Print Assumptions C25_blocks.

Theorem C25_rejected : forall D Y M bnd draws,
  (D = 0 -> fast_analyze D Y M bnd draws = Err ZeroDivisionError) /\
  (0 < D -> length Y mod D <> 0 -> fast_analyze D Y M bnd draws = Err ValueError).
Proof. exact analyze_errors. Qed.
Print Assumptions C25_rejected.

Definition fast_problem : problem :=
  mkProblem 2 ["x"; "y"]%string [[0; 1]; [-1; 1]]%R None None false.
Example C25_example : 4 * 1 ^ 2 < 5 /\ good_box (p_bounds fast_problem) /\
  (forall i, i < 2 -> good_draws 5 [[0; 1; 4]]) /\
  fast_analyze 2 [1; 2; 3]%R 1 0 (fun _ => []) = Err ValueError.
Proof.
  split; [simpl; lia|]. split.
  - unfold good_box. simpl. repeat constructor; eexists; eexists; (split; [reflexivity|lra]).
  - split; [|reflexivity]. intros i Hi idx [<-|[]]. split; [reflexivity|]. simpl; intros; lia.
Qed.
