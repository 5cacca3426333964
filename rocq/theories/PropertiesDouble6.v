(** * Properties of the DGSM analysis in double precision. *)
From Coq Require Import Reals String List Arith ZArith Bool.
From Verif Require Import Base Arrays ModelGroups ModelScale Stats ModelFast ModelMorrisAnalyze ModelDgsm SpecDgsm
  ModelDouble ModelDouble4 ModelDouble5 ModelDouble6 SpecDouble3 SpecDouble4 ProofsDouble21 ProofsDouble22.
Import ListNotations.
Local Open Scope R_scope.

(** C115: however numpy arranges its sums, no vi, vi_std, dgsm or dgsm_conf is negative. *)
Theorem C115_signs : forall arr square pi2 nq p X Y cl resample out, dgsm_analyze_fl arr square pi2 nq p X Y cl resample = Ok out ->
  (forall x, 0 <= square x) -> 0 <= pi2 -> 0 <= nq (fl (/ 2 + fl (cl / 2))) ->
  forall v, In (Some v) (d_vi out) \/ In (Some v) (d_vi_std out) \/ In (Some v) (d_dgsm out) \/ In (Some v) (d_conf out) -> 0 <= v.
Proof. exact signs. Qed.
Print Assumptions C115_signs.

(** C115: a parameter whose steps never change the output gets exactly 0 in all four, as far as they are numbers. *)
Theorem C115_ignored : forall arr square pi2 nq p X Y cl resample out j, dgsm_analyze_fl arr square pi2 nq p X Y cl resample = Ok out ->
  let D := p_num_vars p in
  (j < D)%nat -> (forall i, (i < length Y / (D + 1))%nat -> nth (i * (D + 1) + (j + 1)) Y 0 = nth (i * (D + 1)) Y 0) ->
  forall v, nth_error (d_vi out) j = Some (Some v) \/ nth_error (d_vi_std out) j = Some (Some v) \/ nth_error (d_dgsm out) j = Some (Some v) \/ nth_error (d_conf out) j = Some (Some v) -> v = 0.
Proof. exact ignored. Qed.
Print Assumptions C115_ignored.

(** C115: vi and vi_std of a parameter are nan exactly if one of its steps is 0: the rounded difference of two different doubles is never 0. *)
Theorem C115_nan : forall arr square pi2 nq p X Y cl resample out j, dgsm_analyze_fl arr square pi2 nq p X Y cl resample = Ok out -> (forall r x, In r X -> In x r -> double x) ->
  let D := p_num_vars p in
  (j < D)%nat ->
  (nth_error (d_vi out) j = Some None <-> exists i, (i < length Y / (D + 1))%nat /\ step_of X D i j = 0) /\ (nth_error (d_vi_std out) j = Some None <-> nth_error (d_vi out) j = Some None).
Proof. exact nan_steps. Qed.
Print Assumptions C115_nan.

(** C115: outputs of the other sign give the same result, digit by digit. *)
Theorem C115_sign_free : forall arr square pi2 nq p X Y cl resample,
  dgsm_analyze_fl arr square pi2 nq p X (map Ropp Y) cl resample = dgsm_analyze_fl arr square pi2 nq p X Y cl resample.
Proof. exact sign_free. Qed.
Print Assumptions C115_sign_free.

(** C115: with outputs multiplied by c = 2^e, vi, vi_std and dgsm_conf are multiplied by exactly c^2 and dgsm does not change. *)
Theorem C115_unit : forall e a b arr square pi2 nq p X Y cl resample, (0 <= b)%Z -> (a + b <= 40)%Z ->
  let D := p_num_vars p in
  let c := powerRZ 2 e in
  (forall y, In y Y -> sized (- a) y /\ sized (- a) (c * y)) ->
  (forall i j, (i < length Y / (D + 1))%nat -> (j < D)%nat -> Rabs (step_of X D i j) <= powerRZ 2 b) ->
  (Z.of_nat (length Y) <= 2 ^ 53)%Z ->
  (forall j, (Z.of_nat (length (resample j)) <= 2 ^ 53)%Z /\ forall idx, In idx (resample j) -> (Z.of_nat (length idx) <= 2 ^ 53)%Z) ->
  (forall d, In d (p_bounds p) -> let w := square (fl (nth 1 d 0 - nth 0 d 0)) in w = 0 \/ powerRZ 2 (-100) <= Rabs w) -> 1 <= pi2 ->
  (let z := nq (fl (/ 2 + fl (cl / 2))) in z = 0 \/ powerRZ 2 (-100) <= Rabs z) ->
  dgsm_analyze_fl arr square pi2 nq p X (map (Rmult c) Y) cl resample =
  match dgsm_analyze_fl arr square pi2 nq p X Y cl resample with
  | Ok o => Ok (mkDgsm (map (times (c * c)) (d_vi o)) (map (times (c * c)) (d_vi_std o)) (d_dgsm o) (map (times (c * c)) (d_conf o)) (d_names o))
  | Err e => Err e
  end.
Proof. exact dgsm_unit. Qed.
Print Assumptions C115_unit.

(** C115: constant base outputs, for which C39_formula gives nan, give a number (of the order of 10^32) instead: six base outputs of 0.1. *)
Theorem C115_constant_refuted : ~ (forall arr square pi2 nq p X Y b cl resample out v, arrangement arr -> (forall x, 0 <= square x) -> 9 <= pi2 <= 10 -> (forall y, In y Y -> not_tiny y) ->
  (forall i, (i < length Y / (p_num_vars p + 1))%nat -> nth (i * (p_num_vars p + 1)) Y 0 = b) -> dgsm_analyze_fl arr square pi2 nq p X Y cl resample = Ok out -> ~ In (Some v) (d_dgsm out)).
Proof. exact constant_refuted. Qed.
Print Assumptions C115_constant_refuted.

(** Two base points 0 with steps of 1 that do not change the outputs 1 and 2. *)
Example C115_example : forall square nq resample, exists out, dgsm_analyze_fl left_to_right square 9 nq flat_p [[0]; [1]; [0]; [1]] [1; 1; 2; 2] (/ 2) resample = Ok out /\
  d_vi out = [Some 0] /\ d_vi_std out = [Some 0].
Proof. exact dgsm_example. Qed.
