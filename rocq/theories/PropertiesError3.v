(** * Property C126 (how far Morris and DGSM measures in double precision are off). *)
From Coq Require Import Reals String List Arith ZArith Bool Lia Lra.
From Flocq Require Import Core.
From Verif Require Import Base Arrays ModelGroups ModelScale SpecGroups Stats ModelFast ModelMorris ModelMorrisAnalyze ModelDgsm SpecMorris SpecDgsm
  ModelDouble ModelDouble2 ModelDouble4 ModelDouble5 ModelDouble6 SpecDouble3 SpecError ProofsDouble10 ProofsDouble8 ProofsDouble14 ProofsDouble19 ProofsDouble20 ProofsDouble22 ProofsError3 ProofsError6 ProofsError7 ProofsError8.
Import ListNotations.
Local Open Scope R_scope.

(** C126: mu and mu_star of a group are off the means of the exact elementary effects [E i j] and of their magnitudes by at most N + D + 4 roundings of the latter: mu_star is accurate
    relative to itself.  The step of the grid is the exact p / (2 (p - 1)) for up to 2^52 levels p. *)
Theorem C126_morris : forall S nq p ls G N X Y cl levels resample out k x js E, proper p ls G N X Y -> (2 <= levels)%nat -> (Z.of_nat levels <= 2 ^ 52)%Z -> 0 < cl < 1 ->
  snd (morris_analyze_fl S nq p X Y cl false levels resample) = Ok out -> nth_error (m_names out) k = Some x -> members_of ls x js ->
  arrangement (s_einsum S) -> arrangement (s_over S) -> arrangement (s_within S) -> (forall r x, In r (rows X) -> In x r -> double x) -> (forall y, In y Y -> double y) ->
  (forall j, In j js -> one_move (G + 1) (rows X) j /\ forall i, (i < N)%nat -> is_effect (step levels) (block (rows X) (G + 1) i) (block Y (G + 1) i) j (E i j)) ->
  let m := mean (map (fun j => mean (map (fun i => E i j) (seq 0 N))) js) in
  let M := mean (map (fun j => mean (map (fun i => Rabs (E i j)) (seq 0 N))) js) in
  exists mu mu_star, nth_error (m_mu out) k = Some (Some mu) /\ nth_error (m_mu_star out) k = Some (Some mu_star) /\
    Rabs (mu - m) <= err (N + p_num_vars p + 4) * (M + tiny) /\ Rabs (mu_star - M) <= err (N + p_num_vars p + 4) * (M + tiny).
Proof. exact morris_off. Qed.
Print Assumptions C126_morris.

(** C126: but mu is not accurate relative to itself: it is 0 for three trajectories with effects 2^53, 1 and -2^53. *)
Theorem C126_mu_refuted : exists X Y E, proper six_p ["a"%string] 1 3 X Y /\ (forall r x, In r (rows X) -> In x r -> double x) /\ (forall y, In y Y -> double y) /\ one_move 2 (rows X) 0 /\
  (forall i, (i < 3)%nat -> is_effect (step 2) (block (rows X) 2 i) (block Y 2 i) 0 (E i)) /\ 0 < mean (map E (seq 0 3)) /\
  forall nq cl resample, 0 < cl < 1 -> exists out, snd (morris_analyze_fl left_sums nq six_p X Y cl false 2 resample) = Ok out /\ m_mu out = [Some 0].
Proof.
  exists three_X, three_Y, (fun i => nth i lossB 0). split; [exact three_proper|]. split; [apply three_doubles|]. split; [apply three_doubles|]. split; [intros i k k' K K' _ _; lia|].
  split; [exact three_effects|]. split; [rewrite three_mean; lra|]. intros nq cl resample H. destruct (three_result nq cl resample H) as (out & O & _ & M). eauto.
Qed.
Print Assumptions C126_mu_refuted.

(** C126: vi is off the mean square of the exact secant slopes by at most N + 9 roundings relative to itself (up to underflow). *)
Theorem C126_vi : forall arr square pi2 nq p X Y cl resample out j v, arrangement arr -> dgsm_analyze_fl arr square pi2 nq p X Y cl resample = Ok out ->
  (forall r x, In r X -> In x r -> double x) -> (forall y, In y Y -> double y) ->
  let D := p_num_vars p in
  let N := (length Y / (D + 1))%nat in
  (j < D)%nat -> nth_error (d_vi out) j = Some (Some v) ->
  Rabs (v - mean (map (fun i => secant X Y D i j ^ 2) (seq 0 N))) <= err (N + 9) * (mean (map (fun i => (Rabs (secant X Y D i j) + tiny) ^ 2) (seq 0 N)) + tiny).
Proof. intros arr square pi2 nq p X Y cl resample out j v A H DX DY D N J V. exact (proj2 (vi_off arr square pi2 nq A p X Y cl resample out j v H DX DY J V)). Qed.
Print Assumptions C126_vi.

(** C126: dgsm by N + 11, given the computed square of the width and the computed product of variance and pi^2. *)
Theorem C126_dgsm : forall arr square pi2 nq p X Y cl resample out j g b lo hi, arrangement arr -> dgsm_analyze_fl arr square pi2 nq p X Y cl resample = Ok out ->
  (forall r x, In r X -> In x r -> double x) -> (forall y, In y Y -> double y) -> (forall x, 0 <= square x) -> 0 <= pi2 ->
  let D := p_num_vars p in
  let N := (length Y / (D + 1))%nat in
  (j < D)%nat -> nth_error (p_bounds p) j = Some b -> nth_error b 0 = Some lo -> nth_error b 1 = Some hi -> nth_error (d_dgsm out) j = Some (Some g) ->
  let V := fl (var_fl arr (base_outputs Y D N) * pi2) in
  let W := square (fl (hi - lo)) in
  0 < V /\
  Rabs (g - W * mean (map (fun i => secant X Y D i j ^ 2) (seq 0 N)) / V) <=
    err (N + 11) * ((W * (mean (map (fun i => (Rabs (secant X Y D i j) + tiny) ^ 2) (seq 0 N)) + tiny) + tiny) / V + tiny).
Proof. intros arr square pi2 nq p X Y cl resample out j g b lo hi A. exact (dgsm_off arr square pi2 nq A p X Y cl resample out j g b lo hi). Qed.
Print Assumptions C126_dgsm.

(** The six equal effects of C114_example, for which mu and mu_star are off by 2^-56; and two slopes of 2, for which vi is exact. *)
Example C126_example : (exists out, snd (morris_analyze_fl left_sums (fun _ => 2) six_p six_X six_Y (/ 2) false 2 (fun _ => [])) = Ok out /\
    m_mu out = [Some (tenth - bpow radix2 (-56))] /\ m_mu_star out = [Some (tenth - bpow radix2 (-56))]) /\
  (forall square nq resample, exists out, dgsm_analyze_fl left_to_right square 9 nq flat_p [[0]; [1]; [0]; [1]] [0; 2; 1; 3] (/ 2) resample = Ok out /\ d_vi out = [Some 4]) /\
  mean (map (fun i => secant [[0]; [1]; [0]; [1]] [0; 2; 1; 3] 1 i 0 ^ 2) (seq 0 2)) = 4.
Proof.
  split; [|split; [exact slopes_example|unfold secant, mean, Rsum; cbn; field]].
  destruct (six_result (fun _ => 2) (/ 2) (fun _ => []) ltac:(lra)) as (out & s & E & _ & M & Ms & _). eauto.
Qed.
