(** * Property C131 (how far the confidence intervals of Morris and DGSM in double precision are off). *)
From Coq Require Import Reals String List Arith ZArith Bool Lia Lra.
From Flocq Require Import Core.
From Verif Require Import Base Arrays ModelGroups ModelScale SpecGroups Stats ModelFast ModelMorris ModelMorrisAnalyze ModelDgsm SpecMorris SpecDgsm
  ModelDouble ModelDouble2 ModelDouble4 ModelDouble5 ModelDouble6 SpecDouble3 SpecError SpecError3 ProofsDouble14 ProofsDouble19 ProofsDouble22 ProofsError8 ProofsError13 ProofsError14.
Import ListNotations.
Local Open Scope R_scope.

(** C131: mu_star_conf of a group, from R resamples of the N trajectories, is off the mean over the members of z times the deviation of the exact resampled means by at most
    2R + N + D + 10 roundings of z times three times the root mean square of these means; z is the computed quantile. *)
Theorem C131_conf : forall S nq p ls G N X Y cl levels resample out k x js E R s, proper p ls G N X Y -> (2 <= levels)%nat -> (Z.of_nat levels <= 2 ^ 52)%Z -> 0 < cl < 1 ->
  snd (morris_analyze_fl S nq p X Y cl false levels resample) = Ok out -> nth_error (m_names out) k = Some x -> members_of ls x js ->
  arrangement (s_einsum S) -> arrangement (s_over S) -> arrangement (s_within S) -> arrangement (s_again S) -> (forall r x, In r (rows X) -> In x r -> double x) -> (forall y, In y Y -> double y) ->
  (forall j, In j js -> one_move (G + 1) (rows X) j /\ forall i, (i < N)%nat -> is_effect (step levels) (block (rows X) (G + 1) i) (block Y (G + 1) i) j (E i j)) ->
  (forall j, In j js -> length (resample j) = R /\ forall idx, In idx (resample j) -> length idx = N /\ forall t, In t idx -> (t < N)%nat) ->
  (forall j, In j js -> sd1 (boot (fun t => E t j) (resample j)) = Some (s j)) ->
  let z := nq (fl (/ 2 + fl (cl / 2))) in
  let Q := mean (map (fun j => Rabs z * (3 * rms (boot (fun t => E t j) (resample j)) + bpow radix2 (-455))) js) in
  exists conf, nth_error (m_conf out) k = Some (Some conf) /\ Rabs (conf - mean (map (fun j => z * s j) js)) <= err (2 * R + N + p_num_vars p + 10) * (Q + tiny).
Proof. exact morris_conf_off. Qed.
Print Assumptions C131_conf.

(** C131: dgsm_conf, from R resamples of the N base points, is off z times the deviation of the exact resampled means of the squared secant slopes by at most 2R + N + 15 roundings of
    z times three times the root mean square of these means (up to underflow). *)
Theorem C131_dgsm_conf : forall arr square pi2 nq p X Y cl resample out j v, arrangement arr -> dgsm_analyze_fl arr square pi2 nq p X Y cl resample = Ok out ->
  (forall r x, In r X -> In x r -> double x) -> (forall y, In y Y -> double y) ->
  let D := p_num_vars p in
  let N := (length Y / (D + 1))%nat in
  let idxs := resample j in
  (j < D)%nat -> (forall idx, In idx idxs -> length idx = N /\ forall t, In t idx -> (t < N)%nat) -> nth_error (d_conf out) j = Some (Some v) ->
  let z := nq (fl (/ 2 + fl (cl / 2))) in
  let B := map (fun idx => mean (map (fun i => secant X Y D i j ^ 2) idx)) idxs in
  let W := map (fun idx => mean (map (fun i => (Rabs (secant X Y D i j) + tiny) ^ 2 + tiny) idx)) idxs in
  exists s, sd1 B = Some s /\ Rabs (v - z * s) <= err (2 * length idxs + N + 15) * (Rabs z * (3 * rms W + bpow radix2 (-456)) + tiny).
Proof. intros arr square pi2 nq p X Y cl resample out j v A. exact (dgsm_conf_off arr square pi2 nq A p X Y cl resample out j v). Qed.
Print Assumptions C131_dgsm_conf.

(** Squared slopes 4 and 0, resampled to means 4, 2 and 0; and effects 1, 3 and 5, each resampled alone: means 1, 3 and 5, deviation 2, and 4 for z = 2. *)
Example C131_example : (exists out, snd (morris_analyze_fl left_sums (fun _ => 2) six_p three_X odd_Y (/ 2) false 2 (fun _ => odd_resample)) = Ok out /\ m_conf out = [Some 4]) /\
  sd1 (boot (fun t => nth t odds 0) odd_resample) = Some 2 /\
  (forall square, exists out, dgsm_analyze_fl left_to_right square 9 (fun _ => 2) flat_p [[0]; [1]; [0]; [1]] [0; 2; 1; 1] (/ 2) (fun _ => [[0; 0]; [0; 1]; [1; 1]]%nat) = Ok out /\ d_conf out = [Some 4]).
Proof.
  split; [exact odd_result|split; [|exact slopes_conf]]. assert (B : boot (fun t => nth t odds 0) odd_resample = [1; 3; 5]).
  { unfold boot, odd_resample, odds. cbn [map nth]. rewrite !Rabs_pos_eq by lra. unfold mean, Rsum. cbn [map fold_right length]. repeat f_equal; simpl; field. }
  rewrite B. assert (M : mean [1; 3; 5] = 3) by (unfold mean, Rsum; simpl; field). unfold sd1. rewrite M. cbn [length Nat.ltb Nat.leb Nat.sub map]. f_equal.
  rewrite <- (sqrt_square 2) by lra. f_equal. unfold Rsum. cbn [fold_right]. simpl INR. field.
Qed.
