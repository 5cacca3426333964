(** * Property C125 (fractional factorial effects in double precision). *)
From Coq Require Import Reals String List Arith ZArith Bool Lia Lra.
From Flocq Require Import Core.
From Verif Require Import Base Arrays ListFacts ModelGroups ModelScale Stats SpecSobol ModelFF SpecFF ModelDouble ModelDouble4 ModelDouble7 SpecError SpecError2 ProofsDouble10 ProofsError3 ProofsError4 ProofsError5.
Import ListNotations.
Local Open Scope R_scope.

(** C125: the same calls raise the same exceptions, the problem ends up the same, and names and pairs are the same; every main and interaction effect is off by at most one
    relative rounding error per run, relative to the mean magnitude of the outputs. *)
Theorem C125_near : forall arr p Y second, arrangement arr -> List.Forall double Y ->
  fst (ff_analyze_fl arr p Y second) = fst (ff_analyze p Y second) /\
  alike (effects_by (fun x y => Rabs (y - x) <= err (length Y) * (mean (map Rabs Y) + tiny))) (snd (ff_analyze p Y second)) (snd (ff_analyze_fl arr p Y second)).
Proof. intros arr p Y second A D. exact (ff_near arr A Y D p second). Qed.
Print Assumptions C125_near.

(** C125: outputs that are integers, or integer multiples of one power of two, with magnitudes that add up to at most 2^53 units, are analysed without any error. *)
Theorem C125_exact : forall arr p second e ks, arrangement arr -> (-1064 <= e)%Z -> (fold_right Z.add 0 (map Z.abs ks) <= 2 ^ 53)%Z ->
  let Y := map (fun k => IZR k * bpow radix2 e) ks in
  ff_analyze_fl arr p Y second = ff_analyze p Y second.
Proof. intros arr p second e ks A E K. exact (ff_exact arr A e ks E K p second). Qed.
Print Assumptions C125_exact.

(** C125: for a linear model, what rounding adds to the main effects, to the dummies (0) and to the interactions (0) stays within that limit. *)
Theorem C125_noise : forall nq tq p, ff_problem p ->
  exists n p' X, ff_sample nq tq p = (p', Ok (InPlace (mkMat n X))) /\ least_power (p_num_vars p) n /\
  forall arr c0 c q, arrangement arr -> (q = p \/ q = p') ->
  let Y := map (fun x => c0 + linear (p_num_vars p) c x) X in
  let limit := err (2 * n) * (mean (map Rabs Y) + tiny) in
  List.Forall double Y -> exists r l, snd (ff_analyze_fl arr q Y true) = Ok r /\ ff_IE r = Some l /\
    (forall j, (j < p_num_vars p)%nat -> exists v, nth_error (ff_ME r) j = Some v /\ Rabs (v - c j * (upper (p_bounds p) j - lower (p_bounds p) j) / 2) <= limit) /\
    (forall j, (p_num_vars p <= j < n)%nat -> exists v, nth_error (ff_ME r) j = Some v /\ Rabs v <= limit) /\
    List.Forall (fun ev => Rabs (snd ev) <= limit) l.
Proof. exact noise. Qed.
Print Assumptions C125_noise.

(** C125: that dummies get exactly 0 is false in double precision: here the outputs are doubles and linear in two of three parameters, and the dummy gets -1/8. *)
Theorem C125_dummy_refuted : exists p Y, p_num_vars p = 3%nat /\ List.Forall double Y /\
  (exists a b X, generate_contrast 3 = Ok X /\ Y = map (fun r => a * IZR (nth 0 r 0%Z) + b * IZR (nth 1 r 0%Z)) X) /\
  (exists r, snd (ff_analyze p Y false) = Ok r /\ nth_error (ff_names r) 3 = Some "dummy_0"%string /\ nth_error (ff_ME r) 3 = Some 0) /\
  (exists r, snd (ff_analyze_fl left_to_right p Y false) = Ok r /\ nth_error (ff_names r) 3 = Some "dummy_0"%string /\ nth_error (ff_ME r) 3 = Some (- / 8)).
Proof.
  exists noisy_p, noisy_Y. split; [reflexivity|]. split.
  - pose proof big_double as D. pose proof one_double as D1. pose proof (ProofsDouble.double_opp _ D). pose proof (ProofsDouble.double_opp _ D1) as D2. replace (- (1)) with (-1) in D2 by lra. unfold noisy_Y. repeat (apply Forall_cons; auto).
  - split; [exact noisy_linear|]. split; [exact noisy_exact|exact noisy_fl].
Qed.
Print Assumptions C125_dummy_refuted.

(** The model of C27_example in double precision, whatever the order of the additions. *)
Example C125_example : forall arr, arrangement arr -> exists r,
  snd (ff_analyze_fl arr (mkProblem 3 ["a"; "b"; "c"]%string [[0; 2]; [1; 4]; [-1; 1]] None None false) (map (fun k => IZR k * bpow radix2 0) [14; -2; 16; 0; 8; 4; 6; 2]%Z) false) = Ok r /\
  ff_ME r = [1; 3; -1; 0] /\ ff_names r = ["a"; "b"; "c"; "dummy_0"]%string.
Proof.
  intros arr A. rewrite C125_exact; [|exact A|discriminate|discriminate]. eexists. split; [unfold ff_analyze; cbn -[Rmult Rdiv INR IZR bpow]; reflexivity|].
  split; [|reflexivity]. cbn [ff_ME]. unfold Rsum. cbn [fold_right]. change (bpow radix2 0) with 1. repeat (f_equal; [simpl; lra|]). f_equal; simpl; lra.
Qed.
