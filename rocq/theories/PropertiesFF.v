(** * Properties C26-C29, C64 (fractional factorial designs). *)
From Coq Require Import Reals String List Arith ZArith Lia Lra.
From Verif Require Import Base Arrays ModelGroups ModelScale Stats SpecSobol ModelFF SpecFF ProofsFF ProofsFF2 ProofsFF3.
Import ListNotations.
Local Open Scope nat_scope.

(** C26: the contrast matrix for up to 512 parameters. *)
Theorem C26_contrast : forall d, d <= 512 ->
  exists n X, generate_contrast d = Ok X /\ least_power d n /\ length X = 2 * n /\
    Forall (fun r => length r = n /\ Forall (fun z => z = 1 \/ z = -1)%Z r) X /\
    (forall a b, a < n -> b < n -> a <> b -> inner X a b = 0%Z) /\
    (forall a, a < n -> inner X a a = (2 * Z.of_nat n)%Z) /\
    (forall a, a < n -> column_sum X a = 0%Z).
Proof. exact contrast_balanced. Qed.
Print Assumptions C26_contrast.

(** C26: the sample uses the two bounds of every (real or dummy) parameter equally often, and the
    second half of the runs mirrors the first. *)
Theorem C26_sample : forall nq tq p, ff_problem p ->
  exists n p' X, ff_sample nq tq p = (p', Ok (InPlace (mkMat n X))) /\
    least_power (p_num_vars p) n /\ length X = 2 * n /\ Forall (fun x => length x = n) X /\
    (forall j, j < n ->
       times X j (lower (p_bounds p') j) = n /\ times X j (upper (p_bounds p') j) = n) /\
    (forall r j, r < n -> j < n ->
       (entry X r j = Some (lower (p_bounds p') j) /\ entry X (n + r) j = Some (upper (p_bounds p') j)) \/
       (entry X r j = Some (upper (p_bounds p') j) /\ entry X (n + r) j = Some (lower (p_bounds p') j))).
Proof. exact design_sample. Qed.
Print Assumptions C26_sample.

Example C26_example : generate_contrast 3 =
  Ok [[1;1;1;1]; [1;-1;1;-1]; [1;1;-1;-1]; [1;-1;-1;1];
      [-1;-1;-1;-1]; [-1;1;-1;1]; [-1;-1;1;1]; [-1;1;1;-1]]%Z.
Proof. reflexivity. Qed.

(** C27: reported main effects are averages of the output against the coded factor, whatever the
    outputs and whether the problem is passed before or after the sampler padded it. *)
Theorem C27_formula : forall nq tq p, ff_problem p ->
  exists n p' X, ff_sample nq tq p = (p', Ok (InPlace (mkMat n X))) /\ least_power (p_num_vars p) n /\
  length (p_names p') = n /\
  forall Y q, length Y = 2 * n -> (q = p \/ q = p') ->
    forall second, exists r, snd (ff_analyze q Y second) = Ok r /\ ff_names r = p_names p' /\ length (ff_ME r) = n /\
       forall j, j < n -> nth_error (ff_ME r) j =
         Some (Rsum (map2 (fun x y => y * coded (p_bounds p') x j) X Y) / INR (2 * n))%R.
Proof.
  intros nq tq p H. destruct (effects nq tq p H) as (n & p' & X & E & L & LN & G).
  exists n, p', X. do 3 (split; auto). intros Y q HY Hq. exact (proj1 (G Y q HY Hq)).
Qed.
Print Assumptions C27_formula.

(** C27: linear coefficients are recovered, dummies get 0, and any part of the model that is
    unchanged when every coded factor changes sign contributes nothing. *)
Theorem C27_linear : forall nq tq p, ff_problem p ->
  exists n p' X, ff_sample nq tq p = (p', Ok (InPlace (mkMat n X))) /\ least_power (p_num_vars p) n /\
  forall c0 c g q second, even_on n g -> (q = p \/ q = p') ->
  exists r, snd (ff_analyze q
     (map (fun x => c0 + linear (p_num_vars p) c x + g (coded (p_bounds p') x))%R X) second) = Ok r /\
    length (ff_ME r) = n /\
    (forall j, j < p_num_vars p ->
       nth_error (ff_ME r) j = Some (c j * (upper (p_bounds p) j - lower (p_bounds p) j) / 2)%R) /\
    (forall j, p_num_vars p <= j < n -> nth_error (ff_ME r) j = Some 0%R).
Proof. exact main_effects. Qed.
Print Assumptions C27_linear.

(** C27: in particular sums of two-factor products in coded units contribute nothing. *)
Theorem C27_products : forall nq tq p, ff_problem p ->
  exists n p' X, ff_sample nq tq p = (p', Ok (InPlace (mkMat n X))) /\ least_power (p_num_vars p) n /\
  forall c0 c d q second, (q = p \/ q = p') ->
  exists r, snd (ff_analyze q
     (map (fun x => c0 + linear (p_num_vars p) c x + products n d (coded (p_bounds p') x))%R X) second) = Ok r /\
    (forall j, j < p_num_vars p ->
       nth_error (ff_ME r) j = Some (c j * (upper (p_bounds p) j - lower (p_bounds p) j) / 2)%R) /\
    (forall j, p_num_vars p <= j < n -> nth_error (ff_ME r) j = Some 0%R).
Proof.
  intros nq tq p H. destruct (main_effects nq tq p H) as (n & p' & X & E & L & G).
  exists n, p', X. do 2 (split; auto). intros c0 c d q second Hq.
  destruct (G c0 c (products n d) q second (products_even n d) Hq) as (r & A & _ & B). exists r. auto.
Qed.
Print Assumptions C27_products.

Definition ff_ex : problem :=
  mkProblem 3 ["a"; "b"; "c"]%string [[0; 2]; [1; 4]; [-1; 1]]%R None None false.
Example ff_ex_ok : ff_problem ff_ex.
Proof.
  repeat split; simpl; auto; try lia.
  repeat constructor; eexists; eexists; (split; [reflexivity|lra]).
Qed.

(** The model x_a + 2 x_b - x_c + 5 z_a z_b on the 8 runs of the 3-parameter problem. *)
Example C27_example : exists r,
  snd (ff_analyze ff_ex [14; -2; 16; 0; 8; 4; 6; 2]%R false) = Ok r /\
  map (fun j => nth j (ff_ME r) 0%R) [0; 1; 2; 3] = [1; 3; -1; 0]%R /\
  ff_names r = ["a"; "b"; "c"; "dummy_0"]%string.
Proof.
  eexists. split.
  { unfold ff_analyze. cbn -[Rmult Rdiv INR IZR]. reflexivity. }
  split; [|reflexivity]. cbn -[Rmult Rdiv INR IZR]. repeat (f_equal; [simpl; lra|]).
  f_equal; simpl; lra.
Qed.

(** C28: additive models have no interaction effects. *)
Theorem C28_additive : forall nq tq p, ff_problem p ->
  exists n p' X, ff_sample nq tq p = (p', Ok (InPlace (mkMat n X))) /\ least_power (p_num_vars p) n /\
  forall c0 c q, (q = p \/ q = p') ->
  exists r l, snd (ff_analyze q (map (fun x => c0 + linear (p_num_vars p) c x)%R X) true) = Ok r /\
    ff_IE r = Some l /\ Forall (fun e => snd e = 0%R) l.
Proof. exact no_interactions. Qed.
Print Assumptions C28_additive.

(** C28: for any outputs, each unordered pair is listed once, with its names and the average of the
    output against the product of its two coded factors. *)
Theorem C28_listing : forall nq tq p, ff_problem p ->
  exists n p' X, ff_sample nq tq p = (p', Ok (InPlace (mkMat n X))) /\ least_power (p_num_vars p) n /\
  length (p_names p') = n /\
  forall Y q, length Y = 2 * n -> (q = p \/ q = p') ->
    exists r l pairs, snd (ff_analyze q Y true) = Ok r /\ ff_IE r = Some l /\ length l = length pairs /\
       NoDup pairs /\ (forall a b, In (a, b) pairs <-> a < b < n) /\
       forall t a b, nth_error pairs t = Some (a, b) -> exists na nb,
         nth_error (p_names p') a = Some na /\ nth_error (p_names p') b = Some nb /\
         nth_error l t = Some ((na, nb),
           (Rsum (map2 (fun x y => y * (coded (p_bounds p') x a * coded (p_bounds p') x b)) X Y) / INR (2 * n))%R).
Proof.
  intros nq tq p H. destruct (effects nq tq p H) as (n & p' & X & E & L & LN & G).
  exists n, p', X. do 3 (split; auto). intros Y q HY Hq. exact (proj2 (G Y q HY Hq)).
Qed.
Print Assumptions C28_listing.

Example C28_example : exists r l,
  snd (ff_analyze ff_ex [14; -2; 16; 0; 8; 4; 6; 2]%R true) = Ok r /\ ff_IE r = Some l /\
  map snd l = [5; 0; 0; 0; 0; 5]%R /\
  map fst l = [("a", "b"); ("a", "c"); ("b", "c"); ("a", "dummy_0"); ("b", "dummy_0"); ("c", "dummy_0")]%string.
Proof.
  eexists. eexists. split.
  { unfold ff_analyze. cbn -[Rmult Rdiv INR IZR]. reflexivity. }
  split; [reflexivity|]. split; [|reflexivity]. cbn -[Rmult Rdiv INR IZR].
  repeat (f_equal; [simpl; lra|]). f_equal; simpl; lra.
Qed.

(** C29: padding. *)
Theorem C29_padding : forall p, p_num_vars p <= 512 -> length (p_names p) = p_num_vars p ->
  length (p_bounds p) = p_num_vars p ->
  exists p1, extend_bounds p = Ok p1 /\ extend_bounds p1 = Ok p1 /\
    least_power (p_num_vars p) (p_num_vars p1) /\
    length (p_names p1) = p_num_vars p1 /\ length (p_bounds p1) = p_num_vars p1 /\
    firstn (p_num_vars p) (p_names p1) = p_names p /\ firstn (p_num_vars p) (p_bounds p1) = p_bounds p /\
    (forall j, p_num_vars p <= j < p_num_vars p1 -> nth_error (p_bounds p1) j = Some [0; 1]%R) /\
    p_groups p1 = p_groups p /\ p_dists p1 = p_dists p /\ p_scaled p1 = p_scaled p.
Proof. exact padding. Qed.
Print Assumptions C29_padding.

(** C29: more than 512 parameters. *)
Theorem C29_too_many : forall nq tq p Y second, 512 < p_num_vars p ->
  extend_bounds p = Err TypeError /\ ff_sample nq tq p = (p, Err TypeError) /\
  ff_analyze p Y second = (p, Err TypeError).
Proof.
  intros nq tq p Y second H. destruct (extend_refused p H) as [A B]. split; auto.
  unfold ff_sample, ff_analyze. rewrite B, A. auto.
Qed.
Print Assumptions C29_too_many.

(** C29: outputs of the wrong number are refused. *)
Theorem C29_wrong_length : forall p n Y second, least_power (p_num_vars p) n -> p_num_vars p <= 512 ->
  length Y <> 2 * n -> snd (ff_analyze p Y second) = Err ValueError.
Proof.
  intros p n Y second ((k & ->) & H1 & H2) Hs HY.
  destruct (extend_ok p Hs) as (k' & Hk' & G1 & G2 & _).
  assert (E : k' = k).
  { pose proof (H2 k' G1) as L1. pose proof (G2 k H1) as L2.
    apply Nat.pow_le_mono_r_iff in L1; lia. }
  subst k'. apply (ff_analyze_length p k); auto.
Qed.
Print Assumptions C29_wrong_length.

(** C29: a problem with a distribution for every parameter is never sampled unless its number of
    parameters is a power of two: the padding does not extend the distributions. *)
Theorem C29_distributions_refuted : forall nq tq p ds, p_dists p = Some ds ->
  length ds = p_num_vars p -> p_num_vars p <= 512 -> (forall k, p_num_vars p <> 2 ^ k) ->
  snd (ff_sample nq tq p) = Err ValueError.
Proof. exact dists_refused. Qed.
Print Assumptions C29_distributions_refuted.

Example C29_example : exists p1, extend_bounds ff_ex = Ok p1 /\
  p_names p1 = ["a"; "b"; "c"; "dummy_0"]%string /\ p_bounds p1 = [[0; 2]; [1; 4]; [-1; 1]; [0; 1]]%R.
Proof. eexists. split; [reflexivity|]. split; reflexivity. Qed.

Example C29_dists_example : forall nq tq,
  snd (ff_sample nq tq (mkProblem 3 ["a"; "b"; "c"]%string [[0; 2]; [1; 4]; [-1; 1]]%R None
     (Some ["unif"; "unif"; "unif"]%string) false)) = Err ValueError.
Proof. reflexivity. Qed.

(** C64: a pure two-factor interaction is reported with its full size for every pair of factors
    whose (0-based) positions have the same bitwise exclusive or, and as 0 for all other pairs. *)
Theorem C64_aliasing : forall nq tq p, ff_problem p ->
  exists n p' X, ff_sample nq tq p = (p', Ok (InPlace (mkMat n X))) /\ least_power (p_num_vars p) n /\
  forall a b, a < b < n -> forall q, (q = p \/ q = p') ->
  exists r l pairs, snd (ff_analyze q (map (fun x => coded (p_bounds p') x a * coded (p_bounds p') x b)%R X) true) = Ok r /\
    ff_IE r = Some l /\ length l = length pairs /\ NoDup pairs /\ (forall i j, In (i, j) pairs <-> i < j < n) /\
    forall t i j, nth_error pairs t = Some (i, j) -> exists e, nth_error l t = Some e /\
      (Nat.lxor i j = Nat.lxor a b -> snd e = 1%R) /\ (Nat.lxor i j <> Nat.lxor a b -> snd e = 0%R).
Proof. exact aliasing. Qed.
Print Assumptions C64_aliasing.

(** With four factors each pair has one alias: (0,1)~(2,3), (0,2)~(1,3), (0,3)~(1,2). *)
Example C64_example : Nat.lxor 0 1 = Nat.lxor 2 3 /\ Nat.lxor 0 2 = Nat.lxor 1 3 /\
  Nat.lxor 0 3 = Nat.lxor 1 2 /\ Nat.lxor 0 1 <> Nat.lxor 0 2.
Proof. repeat split; discriminate. Qed.
