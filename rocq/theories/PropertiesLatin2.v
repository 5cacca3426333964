(** * Property C87: what Latin hypercube samples estimate. *)
From Coq Require Import Reals String List Arith Lia Lra Permutation.
From Verif Require Import Base Arrays ModelGroups ModelScale ModelLatin Stats SpecSobol SpecLatin SpecFF SpecMorris SpecFast2 SpecMorris2 SpecLatin2 SpecIntegral SpecExpect
  ProofsIntegral ProofsLatin2 ProofsLatin4 ProofsLatin5.
Import ListNotations.
Local Open Scope nat_scope.

(** C87: the arrangements of the rows are the permutations, each once. *)
Theorem C87_shuffles : forall N, NoDup (arrangements (seq 0 N)) /\ (forall q, In q (arrangements (seq 0 N)) <-> Permutation q (seq 0 N)) /\ length (arrangements (seq 0 N)) = fact N.
Proof.
  exact (fun N => conj (arrange_nodup nat _ _ eq_refl (seq_NoDup N 0)) (conj (fun q => arrange_perm nat _ (seq 0 N) q eq_refl)
    (eq_trans (arrange_length nat _ _ eq_refl) (f_equal fact (seq_length N 0))))).
Qed.
Print Assumptions C87_shuffles.

(** C87: with every group's rows shuffled uniformly, every row of the sample is equally likely to be any combination of one of the drawn values for each
    group, whatever the positions drawn within the strata; and the mean of any function over the sample varies at most as much as that over N - 1
    such combinations drawn independently. *)
Theorem C87_law : forall p, box_problem p -> exists G gof, draw_groups p G gof /\
  forall N u f, 1 <= N -> inside_strata u -> let point := stratum_point (p_bounds p) gof N u in exists (row : nat -> list (list nat) -> list R),
  (forall ps, length ps = G -> Forall (fun q => Permutation q (seq 0 N)) ps -> forall nq tq junk, exists p',
     latin_sample nq tq p N u (fun g => nth g ps (seq 0 N)) junk = (p', Ok (InPlace (mkMat (p_num_vars p) (map (fun s => row s ps) (seq 0 N)))))) /\
  (forall s, s < N -> expect (shuffles N G) (fun ps => f (row s ps)) = expect (grid_law N G) (fun c => f (point c))) /\
  (2 <= N -> (SpecExpect.variance (shuffles N G) (fun ps => mean (map (fun s => f (row s ps)) (seq 0 N)))
              <= SpecExpect.variance (grid_law N G) (fun c => f (point c)) / (INR N - 1))%R).
Proof. exact latin_law. Qed.
Print Assumptions C87_law.

(** C87: for a sum of one monotone function per parameter the mean over the sample is within (total rise) / N of the average over the box, whatever is drawn. *)
Theorem C87_additive : forall p b gs v, box_problem p -> p_bounds p = bounds_of b -> length gs = p_num_vars p ->
  (forall j i g, nth_error b j = Some i -> nth_error gs j = Some g -> monotone (fst i) (snd i) g) -> average b (separable gs) v ->
  forall nq tq N u perm junk, 0 < N -> inside_strata u -> (forall g, Permutation (perm g) (seq 0 N)) ->
  exists p' X, latin_sample nq tq p N u perm junk = (p', Ok (InPlace X)) /\
    (Rabs (mean (map (separable gs) (rows X)) - v) <= rise b gs / INR N)%R.
Proof. exact latin_additive. Qed.
Print Assumptions C87_additive.

(** The sum of the two coordinates over [0, 2] x [0, 2]; two strata with their lower ends drawn: sums of coordinates 0 + 0 and 1 + 1 or 0 + 1 and 1 + 0,
    so the mean is 1 for either shuffle, within 4 / 2 of the average 2. The mean of the product is 1/2 or 0, of variance 1/16; the bound is 3/16. *)
Definition ex_latin : problem := mkProblem 2 ["x"; "y"]%string [[0; 2]; [0; 2]]%R None None false.
Definition ex_point : list nat -> list R := stratum_point (p_bounds ex_latin) (fun j => j) 2 (fun _ _ => 0%R).
Example C87_example : box_problem ex_latin /\ draw_groups ex_latin 2 (fun j => j) /\ arrangements (seq 0 2) = [[0; 1]; [1; 0]] /\
  average [(0, 2); (0, 2)]%R (separable [fun x => x; fun x => x]) 2 /\ rise [(0, 2); (0, 2)]%R [fun x => x; fun x => x] = 4%R /\
  expect (grid_law 2 2) (fun c => nth 0 (ex_point c) 0 * nth 1 (ex_point c) 0)%R = (1 / 4)%R /\
  SpecExpect.variance (grid_law 2 2) (fun c => nth 0 (ex_point c) 0 * nth 1 (ex_point c) 0)%R = (3 / 16)%R.
Proof.
  assert (ID : integral (fun x => x)%R 0 2 2).
  { replace 2%R with ((fun x => x ^ 2 / 2) 2 - (fun x => x ^ 2 / 2) 0)%R at 2 by (cbv beta; field).
    apply (integral_of (fun x => x ^ 2 / 2)%R); [lra| |].
    - intros x. replace x with (/ 2 * (INR 2 * x ^ 1))%R at 2 by (cbn; field).
      apply (derivable_pt_lim_ext (mult_real_fct (/ 2) (fun x => x ^ 2))%R); [intros y; unfold mult_real_fct; field|].
      apply derivable_pt_lim_scal, (derivable_pt_lim_pow x 2).
    - apply derivable_continuous, derivable_id. }
  assert (EX : expect (grid_law 2 2) (fun c => nth 0 (ex_point c) 0 * nth 1 (ex_point c) 0)%R = (1 / 4)%R).
  { unfold ex_point, stratum_point, grid_law, uniform, expect, ranges, lower, upper. cbn -[Rplus Rminus Rmult Rdiv Rinv]. field. }
  split; [|split; [|split; [|split; [|split; [|split]]]]].
  - split; [intros x l E; discriminate|]. split; [reflexivity|]. split; [cbn; lia|]. split; [reflexivity|]. repeat constructor; eexists; eexists; (split; [reflexivity|lra]).
  - split; [auto|]. intros j j' _ _. split; [intros [E|(g & x & E & _)]; [exact E|discriminate]|left; assumption].
  - reflexivity.
  - cbn [average separable]. exists (fun x => x + 1)%R. split.
    + intros x _. exists (fun y => x + (y + 0))%R. split; [reflexivity|].
      replace ((x + 1) * (2 - 0))%R with (x * (2 - 0) + 2)%R by ring. apply integral_plus; [lra|apply integral_const|].
      apply (integral_ext (fun x => x)); [lra|intros; ring|exact ID].
    + replace (2 * (2 - 0))%R with (2 + 1 * (2 - 0))%R by ring. apply integral_plus; [lra|exact ID|apply integral_const].
  - unfold rise. cbn -[Rplus Rminus Rabs]. rewrite Rabs_right by lra. cbn. lra.
  - exact EX.
  - unfold SpecExpect.variance. rewrite EX. unfold ex_point, stratum_point, grid_law, uniform, expect, ranges, lower, upper. cbn -[Rplus Rminus Rmult Rdiv Rinv pow]. field.
Qed.
