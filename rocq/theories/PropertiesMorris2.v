(** * Property C86 (Morris designs are uniform over the grid, their statistics unbiased). *)
From Coq Require Import Reals String List Arith ZArith Bool Lia Lra Permutation.
From Verif Require Import Base Arrays ModelGroups ModelScale Stats SpecGroups SpecSobol SpecFF
  ModelMorris ModelMorrisAnalyze SpecMorris SpecExpect SpecMorris2 ProofsMorris11 ProofsMorris12 ProofsMorris13.
Import ListNotations.
Local Open Scope nat_scope.

(** C86: with an even number of levels, whatever the order of the steps, every point of every trajectory is equally likely to be any point of
    the grid: of the (2 n)^D equally likely choices of directions and starting positions, exactly one leads to it. *)
Theorem C86_points : forall p ls G n order r z,
  morris_problem p ls -> distinct_count ls G -> 1 <= n -> Permutation order (seq 0 G) -> r <= G -> on_levels (p_num_vars p) (2 * n) z ->
  exists up start, (forall j, start j < n) /\
    forall rnd score argsort nq tq chunk N opt local draws t p' X,
      valid_draws ls (2 * n) draws -> opt = None \/ opt = Some 0%Z -> t < N -> t_perm (draws t) = order ->
      morris_sample rnd score argsort nq tq chunk p N (2 * n) opt local draws = (p', Ok (InPlace X)) ->
      (nth_error (rows X) (t * (G + 1) + r) = Some (grid_point (p_bounds p) (2 * n) z) <->
       forall j, j < p_num_vars p -> t_up (draws t) j = up j /\ t_start (draws t) j = start j).
Proof. exact point_choice. Qed.
Print Assumptions C86_points.

(** C86: so, for any model and number of trajectories, the expected value of mu is the mean elementary effect over the grid, and the expected
    value of mu_star the mean absolute effect; *)
Theorem C86_unbiased : forall rnd score argsort nq tq chunk p q ls G n N f opt local conf_level resample orders,
  morris_problem p ls -> labels_of q ls /\ p_num_vars q = p_num_vars p -> distinct_count ls G -> 1 <= n -> 1 <= N ->
  (forall t, Permutation (orders t) (seq 0 G)) -> opt = None \/ opt = Some 0%Z -> (0 < conf_level < 1)%R -> (forall j, valid_resample N (resample j)) ->
  let D := p_num_vars p in
  forall x js, In x ls -> members_of ls x js -> exists mu mu_star : list (list (bool * nat)) -> R,
  (forall cs, length cs = N -> Forall (choice_of n D) cs -> exists p' X out k,
     morris_sample rnd score argsort nq tq chunk p N (2 * n) opt local (fun t => draw_of (orders t) (nth t cs [])) = (p', Ok (InPlace X)) /\
     snd (morris_analyze nq q X (map f (rows X)) conf_level false (2 * n) resample) = Ok out /\ nth_error (m_names out) k = Some x /\
     nth_error (m_mu out) k = Some (Some (mu cs)) /\ nth_error (m_mu_star out) k = Some (Some (mu_star cs))) /\
  expect_points N (choices n D) mu = mean (map (fun j => expect (grid_law (2 * n) D) (grid_effect (p_bounds p) ls n f x j)) js) /\
  expect_points N (choices n D) mu_star
  = expect (grid_law (2 * n) D) (fun z => (Rabs (f (grid_point (p_bounds p) (2 * n) (stepped ls n x z)) - f (grid_point (p_bounds p) (2 * n) z)) / step (2 * n))%R).
Proof. exact unbiased. Qed.
Print Assumptions C86_unbiased.

(** C86: and the expected value of the square of sigma is the variance of the elementary effects over the grid. *)
Theorem C86_sigma : forall rnd score argsort nq tq chunk p q ls G n N f opt local conf_level resample orders,
  morris_problem p ls -> labels_of q ls /\ p_num_vars q = p_num_vars p -> distinct_count ls G -> 1 <= n -> 1 <= N ->
  (forall t, Permutation (orders t) (seq 0 G)) -> opt = None \/ opt = Some 0%Z -> (0 < conf_level < 1)%R -> (forall j, valid_resample N (resample j)) ->
  let D := p_num_vars p in
  forall x j, members_of ls x [j] -> 2 <= N -> exists sigma : list (list (bool * nat)) -> R,
  (forall cs, length cs = N -> Forall (choice_of n D) cs -> exists p' X out k,
     morris_sample rnd score argsort nq tq chunk p N (2 * n) opt local (fun t => draw_of (orders t) (nth t cs [])) = (p', Ok (InPlace X)) /\
     snd (morris_analyze nq q X (map f (rows X)) conf_level false (2 * n) resample) = Ok out /\ nth_error (m_names out) k = Some x /\
     nth_error (m_sigma out) k = Some (Some (sigma cs))) /\
  expect_points N (choices n D) (fun cs => (sigma cs ^ 2)%R) = variance (grid_law (2 * n) D) (grid_effect (p_bounds p) ls n f x j).
Proof. exact unbiased_spread. Qed.
Print Assumptions C86_sigma.

(** C86: with an odd number of levels the middle one is never sampled, for any parameter (the sampler only warns that "sample may be biased"). *)
Theorem C86_odd_refuted : forall rnd score argsort nq tq chunk p ls n N opt local draws p' X,
  morris_problem p ls -> 1 <= n -> valid_draws ls (2 * n + 1) draws -> opt = None \/ opt = Some 0%Z ->
  morris_sample rnd score argsort nq tq chunk p N (2 * n + 1) opt local draws = (p', Ok (InPlace X)) ->
  forall x j, In x (rows X) -> j < p_num_vars p ->
    nth_error x j <> Some (lower (p_bounds p) j + INR n / (INR (2 * n + 1) - 1) * ranges (p_bounds p) j)%R.
Proof. exact odd_middle. Qed.
Print Assumptions C86_odd_refuted.

(** f = x y on the unit square with four levels: the effect of x is y, of mean 1/2 and variance 5/36 over the grid. *)
Definition ex_square : problem := mkProblem 2 ["x"; "y"]%string [[0; 1]; [0; 1]]%R None None false.
Definition ex_xy (x : list R) : R := (nth 0 x 0 * nth 1 x 0)%R.
Example C86_example : morris_problem ex_square ["x"; "y"]%string /\ members_of ["x"; "y"]%string "x" [0] /\
  choice_of 2 2 [(true, 1); (false, 0)] /\
  expect (grid_law 4 2) (grid_effect (p_bounds ex_square) ["x"; "y"]%string 2 ex_xy "x" 0) = (1 / 2)%R /\
  variance (grid_law 4 2) (grid_effect (p_bounds ex_square) ["x"; "y"]%string 2 ex_xy "x" 0) = (5 / 36)%R.
Proof.
  assert (E : expect (grid_law 4 2) (grid_effect (p_bounds ex_square) ["x"; "y"]%string 2 ex_xy "x" 0) = (1 / 2)%R).
  { unfold grid_effect, ex_xy, step, grid_law, uniform, expect, grid_point, lower, upper, ranges, stepped, across.
    cbn -[Rplus Rminus Rmult Rdiv Rinv]. unfold ranges, lower, upper. cbn -[Rplus Rminus Rmult Rdiv Rinv]. field. }
  split; [|split; [|split; [|split]]].
  - split; [right; split; [left; reflexivity|reflexivity]|]. cbn. repeat split; try lia; try reflexivity. repeat constructor; eexists; eexists; (split; [reflexivity|lra]).
  - split; [repeat constructor; intros []|]. intros [|[|[|j]]]; cbn; split; intros H; try reflexivity; try discriminate; try (destruct H as [H|[]]; discriminate); try (left; reflexivity); destruct j; discriminate.
  - split; [reflexivity|]. intros v [<-|[<-|[]]]; cbn; lia.
  - exact E.
  - unfold variance. rewrite E. unfold grid_effect, ex_xy, step, grid_law, uniform, expect, grid_point, lower, upper, ranges, stepped, across.
    cbn -[Rplus Rminus Rmult Rdiv Rinv pow]. unfold ranges, lower, upper. cbn -[Rplus Rminus Rmult Rdiv Rinv pow]. field.
Qed.
