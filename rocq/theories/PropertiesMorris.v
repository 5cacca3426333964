(** * Properties C30-C37 (Morris method). *)
From Coq Require Import Reals String List Arith ZArith Bool Lia Lra Permutation Sorted.
From Verif Require Import Base Arrays ListFacts ModelGroups ModelScale Stats SpecGroups Sums SpecSobol SpecFF ProofsSobol6
  ModelMorris ModelMorrisAnalyze SpecMorris ProofsMorris1 ProofsMorris2 ProofsMorris3 ProofsMorris4 ProofsMorris5
  ProofsMorris6 ProofsMorris7 ProofsMorris8 ProofsMorris9 ProofsMorris10.
Import ListNotations.
Local Open Scope nat_scope.

(** C30: without optimal trajectories the sampler always succeeds, and returns N trajectories. *)
Theorem C30_sample : forall rnd score argsort nq tq chunk p ls N levels opt local draws,
  morris_problem p ls -> 2 <= levels -> valid_draws ls levels draws -> opt = None \/ opt = Some 0%Z ->
  exists p' X, morris_sample rnd score argsort nq tq chunk p N levels opt local draws
      = (p', Ok (InPlace (mkMat (p_num_vars p) X))) /\
    morris_design ls (fun j => step levels * ranges (p_bounds p) j)%R N X.
Proof. exact plain_design. Qed.
Print Assumptions C30_sample.

(** C30: whatever the options, a sample that is returned consists of trajectories. *)
Theorem C30_design : forall rnd score argsort nq tq chunk p ls N levels opt local draws p' out,
  morris_problem p ls -> 2 <= levels -> valid_draws ls levels draws ->
  valid_argsort argsort -> (forall x, (0 < x)%R -> (0 < rnd x)%R) -> 1 <= chunk ->
  morris_sample rnd score argsort nq tq chunk p N levels opt local draws = (p', Ok out) ->
  exists n X, out = InPlace (mkMat (p_num_vars p) X) /\
    morris_design ls (fun j => step levels * ranges (p_bounds p) j)%R n X /\
    (opt = None \/ opt = Some 0%Z -> n = N) /\
    (forall k, opt = Some k -> k <> 0%Z -> n = Z.to_nat k).
Proof. exact sample_design. Qed.
Print Assumptions C30_design.

(** Two groups over three parameters; the trajectory visits b before a. *)
Definition morris_ex : problem :=
  mkProblem 3 ["x"; "y"; "z"]%string [[0; 2]; [1; 4]; [-1; 1]]%R (Some ["a"; "b"; "a"]%string) None false.
Definition draw_ex : draw := mkDraw [1; 0] (fun j => j =? 2) (fun j => j mod 2).

Example morris_ex_ok : morris_problem morris_ex ["a"; "b"; "a"]%string /\
  valid_draws ["a"; "b"; "a"]%string 4 (fun _ => draw_ex).
Proof.
  split.
  - split; [left; do 2 eexists; split; reflexivity|]. cbn. split; [auto|]. split; [lia|]. split; [auto|].
    split; [|auto]. repeat constructor; eexists; eexists; (split; [reflexivity|lra]).
  - exists 2. split.
    + exists ["a"; "b"]%string. split; [repeat constructor; simpl; intuition discriminate|]. split; [|auto].
      intros x. simpl. tauto.
    + intros t. split; [apply perm_swap|]. intros j. change (j mod 2 < 2). apply Nat.mod_upper_bound. lia.
Qed.

Example C30_example : exists X, sample_morris ["a"; "b"; "a"]%string 1 4 (fun _ => draw_ex) = Ok X /\
  X = [[2/3; 1; 0]; [2/3; 1/3; 0]; [0; 1/3; 2/3]]%R.
Proof.
  eexists. split; [reflexivity|].
  cbn -[Rplus Rminus Rmult Rdiv IZR]. rows; unfold compute_b_star, mmul, sum, Rsum; cbn -[Rplus Rminus Rmult Rdiv IZR]; field.
Qed.

(** C31: every coordinate lies within the bounds of its parameter and, for an even number of levels,
    on the grid of levels. *)
Theorem C31_range : forall rnd score argsort nq tq chunk p ls N levels opt local draws p' out,
  morris_problem p ls -> 2 <= levels -> valid_draws ls levels draws ->
  valid_argsort argsort -> (forall x, (0 < x)%R -> (0 < rnd x)%R) -> 1 <= chunk ->
  morris_sample rnd score argsort nq tq chunk p N levels opt local draws = (p', Ok out) ->
  exists X, out = InPlace (mkMat (p_num_vars p) X) /\
    forall r, In r X -> length r = p_num_vars p /\
    forall j, j < p_num_vars p ->
      (lower (p_bounds p) j <= nth j r 0 <= upper (p_bounds p) j)%R /\
      (Nat.Even levels -> exists m, m <= levels - 1 /\
         nth j r 0%R = (lower (p_bounds p) j + INR m / (INR levels - 1) * ranges (p_bounds p) j)%R).
Proof. exact sample_in_range. Qed.
Print Assumptions C31_range.

(** With three levels (odd) the points leave the grid {0, 1/2, 1}. *)
Example C31_odd_levels : exists X, sample_morris ["a"]%string 1 3 (fun _ => mkDraw [0] (fun _ => true) (fun _ => 0)) = Ok X /\
  X = [[0]; [3/4]]%R.
Proof.
  eexists. split; [reflexivity|].
  cbn -[Rplus Rminus Rmult Rdiv IZR]. rows; unfold compute_b_star, mmul, sum, Rsum; cbn -[Rplus Rminus Rmult Rdiv IZR]; field.
Qed.

(** C32: linear models are recovered on every design. *)
Theorem C32_linear : forall nq p ls h N X (c0 : R) (c : nat -> R) conf_level levels resample,
  labels_of p ls -> NoDup ls -> length ls = p_num_vars p -> 0 < p_num_vars p -> 2 <= levels -> (0 < conf_level < 1)%R ->
  0 < N -> morris_design ls h N X -> (forall j, j < length ls -> (0 < h j)%R) ->
  (forall j, valid_resample N (resample j)) ->
  exists out, snd (morris_analyze nq p (mkMat (p_num_vars p) X)
       (map (fun x => c0 + linear (p_num_vars p) c x)%R X) conf_level false levels resample) = Ok out /\
    m_names out = ls /\
    forall j, j < p_num_vars p ->
      nth_error (m_mu out) j = Some (Some (c j * h j / step levels)%R) /\
      nth_error (m_mu_star out) j = Some (Some (Rabs (c j) * h j / step levels)%R) /\
      (2 <= N -> nth_error (m_sigma out) j = Some (Some 0%R)) /\
      (N = 1 -> nth_error (m_sigma out) j = Some None) /\
      (2 <= length (resample j) -> nth_error (m_conf out) j = Some (Some 0%R)).
Proof. exact linear_recovered. Qed.
Print Assumptions C32_linear.

(** C32: sampling, evaluating a linear model and analysing, end to end: the sampled trajectories may
    have been optimised, and the problem given to the analyser only needs the same labels. *)
Theorem C32_pipeline : forall rnd score argsort nq tq chunk p q ls N levels opt local draws p' out (c0 : R) (c : nat -> R)
    conf_level resample,
  morris_problem p ls -> NoDup ls -> 2 <= levels -> valid_draws ls levels draws ->
  valid_argsort argsort -> (forall x, (0 < x)%R -> (0 < rnd x)%R) -> 1 <= chunk -> 0 < N ->
  morris_sample rnd score argsort nq tq chunk p N levels opt local draws = (p', Ok out) ->
  labels_of q ls -> p_num_vars q = p_num_vars p -> (0 < conf_level < 1)%R ->
  (forall n j, valid_resample n (resample n j)) ->
  exists n X r, out = InPlace (mkMat (p_num_vars p) X) /\ 0 < n /\
    snd (morris_analyze nq q (mkMat (p_num_vars p) X)
       (map (fun x => c0 + linear (p_num_vars p) c x)%R X) conf_level false levels (resample n)) = Ok r /\
    m_names r = ls /\
    forall j, j < p_num_vars p ->
      nth_error (m_mu r) j = Some (Some (c j * ranges (p_bounds p) j)%R) /\
      nth_error (m_mu_star r) j = Some (Some (Rabs (c j) * ranges (p_bounds p) j)%R) /\
      (2 <= n -> nth_error (m_sigma r) j = Some (Some 0%R)).
Proof. exact linear_pipeline. Qed.
Print Assumptions C32_pipeline.

(** y = 2 a - 3 b on two trajectories over [0,1] x [0,2], four levels. *)
Example C32_example : exists r,
  snd (morris_analyze (fun _ => 2%R) morris_ex2
    (mkMat 2 [[0; 0]; [2/3; 0]; [2/3; 4/3]; [1; 2]; [1; 2/3]; [1/3; 2/3]]%R)
    [0; 4/3; -8/3; -4; 0; -4/3]%R (1/2) false 4 (fun _ => [[0; 1]; [1; 1]])) = Ok r /\
  map (nth_error (m_mu r)) [0; 1] = [Some (Some 2); Some (Some (-6))]%R /\
  map (nth_error (m_mu_star r)) [0; 1] = [Some (Some 2); Some (Some 6)]%R /\
  map (nth_error (m_sigma r)) [0; 1] = [Some (Some 0); Some (Some 0)]%R.
Proof. exact morris_example. Qed.

(** C33: for any sample and outputs mu_star is at least |mu|, and neither mu_star nor sigma is
    negative. *)
Theorem C33_order : forall nq p X Y conf_level scaled levels resample out,
  snd (morris_analyze nq p X Y conf_level scaled levels resample) = Ok out ->
  forall k,
    (forall a b, nth_error (m_mu out) k = Some (Some a) -> nth_error (m_mu_star out) k = Some (Some b) -> (Rabs a <= b)%R) /\
    (forall b, nth_error (m_mu_star out) k = Some (Some b) -> (0 <= b)%R) /\
    (forall s, nth_error (m_sigma out) k = Some (Some s) -> (0 <= s)%R).
Proof. exact measures_ordered. Qed.
Print Assumptions C33_order.

(** C33: the statistics are the averages, standard deviations and bootstrap widths of the
    elementary effects, averaged over groups; sigma is only reported for groups of one. *)
Theorem C33_effects : forall nq p ls h Ts ys conf_level levels resample,
  labels_of p ls -> length ls = p_num_vars p -> 0 < p_num_vars p -> 2 <= levels -> (0 < conf_level < 1)%R ->
  Ts <> [] -> evaluated ls h Ts ys -> (forall j, j < length ls -> (0 < h j)%R) ->
  (forall j, valid_resample (length Ts) (resample j)) ->
  exists E out,
    snd (morris_analyze nq p (mkMat (p_num_vars p) (concat Ts)) (concat ys) conf_level false levels resample) = Ok out /\
    summarises nq conf_level resample ls (length Ts) E out /\
    forall i j, i < length Ts -> j < length ls ->
      forall e, is_effect (step levels) (nth i Ts []) (nth i ys []) j e <-> e = E i j.
Proof. exact effects_reported. Qed.
Print Assumptions C33_effects.

(** C33: the same for scaled effects. *)
Theorem C33_scaled_effects : forall nq p ls h Ts ys conf_level levels resample,
  labels_of p ls -> length ls = p_num_vars p -> 0 < p_num_vars p -> 2 <= levels -> (0 < conf_level < 1)%R ->
  Ts <> [] -> evaluated ls h Ts ys -> (forall j, j < length ls -> (0 < h j)%R) ->
  (forall j, valid_resample (length Ts) (resample j)) ->
  exists E out,
    snd (morris_analyze nq p (mkMat (p_num_vars p) (concat Ts)) (concat ys) conf_level true levels resample) = Ok out /\
    summarises nq conf_level resample ls (length Ts) E out /\
    forall i j, i < length Ts -> j < length ls -> is_scaled_effect (h j) (nth i Ts []) (nth i ys []) j (E i j).
Proof. exact scaled_effects_reported. Qed.
Print Assumptions C33_scaled_effects.

(** C33: the members of a group have effects of the same size, so mu_star of a group is the mean
    absolute effect of any one of them. *)
Theorem C33_group_mu_star : forall nq conf_level resample ls h Ts ys delta E out,
  evaluated ls h Ts ys -> (forall j, j < length ls -> (0 < h j)%R) ->
  summarises nq conf_level resample ls (length Ts) E out ->
  (forall i j, i < length Ts -> j < length ls -> is_effect delta (nth i Ts []) (nth i ys []) j (E i j)) ->
  forall k x j, nth_error (m_names out) k = Some x -> nth_error ls j = Some x ->
    nth_error (m_mu_star out) k = Some (Some (mean (map (fun i => Rabs (E i j)) (seq 0 (length Ts))))).
Proof. exact group_mu_star. Qed.
Print Assumptions C33_group_mu_star.

(** C33: a group on which the model does not depend gets zeros. *)
Theorem C33_ignored : forall nq p ls h N X f x conf_level scaled levels resample,
  labels_of p ls -> length ls = p_num_vars p -> 0 < p_num_vars p -> 2 <= levels -> (0 < conf_level < 1)%R ->
  0 < N -> morris_design ls h N X -> (forall j, j < length ls -> (0 < h j)%R) ->
  (forall j, valid_resample N (resample j)) -> In x ls -> ignores ls x f ->
  exists out k, snd (morris_analyze nq p (mkMat (p_num_vars p) X) (map f X) conf_level scaled levels resample) = Ok out /\
    nth_error (m_names out) k = Some x /\
    nth_error (m_mu out) k = Some (Some 0%R) /\ nth_error (m_mu_star out) k = Some (Some 0%R) /\
    (forall j, members_of ls x [j] -> 2 <= N -> nth_error (m_sigma out) k = Some (Some 0%R)) /\
    (forall j, members_of ls x [j] -> 2 <= length (resample j) -> nth_error (m_conf out) k = Some (Some 0%R)).
Proof. exact ignored_group. Qed.
Print Assumptions C33_ignored.

(** y = x1 (first of group a) ignores group b; one trajectory, a has two members, so mu is the
    average of +1 and -1 (the members moved in opposite directions) while mu_star is 1. *)
Example C33_example : exists r,
  snd (morris_analyze (fun _ => 2%R) morris_ex3
    (mkMat 3 [[2/3; 1; 0]; [2/3; 1/3; 0]; [0; 1/3; 2/3]]%R)
    [2/3; 2/3; 0]%R (1/2) false 4 (fun _ => [[0]; [0]])) = Ok r /\
  m_names r = ["a"; "b"]%string /\
  m_mu r = [Some 0; Some 0]%R /\ m_mu_star r = [Some 1; Some 0]%R /\ m_sigma r = [None; None].
Proof. exact morris_group_example. Qed.

(** C34: outputs of whole trajectories are analysed as such (C33_effects); lengths that differ from
    the sample, are shorter than one trajectory or do not divide evenly are reported.  Missing: other
    lengths that are not a multiple of G + 1 are accepted, see C34_refuted. *)
Theorem C34_lengths_partial : forall nq p ls G X Y conf_level scaled levels resample,
  labels_of p ls -> distinct_count ls G -> length ls = p_num_vars p -> 0 < p_num_vars p -> 2 <= levels ->
  cols X = p_num_vars p -> (0 < conf_level < 1)%R ->
  let run := snd (morris_analyze nq p X Y conf_level scaled levels resample) in
  let n := length Y in
  (n < G + 1 -> run = Err ZeroDivisionError) /\
  (G + 1 <= n -> length (rows X) <> n -> run = Err ValueError) /\
  (G + 1 <= n -> length (rows X) = n -> n mod (n / (n / (G + 1))) <> 0 -> run = Err ValueError) /\
  (G + 1 <= n -> length (rows X) = n -> n mod (n / (n / (G + 1))) = 0 -> exists out, run = Ok out).
Proof. exact morris_lengths. Qed.
Print Assumptions C34_lengths_partial.

(** C34 is false of the code: any number of rows strictly between one and two trajectories is
    silently analysed (as a single trajectory of that many points), and so are 8 rows with two
    groups. *)
Theorem C34_refuted : forall nq p ls G X Y conf_level scaled levels resample,
  labels_of p ls -> distinct_count ls G -> length ls = p_num_vars p -> 0 < p_num_vars p -> 2 <= levels ->
  cols X = p_num_vars p -> (0 < conf_level < 1)%R -> length (rows X) = length Y ->
  (G + 1 < length Y < 2 * (G + 1)) \/ (G = 2 /\ length Y = 8) ->
  (length Y) mod (G + 1) <> 0 /\
  exists out, snd (morris_analyze nq p X Y conf_level scaled levels resample) = Ok out.
Proof. exact uneven_accepted. Qed.
Print Assumptions C34_refuted.

(** Five rows for two parameters: one trajectory of 3 points and two more rows. *)
Example C34_example : exists r,
  snd (morris_analyze (fun _ => 2%R) morris_ex2
    (mkMat 2 [[0; 0]; [2/3; 0]; [2/3; 4/3]; [1; 2]; [1; 2/3]]%R)
    [0; 4/3; -8/3; -4; 0]%R (1/2) false 4 (fun _ => [])) = Ok r.
Proof.
  refine (proj2 (C34_refuted _ morris_ex2 ["a"; "b"]%string 2 _ _ _ _ _ _ _ _ _ _ _ _ _ _ _)); cbn; try lia; auto; try lra.
  - right. auto.
  - exists ["a"; "b"]%string. split; [repeat constructor; simpl; intuition discriminate|]. split; [|auto]. tauto.
Qed.

(** C35: the brute-force strategy selects k trajectories of maximal spread, for every way of
    computing distances and scores, and whatever the chunk size. *)
Theorem C35_optimal : forall rnd score chunk X g N k D, trajectories_of N (g + 1) D X ->
  1 <= k <= N -> 1 <= chunk ->
  exists c s, brute_force rnd score chunk X g N k = Ok c /\ selection N k c /\
    is_spread rnd score X (g + 1) c s /\
    forall c' s', selection N k c' -> is_spread rnd score X (g + 1) c' s' -> (s' <= s)%R.
Proof. exact brute_force_optimal. Qed.
Print Assumptions C35_optimal.

(** C35: with exact arithmetic the selection maximises the sum of squared distances of its pairs. *)
Theorem C35_sum_of_squares : forall chunk X g N k D, trajectories_of N (g + 1) D X -> 1 <= k <= N -> 1 <= chunk ->
  exists c ds, brute_force (fun x => x) root_sum_squares chunk X g N k = Ok c /\ selection N k c /\
    Forall2 (fun ab d => is_distance (fun x => x) (block X (g + 1) (fst ab)) (block X (g + 1) (snd ab)) d) (pairs c) ds /\
    forall c' ds', selection N k c' ->
      Forall2 (fun ab d => is_distance (fun x => x) (block X (g + 1) (fst ab)) (block X (g + 1) (snd ab)) d) (pairs c') ds' ->
      (fold_right Rplus 0 (map (fun d => d * d) ds') <= fold_right Rplus 0 (map (fun d => d * d) ds))%R.
Proof. exact brute_force_exact. Qed.
Print Assumptions C35_sum_of_squares.

(** C35: every chunk size gives the same selection. *)
Theorem C35_chunks : forall rnd score chunk chunk' X g N k D, trajectories_of N (g + 1) D X ->
  1 <= k <= N -> 1 <= chunk -> 1 <= chunk' ->
  brute_force rnd score chunk X g N k = brute_force rnd score chunk' X g N k.
Proof. exact brute_force_chunks. Qed.
Print Assumptions C35_chunks.

(** Three trajectories of one parameter, 0 -> 1, 0 -> 1 and 1 -> 0: the equal ones are not both kept
    (scoring by the sum of the distances). *)
Example C35_example : brute_force (fun x => x) Rsum 2 [[0]; [1]; [0]; [1]; [1]; [0]]%R 1 3 2 = Ok [0; 2].
Proof. exact brute_example. Qed.

(** C36: the local strategy returns k in-range indices in increasing order, distinct when the
    trajectories are.  Missing: with repeated trajectories indices may be repeated, see C36_refuted. *)
Theorem C36_local_partial : forall rnd score argsort X g N k D, valid_argsort argsort ->
  (forall x, (0 < x)%R -> (0 < rnd x)%R) -> trajectories_of N (g + 1) D X -> 2 <= k < N ->
  exists c, local_optimisation rnd score argsort X g N k = Ok c /\ length c = k /\ (forall x, In x c -> x < N) /\
    StronglySorted le c /\
    ((forall a b, a < b -> b < N -> block X (g + 1) a <> block X (g + 1) b) -> selection N k c).
Proof. exact local_ok. Qed.
Print Assumptions C36_local_partial.

(** C36 is false of the code: when all trajectories are equal the same one is selected twice,
    however numpy's argsort breaks ties. *)
Theorem C36_refuted : forall rnd argsort X g N D, valid_argsort argsort -> trajectories_of N (g + 1) D X -> 2 <= N ->
  (forall a b, a < N -> b < N -> block X (g + 1) a = block X (g + 1) b) ->
  exists t, t < N /\ local_optimisation rnd root_sum_squares argsort X g N 2 = Ok [t; t].
Proof. exact local_repeats. Qed.
Print Assumptions C36_refuted.

(** Such samples arise: three times 0 -> 1 with two levels. *)
Example C36_example : exists X,
  sample_morris ["a"]%string 3 2 (fun _ => mkDraw [0] (fun _ => true) (fun _ => 0)) = Ok X /\
  X = [[0]; [1]; [0]; [1]; [0]; [1]]%R /\ trajectories_of 3 2 1 X /\
  forall a b, a < 3 -> b < 3 -> block X 2 a = block X 2 b.
Proof.
  eexists. split; [reflexivity|].
  match goal with |- ?X = ?Y /\ _ => assert (E : X = Y) end.
  { cbn -[Rplus Rminus Rmult Rdiv IZR]. rows; unfold compute_b_star, mmul, sum, Rsum; cbn -[Rplus Rminus Rmult Rdiv IZR]; field. }
  split; [exact E|]. rewrite E. split.
  - split; [auto|]. split; [repeat constructor|]. lia.
  - intros [|[|[|a]]] [|[|[|b]]] Ha Hb; try lia; reflexivity.
Qed.

(** C37: with optimal trajectories the sample consists of whole trajectories of the sample without,
    each copied unchanged; other requests are rejected. *)
Theorem C37_blocks : forall rnd score argsort nq tq chunk p ls N levels k local draws G,
  morris_problem p ls -> distinct_count ls G -> 2 <= levels -> valid_draws ls levels draws ->
  valid_argsort argsort -> (forall x, (0 < x)%R -> (0 < rnd x)%R) -> 1 <= chunk -> k <> 0%Z ->
  let run opt := snd (morris_sample rnd score argsort nq tq chunk p N levels opt local draws) in
  (((k < 2)%Z \/ (Z.of_nat N <= k)%Z \/ (local = false /\ (10 < k)%Z)) -> run (Some k) = Err ValueError) /\
  ((2 <= k < Z.of_nat N)%Z -> (local = false -> (k <= 10)%Z) ->
   exists X combo, run None = Ok (InPlace (mkMat (p_num_vars p) X)) /\
     morris_design ls (fun j => step levels * ranges (p_bounds p) j)%R N X /\
     length combo = Z.to_nat k /\ (forall c, In c combo -> c < N) /\ StronglySorted le combo /\
     (local = false -> StronglySorted lt combo) /\
     run (Some k) = Ok (InPlace (mkMat (p_num_vars p) (concat (map (block X (G + 1)) combo))))).
Proof. exact morris_sample_optimised. Qed.
Print Assumptions C37_blocks.

Example C37_example :
  compile_output [[0]; [1]; [1]; [0]; [2]; [3]]%R 1 1 3 [0; 2] = Ok [[0]; [1]; [2]; [3]]%R.
Proof. reflexivity. Qed.
