(** * Properties C11-C18, C62, C63 (Sobol'/Saltelli sampling and analysis). *)
From Coq Require Import Reals String List Arith ZArith Bool Lia Lra.
From Verif Require Import Base Arrays ModelGroups SpecGroups ModelScale Stats ModelSobol SpecSobol
  ProofsSobol ProofsSobol2 ProofsSobol3 ProofsSobol4 ProofsSobol5 ProofsSobol6 ProofsSobol7.
Import ListNotations.
Local Open Scope nat_scope.

(** ** Problems used in the examples *)
Definition ex_problem : problem :=
  mkProblem 3 ["x"; "y"; "z"]%string [[0; 1]; [-1; 1]; [2; 4]]%R (Some ["g"; "h"; "g"]%string) None false.
Definition ex_base : list (list R) := [[1; 2; 3; 4; 5; 6]; [7; 8; 9; 10; 11; 12]]%R.
Definition ex_single : problem := mkProblem 1 ["x"]%string [[0; 1]]%R None None false.

Lemma ex_grouped : grouped ex_problem ["g"; "h"; "g"]%string.
Proof. split; [reflexivity|]. split; [discriminate|]. exists "g"%string, "h"%string. simpl. intuition discriminate. Qed.
Lemma ex_appear : first_appearance ["g"; "h"; "g"]%string ["g"; "h"]%string.
Proof. exact (first_appearance_pd_unique ["g"; "h"; "g"]%string). Qed.
Lemma ex_count : group_count ex_problem 2.
Proof. left. do 2 eexists. split; [exact ex_grouped|]. split; [exact ex_appear|reflexivity]. Qed.
Lemma ex_labelled : labelled ex_problem.
Proof. intros g (E & _). injection E as <-. reflexivity. Qed.
Lemma ex_consistent : consistent ex_problem.
Proof.
  split; [exact ex_labelled|]. split; [repeat constructor; simpl; intuition discriminate|].
  split; [reflexivity|]. intros (g & x & l & E & H). injection E as <- <-.
  assert ("g" = "h")%string; [|discriminate].
  transitivity g; [|symmetry]; apply H; simpl; auto.
Qed.
Lemma ex_proper : proper_base ex_base (seq 0 2) ex_problem.
Proof. intros [|[|i]] H; simpl; [eauto|eauto|]. simpl in H. lia. Qed.
Lemma ex_single_consistent : consistent ex_single.
Proof.
  split; [intros g (E & _); discriminate|]. split; [repeat constructor; simpl; tauto|]. split; reflexivity.
Qed.

(** C11: layout of the design on the unit cube, for any base matrix. *)
Theorem C11_saltelli_layout : forall A zero (base : list (list A)) idxs p second, labelled p ->
  proper_base base idxs p ->
  exists rows G,
    cross_sample zero base idxs p second = Ok rows /\ group_count p G /\
    length rows = length idxs * block_size G second /\
    Forall (fun r => length r = p_num_vars p) rows /\
    forall i n a b, nth_error idxs i = Some n -> nth_error base n = Some (a ++ b) ->
      length a = p_num_vars p -> length b = p_num_vars p ->
      saltelli_block p G second a b
        (fun t => if t <? block_size G second then nth_error rows (i * block_size G second + t)
                  else None).
Proof. exact (fun A => @cross_sample_layout A). Qed.
Print Assumptions C11_saltelli_layout.

(** C11: the array sobol.sample returns has this layout in parameter units. *)
Theorem C11_sobol_sample : forall nq tq qrng p N second skip,
  (0 <= skip)%Z -> (N = 0 -> skip = 0%Z) -> labelled p -> p_dists p = None -> 0 < p_num_vars p ->
  length (p_bounds p) = p_num_vars p -> good_box (p_bounds p) ->
  proper_base (qrng (Z.to_nat skip) N) (seq 0 N) p ->
  exists p' m G, sobol_sample nq tq qrng p N second skip = (p', Ok (InPlace m)) /\
    group_count p G /\ length (rows m) = N * block_size G second /\
    (forall r, In r (rows m) -> length r = p_num_vars p) /\
    forall i a b, i < N -> nth_error (qrng (Z.to_nat skip) N) i = Some (a ++ b) ->
      length a = p_num_vars p -> length b = p_num_vars p ->
      exists a' b', physical (p_bounds p) a a' /\ physical (p_bounds p) b b' /\
        saltelli_block p G second a' b'
          (fun t => if t <? block_size G second then nth_error (rows m) (i * block_size G second + t)
                    else None).
Proof. exact sobol_public. Qed.
Print Assumptions C11_sobol_sample.

(** C11: so has the array saltelli.sample returns, from base row [s] on, where by default [s] is a
    power of two not below N or 16. *)
Theorem C11_saltelli_sample : forall nq tq sequence p N second skip s,
  saltelli_skip N skip = Ok s -> labelled p -> p_dists p = None -> 0 < p_num_vars p ->
  length (p_bounds p) = p_num_vars p -> good_box (p_bounds p) ->
  proper_base (sequence (N + s)) (seq s N) p ->
  exists p' m G, saltelli_sample nq tq sequence p N second skip = (p', Ok (InPlace m)) /\
    group_count p G /\ length (rows m) = N * block_size G second /\
    (forall r, In r (rows m) -> length r = p_num_vars p) /\
    forall i a b, i < N -> nth_error (sequence (N + s)) (s + i) = Some (a ++ b) ->
      length a = p_num_vars p -> length b = p_num_vars p ->
      exists a' b', physical (p_bounds p) a a' /\ physical (p_bounds p) b b' /\
        saltelli_block p G second a' b'
          (fun t => if t <? block_size G second then nth_error (rows m) (i * block_size G second + t)
                    else None).
Proof. exact saltelli_public. Qed.
Print Assumptions C11_saltelli_sample.

Theorem C11_saltelli_default_skip : forall N, 0 < N -> exists s, saltelli_skip N None = Ok s /\
  16 <= s /\ N <= s /\ exists e, s = 2 ^ e.
Proof. exact saltelli_skip_ok. Qed.
Print Assumptions C11_saltelli_default_skip.

(** A skip that is given: that many points are skipped; a negative one, or a positive one without points to draw, raises before the problem is touched. *)
Theorem C11_given_skip : forall nq tq sequence qrng p N second z,
  ((0 <= z)%Z -> 0 < N -> saltelli_skip N (Some z) = Ok (Z.to_nat z)) /\
  ((z < 0)%Z -> saltelli_sample nq tq sequence p N second (Some z) = (p, Err AssertionError) /\
                sobol_sample nq tq qrng p N second z = (p, Err ValueError)) /\
  ((0 < z)%Z -> N = 0 -> saltelli_sample nq tq sequence p N second (Some z) = (p, Err ValueError) /\
                         sobol_sample nq tq qrng p N second z = (p, Err OverflowError)).
Proof.
  intros nq tq sequence qrng p N second z. unfold saltelli_sample, sobol_sample, saltelli_skip. split; [|split]; intros H.
  - intros HN. apply Z.ltb_ge in H. rewrite H. rewrite (proj2 (Nat.eqb_neq N 0)), andb_false_r by lia. reflexivity.
  - apply Z.ltb_lt in H. rewrite H. auto.
  - intros ->. rewrite (proj2 (Z.ltb_ge z 0)) by lia. rewrite (proj2 (Z.ltb_lt 0 z) H). auto.
Qed.
Print Assumptions C11_given_skip.
Example C11_given_skip_example : saltelli_skip 8 (Some 32%Z) = Ok 32 /\ saltelli_skip 8 (Some (-1)%Z) = Err AssertionError /\ saltelli_skip 0 (Some 0%Z) = Ok 0.
Proof. repeat split; reflexivity. Qed.

Example C11_example : labelled ex_problem /\ proper_base ex_base (seq 0 2) ex_problem /\
  good_box (p_bounds ex_problem) /\ group_count ex_problem 2 /\
  cross_sample 0%R [[1; 2; 3; 4; 5; 6]]%R [0] ex_problem true
  = Ok [[1; 2; 3]; [4; 2; 6]; [1; 5; 3]; [1; 5; 3]; [4; 2; 6]; [4; 5; 6]]%R.
Proof.
  split; [exact ex_labelled|]. split; [exact ex_proper|]. split; [|split; [exact ex_count|reflexivity]].
  unfold good_box, ex_problem. simpl. repeat constructor; eexists; eexists; (split; [reflexivity|lra]).
Qed.

(** C12: any model evaluated row by row on the design is split by the analyser into its values at
    A, B, AB_k and BA_k. *)
Theorem C12_roundtrip : forall A B zero (base : list (list A)) idxs p second rows G (f : list A -> B),
  labelled p -> proper_base base idxs p -> group_count p G ->
  cross_sample zero base idxs p second = Ok rows ->
  exists ya yb yab yba,
    separate_output_values (map f rows) G (length idxs) second = Ok (ya, yb, yab, yba) /\
    length ya = length idxs /\ length yb = length idxs /\ length yab = G /\
    Forall (fun c => length c = length idxs) yab /\
    (second = true -> exists ba, yba = Some ba /\ length ba = G /\
                        Forall (fun c => length c = length idxs) ba) /\
    (second = false -> yba = None) /\
    forall i n a b, nth_error idxs i = Some n -> nth_error base n = Some (a ++ b) ->
      length a = p_num_vars p -> length b = p_num_vars p ->
      nth_error ya i = Some (f a) /\ nth_error yb i = Some (f b) /\
      (forall k, k < G -> exists r, replaced (in_group p k) a b r /\ entry yab k i = Some (f r)) /\
      (forall ba, yba = Some ba -> forall k, k < G ->
         exists r, replaced (in_group p k) b a r /\ entry ba k i = Some (f r)).
Proof. exact roundtrip. Qed.
Print Assumptions C12_roundtrip.

Example C12_example :
  labelled ex_problem /\ proper_base ex_base [0; 1] ex_problem /\ group_count ex_problem 2 /\
  exists rows, cross_sample 0%R ex_base [0; 1] ex_problem false = Ok rows /\
    separate_output_values (map (fun r => nth 0 r 0%R) rows) 2 2 false
    = Ok ([1; 7]%R, [4; 10]%R, [[4; 10]; [1; 7]]%R, None).
Proof.
  split; [exact ex_labelled|]. split; [exact ex_proper|]. split; [exact ex_count|].
  eexists. split; reflexivity.
Qed.

(** C13: which inputs the analyser accepts; [workers] describes a usable pool, if any. *)
Theorem C13_accepted_lengths : forall mu sigma Zq resample cpus p Y second conf keep workers,
  let bs := block_size (snd (extract_group_names p)) second in
  0 < snd (extract_group_names p) ->
  (forall np, workers = Some np -> np <> Some 0 /\ (np = None -> 0 < cpus)) ->
  ((length Y mod bs <> 0 \/ ~ (0 < conf < 1)%R) ->
   analyze_with mu sigma Zq resample cpus p Y second conf keep workers = Err RuntimeError) /\
  (length Y mod bs = 0 -> (0 < conf < 1)%R -> (Y = [] \/ resample (length Y / bs) = []) ->
   analyze_with mu sigma Zq resample cpus p Y second conf keep workers = Err ValueError) /\
  (length Y mod bs = 0 -> (0 < conf < 1)%R -> Y <> [] -> resample (length Y / bs) <> [] ->
   exists s, analyze_with mu sigma Zq resample cpus p Y second conf keep workers = Ok s).
Proof. exact analyze_total. Qed.
Print Assumptions C13_accepted_lengths.

(** Used in the examples: an accepted call. *)
Lemma ex_accepted : forall mu sigma Zq resample cpus p Y second conf keep workers D,
  snd (extract_group_names p) = S D ->
  (forall np, workers = Some np -> np <> Some 0 /\ (np = None -> 0 < cpus)) ->
  length Y mod block_size (S D) second = 0 -> (0 < conf < 1)%R -> Y <> [] ->
  resample (length Y / block_size (S D) second) <> [] ->
  exists s, analyze_with mu sigma Zq resample cpus p Y second conf keep workers = Ok s.
Proof.
  intros mu sigma Zq resample cpus p Y second conf keep workers D E Hw H1 H2 H3 H4.
  rewrite <- E in H1, H4.
  refine (proj2 (proj2 (C13_accepted_lengths mu sigma Zq resample cpus p Y second conf keep workers _ Hw)) H1 H2 H3 H4).
  rewrite E. lia.
Qed.

(** C13: sampler and analyser count the same groups for unambiguous problems.  Missing for the full
    property: single-group problems with several parameters and duplicate names (refuted below). *)
Theorem C13_same_group_count_partial : forall p G, consistent p -> group_count p G ->
  snd (extract_group_names p) = G.
Proof. exact consistent_groups. Qed.
Print Assumptions C13_same_group_count_partial.

(** C13, what fails: if all of several parameters share one group label, the sampler lays out one
    column swap per parameter and the analyser reads the rows as those of a single group. *)
Theorem C13_single_group_refuted : forall zero (base : list (list R)) N p second rows g x l,
  p_groups p = Some (x :: l) -> (forall y, In y (x :: l) -> y = g) ->
  labelled p -> proper_base base (seq 0 N) p ->
  cross_sample zero base (seq 0 N) p second = Ok rows ->
  length rows = N * block_size (p_num_vars p) second /\ snd (extract_group_names p) = 1.
Proof. exact single_group_length. Qed.
Print Assumptions C13_single_group_refuted.

(** For three parameters with second order this is 8N rows, a multiple of the 4 expected: the
    analysis is accepted and reports one index from 2N mixed-up "base points". *)
Example C13_single_group_accepted : forall f mu sigma Zq,
  let p := mkProblem 3 ["x"; "y"; "z"]%string [[0; 1]; [0; 1]; [0; 1]]%R (Some ["g"; "g"; "g"]%string) None false in
  exists rows s, cross_sample 0%R ex_base (seq 0 2) p true = Ok rows /\ length rows = 16 /\
    analyze_with mu sigma Zq (fun _ => [[0; 1]; [1; 1]]) 1 p (map f rows) true (1/2) false None = Ok s.
Proof.
  intros f mu sigma Zq p. exists [[1;2;3];[4;2;3];[1;5;3];[1;2;6];[1;5;6];[4;2;6];[4;5;3];[4;5;6];
             [7;8;9];[10;8;9];[7;11;9];[7;8;12];[7;11;12];[10;8;12];[10;11;9];[10;11;12]]%R.
  assert (H : exists s, analyze_with mu sigma Zq (fun _ => [[0; 1]; [1; 1]]) 1 p
     (map f [[1;2;3];[4;2;3];[1;5;3];[1;2;6];[1;5;6];[4;2;6];[4;5;3];[4;5;6];
             [7;8;9];[10;8;9];[7;11;9];[7;8;12];[7;11;12];[10;8;12];[10;11;9];[10;11;12]]%R) true (1/2) false None = Ok s).
  { apply ex_accepted with (D := 0); try reflexivity; try discriminate; lra. }
  destruct H as [s Hs]. exists s. split; [vm_compute; reflexivity|]. split; [reflexivity|]. exact Hs.
Qed.

Example C13_example : consistent ex_problem /\ group_count ex_problem 2 /\
  forall Zq resample, analyze_with 0 1 Zq resample 1 ex_problem (repeat 1%R 7) true (1/2) false None = Err RuntimeError.
Proof.
  split; [exact ex_consistent|]. split; [exact ex_count|]. intros Zq resample.
  refine (proj1 (C13_accepted_lengths 0 1 Zq resample 1 ex_problem (repeat 1%R 7) true (1/2) false None _ _) _).
  - change (0 < 2). lia.
  - discriminate.
  - left. change (7 mod 6 <> 0). discriminate.
Qed.

(** C14: [mu], [sigma] are whatever the implementation computes for the mean and the standard
    deviation ([sigma] = 0 means nan results).  "Zero if numeric" for the confidences: they are nan
    when a resample is constant, see C62. *)
Theorem C14_ignored_group_zero : forall zero base idxs p second rows G (f : list R -> R) k
    mu sigma Zq resample cpus conf keep workers s,
  consistent p -> proper_base base idxs p -> group_count p G -> k < G ->
  cross_sample zero base idxs p second = Ok rows -> ignores f p k -> sigma <> 0%R ->
  analyze_with mu sigma Zq resample cpus p (map f rows) second conf keep workers = Ok s ->
  nth_error (S1 s) k = Some (Some 0%R) /\ nth_error (ST s) k = Some (Some 0%R) /\
  (forall v, nth_error (S1_conf s) k = Some (Some v) -> v = 0%R) /\
  (forall v, nth_error (ST_conf s) k = Some (Some v) -> v = 0%R) /\
  (forall m col v, S1_conf_all s = Some m -> nth_error m k = Some col -> In (Some v) col -> v = 0%R) /\
  (forall m col v, ST_conf_all s = Some m -> nth_error m k = Some col -> In (Some v) col -> v = 0%R).
Proof. exact ignored_group_zero. Qed.
Print Assumptions C14_ignored_group_zero.

(** The model "first parameter" ignores group 1 ("h"). *)
Example C14_example : forall Zq, consistent ex_problem /\ ignores (fun x => nth 0 x 0%R) ex_problem 1 /\
  exists rows s, cross_sample 0%R ex_base [0; 1] ex_problem false = Ok rows /\
    analyze_with 0 1 Zq (fun _ => [[0; 1]; [1; 1]]) 1 ex_problem (map (fun x => nth 0 x 0%R) rows)
      false (1/2) true None = Ok s.
Proof.
  intros Zq. split; [exact ex_consistent|]. split.
  - intros x y Hx Hy H. destruct x as [|x0 x], y as [|y0 y]; try discriminate.
    specialize (H 0). simpl in H. assert (Some x0 = Some y0); [|simpl; congruence].
    apply H. intros [(g & ns & l & Hg & Hn & H1 & H2)|[Hu _]].
    + destruct Hg as (Eg & _). injection Eg as <-.
      rewrite (first_appearance_unique _ _ _ Hn ex_appear) in H1. simpl in H1, H2. congruence.
    + apply (Hu _ ex_grouped).
  - exists [[1;2;3];[4;2;6];[1;5;3];[4;5;6];[7;8;9];[10;8;12];[7;11;9];[10;11;12]]%R.
    assert (H : exists s, analyze_with 0 1 Zq (fun _ => [[0; 1]; [1; 1]]) 1 ex_problem
       (map (fun x => nth 0 x 0%R) [[1;2;3];[4;2;6];[1;5;3];[4;5;6];[7;8;9];[10;8;12];[7;11;9];[10;11;12]]%R)
       false (1/2) true None = Ok s).
    { apply ex_accepted with (D := 1); try reflexivity; try discriminate; lra. }
    destruct H as [s Hs]. exists s. split; [vm_compute; reflexivity|exact Hs].
Qed.

(** C15: total-order indices and their kept resamples are never negative ... *)
Theorem C15_total_nonnegative : forall mu sigma Zq resample cpus p Y second conf keep workers s,
  analyze_with mu sigma Zq resample cpus p Y second conf keep workers = Ok s ->
  (forall k v, nth_error (ST s) k = Some (Some v) -> (0 <= v)%R) /\
  (forall m k col v, ST_conf_all s = Some m -> nth_error m k = Some col -> In (Some v) col -> (0 <= v)%R).
Proof. exact ST_nonneg. Qed.
Print Assumptions C15_total_nonnegative.

(** ... and the whole result is unchanged by an affine change of the output. *)
Theorem C15_affine_invariant : forall Zq resample cpus p Y second conf keep workers a b, a <> 0%R ->
  analyze Zq resample cpus p (map (fun y => a * y + b)%R Y) second conf keep workers
  = analyze Zq resample cpus p Y second conf keep workers.
Proof. exact analyze_affine. Qed.
Print Assumptions C15_affine_invariant.

Example C15_example : forall Zq, exists s,
  analyze Zq (fun _ => [[0; 1]; [1; 1]]) 1 ex_single [1; 2; 3; 5; 7; 11]%R false (1/2) true (Some (Some 2)) = Ok s.
Proof.
  intros Zq. apply ex_accepted with (D := 0); try reflexivity; try discriminate; try lra.
  intros np H. injection H as <-. split; congruence.
Qed.

(** C16, what fails: with exact arithmetic a constant output has standard deviation 0, the outputs
    are divided by it before the estimators look at them, and every index is nan. *)
Theorem C16_constant_output_refuted : forall Zq resample cpus p Y c second conf keep workers s,
  (forall y, In y Y -> y = c) -> Y <> [] ->
  analyze Zq resample cpus p Y second conf keep workers = Ok s ->
  forall k, k < snd (extract_group_names p) ->
    nth_error (S1 s) k = Some None /\ nth_error (ST s) k = Some None /\
    nth_error (S1_conf s) k = Some None /\ nth_error (ST_conf s) k = Some None.
Proof. exact constant_nan. Qed.
Print Assumptions C16_constant_output_refuted.

(** C16, what remains: if the computed standard deviation is not 0 (rounding in the mean of a
    constant can leave a tiny residue), S1, ST and S2 are 0 and so are the first- and total-order
    confidences of a serial run; those of a parallel run and all second-order ones are nan. *)
Theorem C16_constant_output_partial : forall mu sigma Zq resample cpus p Y c second conf keep workers s,
  sigma <> 0%R -> (forall y, In y Y -> y = c) ->
  (forall n, Forall (Forall (fun i => i < n)) (resample n)) ->
  analyze_with mu sigma Zq resample cpus p Y second conf keep workers = Ok s ->
  let D := snd (extract_group_names p) in
  (forall k, k < D -> nth_error (S1 s) k = Some (Some 0%R) /\ nth_error (ST s) k = Some (Some 0%R)) /\
  (second = true -> forall j k, j < k -> k < D ->
     exists m, S2 s = Some m /\ entry m j k = Some (Some 0%R)) /\
  (workers = None ->
   forall k, k < D -> nth_error (S1_conf s) k = Some (Some 0%R) /\ nth_error (ST_conf s) k = Some (Some 0%R)) /\
  (workers <> None ->
   forall k, k < D -> nth_error (S1_conf s) k = Some None /\ nth_error (ST_conf s) k = Some None) /\
  (second = true -> forall j k, j < k -> k < D ->
     exists m, S2_conf s = Some m /\ entry m j k = Some None).
Proof. exact constant_output. Qed.
Print Assumptions C16_constant_output_partial.

Example C16_example : forall Zq, exists s s',
  analyze Zq (fun n => [seq 0 n; seq 0 n]) 1 ex_problem (repeat 4%R 12) true (1/2) false None = Ok s /\
  analyze_with 4 (1/1000) Zq (fun n => [seq 0 n; seq 0 n]) 1 ex_problem (repeat 4%R 12) true (1/2) false None = Ok s' /\
  (forall n, Forall (Forall (fun i => i < n)) [seq 0 n; seq 0 n]).
Proof.
  intros Zq.
  assert (H : forall mu sigma, exists s, analyze_with mu sigma Zq (fun n => [seq 0 n; seq 0 n]) 1 ex_problem (repeat 4%R 12) true (1/2) false None = Ok s).
  { intros. apply ex_accepted with (D := 1); try reflexivity; try discriminate; lra. }
  destruct (H (mean (repeat 4%R 12)) (sd (repeat 4%R 12))) as [s Hs]. destruct (H 4%R (1/1000)%R) as [s' Hs'].
  exists s, s'. split; [exact Hs|]. split; [exact Hs'|]. intros n.
  assert (Forall (fun i => i < n) (seq 0 n)) by (apply Forall_forall; intros i Hi; apply in_seq in Hi; lia).
  repeat constructor; auto.
Qed.

(** C17: a parallel run fails exactly when a serial one does and gives the same table, provided two
    outputs drawn into the bootstrap resamples differ.  Missing: constant resamples and the kept
    resamples (both refuted below). *)
Theorem C17_parallel_equals_serial_partial : forall mu sigma Zq resample cpus p Y second conf keep np,
  let D := snd (extract_group_names p) in
  np <> Some 0 -> (np = None -> 0 < cpus) -> 0 < D ->
  drawn_varied Y D second (resample (length Y / block_size D second)) ->
  (forall e, analyze_with mu sigma Zq resample cpus p Y second conf keep None = Err e <->
             analyze_with mu sigma Zq resample cpus p Y second conf keep (Some np) = Err e) /\
  (forall s s', analyze_with mu sigma Zq resample cpus p Y second conf keep None = Ok s ->
     analyze_with mu sigma Zq resample cpus p Y second conf keep (Some np) = Ok s' ->
     S1 s = S1 s' /\ S1_conf s = S1_conf s' /\ ST s = ST s' /\ ST_conf s = ST_conf s' /\
     S2 s = S2 s' /\ S2_conf s = S2_conf s').
Proof. exact parallel_equals_serial. Qed.
Print Assumptions C17_parallel_equals_serial_partial.

(** C17: the order in which the workers' results come back, and how they are grouped, is
    irrelevant. *)
Theorem C17_any_order : forall Z A B AB BA r D second n keep np cpus s tasks S_list S_list',
  length AB = D -> (second = true -> exists ba, BA = Some ba /\ length ba = D) ->
  create_task_list D second np cpus = Ok tasks ->
  mapM (sobol_parallel Z A B AB BA r) tasks = Ok S_list ->
  Si_list_to_dict S_list D n keep second = Ok s ->
  (forall tv, In tv (concat S_list') <-> In tv (concat S_list)) ->
  exists s', Si_list_to_dict S_list' D n keep second = Ok s' /\
     S1 s = S1 s' /\ S1_conf s = S1_conf s' /\ ST s = ST s' /\ ST_conf s = ST_conf s' /\
     S2 s = S2 s' /\ S2_conf s = S2_conf s'.
Proof. exact any_order. Qed.
Print Assumptions C17_any_order.

(** C17, what fails: resamples without variation give confidence 0 serially and nan in parallel. *)
Theorem C17_constant_resamples_refuted :
  forall mu sigma Zq resample cpus p Y second conf keep np s s',
  let D := snd (extract_group_names p) in
  let r := resample (length Y / block_size D second) in
  sigma <> 0%R -> Forall (Forall (fun i => i < length Y / block_size D second)) r ->
  drawn_constant Y D second (concat r) ->
  analyze_with mu sigma Zq resample cpus p Y second conf keep None = Ok s ->
  analyze_with mu sigma Zq resample cpus p Y second conf keep (Some np) = Ok s' ->
  forall k, k < D ->
    nth_error (S1_conf s) k = Some (Some 0%R) /\ nth_error (ST_conf s) k = Some (Some 0%R) /\
    nth_error (S1_conf s') k = Some None /\ nth_error (ST_conf s') k = Some None.
Proof. exact constant_resamples. Qed.
Print Assumptions C17_constant_resamples_refuted.

Lemma ex_runs : forall mu sigma Zq (r : list (list nat)) workers Y, r <> [] -> Y <> [] -> length Y mod 3 = 0 ->
  (workers = None \/ workers = Some (Some 2)) ->
  exists s, analyze_with mu sigma Zq (fun _ => r) 1 ex_single Y false (1/2) true workers = Ok s.
Proof.
  intros mu sigma Zq r workers Y Hr HY HL Hw.
  apply ex_accepted with (D := 0); auto; try reflexivity; try lra.
  intros np E. destruct Hw; [congruence|]. rewrite E in H. injection H as ->. split; congruence.
Qed.


Lemma ex_single_sd : sd [0; 1; 0]%R <> 0%R.
Proof.
  intros E. assert (Q : (0 = 1)%R); [|lra].
  apply (proj1 (sd_zero_iff [0; 1; 0]%R ltac:(congruence)) E); simpl; auto.
Qed.

Example C17_constant_resamples_witness : forall Zq, exists s s',
  analyze Zq (fun _ => [[0]; [0]]) 1 ex_single [0; 1; 0]%R false (1/2) true None = Ok s /\
  analyze Zq (fun _ => [[0]; [0]]) 1 ex_single [0; 1; 0]%R false (1/2) true (Some (Some 2)) = Ok s' /\
  nth_error (S1_conf s) 0 = Some (Some 0%R) /\ nth_error (S1_conf s') 0 = Some None.
Proof.
  intros Zq.
  destruct (ex_runs (mean [0; 1; 0]%R) (sd [0; 1; 0]%R) Zq [[0]; [0]] None [0; 1; 0]%R) as [s Hs];
    try congruence; auto.
  destruct (ex_runs (mean [0; 1; 0]%R) (sd [0; 1; 0]%R) Zq [[0]; [0]] (Some (Some 2)) [0; 1; 0]%R) as [s' Hs'];
    try congruence; auto.
  exists s, s'. split; auto. split; auto.
  refine (match C17_constant_resamples_refuted _ _ _ _ _ _ _ _ _ _ _ _ _ ex_single_sd _ _ Hs Hs' 0 _
          with conj a (conj _ (conj b _)) => conj a b end).
  - repeat constructor.
  - exists 0%R. simpl. intros i [<-|[<-|[]]]; split; reflexivity.
  - change (0 < 1). lia.
Qed.

(** C17, what fails as well: a parallel run returns zeros for the resamples it was asked to keep. *)
Theorem C17_kept_resamples_refuted : forall mu sigma Zq resample cpus p Y second conf np s',
  let D := snd (extract_group_names p) in
  let r := resample (length Y / block_size D second) in
  sigma <> 0%R ->
  analyze_with mu sigma Zq resample cpus p Y second conf true (Some np) = Ok s' ->
  S1_conf_all s' = Some (repeat (repeat (Some 0%R) (length r)) D) /\
  ST_conf_all s' = Some (repeat (repeat (Some 0%R) (length r)) D).
Proof. exact parallel_kept_zero. Qed.
Print Assumptions C17_kept_resamples_refuted.

Theorem C17_kept_resamples_serial_refuted : forall Zq cpus s,
  let p := mkProblem 1 ["x"%string] [[0; 1]%R] None None false in
  analyze Zq (fun _ => [[0]; [0]]) cpus p [0; 1; 3]%R false (1/2) true None = Ok s ->
  S1_conf_all s <> Some (repeat (repeat (Some 0%R) 2) 1).
Proof. exact serial_kept_nonzero. Qed.
Print Assumptions C17_kept_resamples_serial_refuted.

Example C17_kept_resamples_witness : forall Zq, exists s s',
  analyze Zq (fun _ => [[0]; [0]]) 1 ex_single [0; 1; 3]%R false (1/2) true None = Ok s /\
  analyze Zq (fun _ => [[0]; [0]]) 1 ex_single [0; 1; 3]%R false (1/2) true (Some (Some 2)) = Ok s' /\
  S1_conf_all s <> S1_conf_all s'.
Proof.
  intros Zq.
  destruct (ex_runs (mean [0; 1; 3]%R) (sd [0; 1; 3]%R) Zq [[0]; [0]] None [0; 1; 3]%R) as [s Hs];
    try congruence; auto.
  destruct (ex_runs (mean [0; 1; 3]%R) (sd [0; 1; 3]%R) Zq [[0]; [0]] (Some (Some 2)) [0; 1; 3]%R) as [s' Hs'];
    try congruence; auto.
  exists s, s'. split; auto. split; auto.
  assert (Hsd : sd [0; 1; 3]%R <> 0%R).
  { intros E. assert (Q : (0 = 1)%R); [|lra].
    apply (proj1 (sd_zero_iff [0; 1; 3]%R ltac:(congruence)) E); simpl; auto. }
  pose proof (C17_kept_resamples_serial_refuted Zq 1 s Hs) as N1.
  destruct (C17_kept_resamples_refuted _ _ _ _ _ _ _ _ _ _ _ Hsd Hs') as [E1 _].
  intros E. apply N1. rewrite E, E1. reflexivity.
Qed.

(** A run to which the partial theorem applies. *)
Example C17_example : drawn_varied [0; 1; 3]%R 1 false [[0]; [0]] /\
  forall Zq, exists s, analyze Zq (fun _ => [[0]; [0]]) 1 ex_single [0; 1; 3]%R false (1/2) true None = Ok s.
Proof.
  split.
  - exists 0, 0, 0%R, 3%R. simpl. repeat split; auto; try (intro; lra).
  - intros Zq. apply (ex_runs (mean [0; 1; 3]%R) (sd [0; 1; 3]%R)); try congruence; auto.
Qed.

(** C18: S2 is filled exactly above the diagonal ... *)
Theorem C18_upper_triangle : forall mu sigma Zq resample cpus p Y conf keep workers s,
  sigma <> 0%R ->
  analyze_with mu sigma Zq resample cpus p Y true conf keep workers = Ok s ->
  exists m mc, S2 s = Some m /\ S2_conf s = Some mc /\
    length m = snd (extract_group_names p) /\ length mc = snd (extract_group_names p) /\
    forall j k, j < snd (extract_group_names p) -> k < snd (extract_group_names p) ->
      (j < k -> exists v, entry m j k = Some (Some v)) /\
      (~ j < k -> entry m j k = Some None /\ entry mc j k = Some None) /\
      (exists v, entry mc j k = Some v).
Proof. exact second_table. Qed.
Print Assumptions C18_upper_triangle.

(** ... and to_df lists every pair of names once, with the value of that pair.  Missing: problems
    with one group (refuted below). *)
Theorem C18_data_frame_partial : forall mu sigma Zq resample cpus p Y conf keep workers s,
  sigma <> 0%R -> 2 <= snd (extract_group_names p) ->
  analyze_with mu sigma Zq resample cpus p Y true conf keep workers = Ok s ->
  exists idx v vc, second_frame p s = Ok (Some (idx, v, vc)) /\
    NoDup idx /\ length v = length idx /\ length vc = length idx /\
    (forall a b, In (a, b) idx <-> exists j k, j < k /\
       nth_error (fst (extract_group_names p)) j = Some a /\
       nth_error (fst (extract_group_names p)) k = Some b) /\
    (forall q a b j k, nth_error idx q = Some (a, b) ->
       nth_error (fst (extract_group_names p)) j = Some a ->
       nth_error (fst (extract_group_names p)) k = Some b ->
       exists m mc, S2 s = Some m /\ S2_conf s = Some mc /\
         nth_error v q = entry m j k /\ nth_error vc q = entry mc j k).
Proof. exact second_report. Qed.
Print Assumptions C18_data_frame_partial.

Theorem C18_single_parameter_refuted : forall mu sigma Zq resample cpus p Y conf keep workers s,
  sigma <> 0%R -> snd (extract_group_names p) = 1 ->
  analyze_with mu sigma Zq resample cpus p Y true conf keep workers = Ok s ->
  second_frame p s = Err IndexError.
Proof. exact second_report_single. Qed.
Print Assumptions C18_single_parameter_refuted.

Example C18_example : forall mu sigma Zq, exists s s',
  analyze_with mu sigma Zq (fun _ => [[0; 1]; [1; 1]]) 1 ex_problem (map INR (seq 0 12)) true (1/2) false None = Ok s /\
  extract_group_names ex_problem = (["g"; "h"]%string, 2) /\
  analyze_with mu sigma Zq (fun _ => [[0; 1]; [1; 1]]) 1 ex_single (map INR (seq 0 12)) true (1/2) false None = Ok s' /\
  snd (extract_group_names ex_single) = 1.
Proof.
  intros mu sigma Zq.
  assert (H : exists s, analyze_with mu sigma Zq (fun _ => [[0; 1]; [1; 1]]) 1 ex_problem (map INR (seq 0 12)) true (1/2) false None = Ok s)
    by (apply ex_accepted with (D := 1); try reflexivity; try discriminate; lra).
  assert (H' : exists s, analyze_with mu sigma Zq (fun _ => [[0; 1]; [1; 1]]) 1 ex_single (map INR (seq 0 12)) true (1/2) false None = Ok s)
    by (apply ex_accepted with (D := 0); try reflexivity; try discriminate; lra).
  destruct H as [s Hs], H' as [s' Hs']. exists s, s'. repeat split; auto.
Qed.

(** C62: first- and total-order indices are numbers whenever the computed deviation is not 0. *)
Theorem C62_indices_numeric : forall mu sigma Zq resample cpus p Y second conf keep workers s,
  sigma <> 0%R ->
  analyze_with mu sigma Zq resample cpus p Y second conf keep workers = Ok s ->
  length (S1 s) = snd (extract_group_names p) /\ length (ST s) = snd (extract_group_names p) /\
  (forall x, In x (S1 s) \/ In x (ST s) -> exists v, x = Some v).
Proof. exact indices_numeric. Qed.
Print Assumptions C62_indices_numeric.

(** C62: confidences are non-negative numbers if every resample is varied.  Missing: resamples that
    happen to be constant (refuted below). *)
Theorem C62_confidence_partial : forall mu sigma Zq resample cpus p Y second conf keep workers s,
  let D := snd (extract_group_names p) in
  let r := resample (length Y / block_size D second) in
  sigma <> 0%R -> (0 <= Zq conf)%R -> 2 <= length r ->
  (forall idx, In idx r -> drawn_varied Y D second [idx]) ->
  analyze_with mu sigma Zq resample cpus p Y second conf keep workers = Ok s ->
  forall x, In x (S1_conf s) \/ In x (ST_conf s) -> exists v, x = Some v /\ (0 <= v)%R.
Proof. exact conf_numeric. Qed.
Print Assumptions C62_confidence_partial.

(** C62, what fails: one constant resample among varied ones turns every confidence into nan. *)
Theorem C62_confidence_nan_refuted :
  forall mu sigma Zq resample cpus p Y second conf keep workers s idx,
  let D := snd (extract_group_names p) in
  let r := resample (length Y / block_size D second) in
  sigma <> 0%R -> Forall (Forall (fun i => i < length Y / block_size D second)) r ->
  drawn_varied Y D second r -> In idx r -> idx <> [] -> drawn_constant Y D second idx ->
  analyze_with mu sigma Zq resample cpus p Y second conf keep workers = Ok s ->
  forall k, k < D -> nth_error (S1_conf s) k = Some None /\ nth_error (ST_conf s) k = Some None.
Proof. exact one_constant_resample. Qed.
Print Assumptions C62_confidence_nan_refuted.

Example C62_example :
  (forall idx, In idx [[0; 1]; [1; 0]] -> drawn_varied [0; 5; 0; 1; 5; 1]%R 1 false [idx]) /\
  drawn_varied [0; 5; 0; 1; 5; 1]%R 1 false [[0; 0]; [0; 1]] /\
  drawn_constant [0; 5; 0; 1; 5; 1]%R 1 false [0; 0] /\
  Forall (Forall (fun i => i < 2)) [[0; 0]; [0; 1]] /\
  forall mu sigma Zq r, r <> [] -> exists s,
    analyze_with mu sigma Zq (fun _ => r) 1 ex_single [0; 5; 0; 1; 5; 1]%R false (1/2) true None = Ok s.
Proof.
  repeat split.
  - intros idx H. exists 0, 1, 0%R, 1%R. simpl in *.
    destruct H as [<-|[<-|[]]]; simpl; repeat split; auto; try (left; reflexivity); try (intro; lra).
  - exists 0, 1, 0%R, 1%R. simpl. repeat split; auto; try (left; reflexivity); try (intro; lra).
  - exists 0%R. simpl. intros i [<-|[<-|[]]]; split; reflexivity.
  - repeat constructor.
  - intros. apply ex_runs; auto; congruence.
Qed.

(** C63: closed formulas of the indices in the raw outputs. *)
Theorem C63_index_formulas : forall mu sigma Zq resample cpus p Y second conf keep workers s,
  let D := snd (extract_group_names p) in
  let N := length Y / block_size D second in
  let a i := out Y D second i 0 in
  let b i := out Y D second i (block_size D second - 1) in
  let ab k i := out Y D second i (1 + k) in
  let ba k i := out Y D second i (1 + D + k) in
  let base := map a (seq 0 N) ++ map b (seq 0 N) in
  sigma <> 0%R ->
  analyze_with mu sigma Zq resample cpus p Y second conf keep workers = Ok s ->
  ((forall x y, In x base -> In y base -> x = y) ->
   (forall k, k < D -> nth_error (S1 s) k = Some (Some 0%R) /\ nth_error (ST s) k = Some (Some 0%R)) /\
   (second = true -> forall j k, j < k -> k < D ->
      exists m, S2 s = Some m /\ entry m j k = Some (Some 0%R))) /\
  (~ (forall x y, In x base -> In y base -> x = y) ->
   (forall k, k < D ->
      nth_error (S1 s) k =
        Some (Some (mean (map (fun i => (b i - mu) * (ab k i - a i))%R (seq 0 N)) / var base)%R) /\
      nth_error (ST s) k =
        Some (Some (mean (map (fun i => (a i - ab k i) ^ 2)%R (seq 0 N)) / (2 * var base))%R)) /\
   (second = true -> forall j k, j < k -> k < D ->
      exists m, S2 s = Some m /\ entry m j k = Some (Some
       ((mean (map (fun i => (ba j i - mu) * (ab k i - mu) - (a i - mu) * (b i - mu))%R (seq 0 N))
         - mean (map (fun i => (b i - mu) * (ab j i - a i))%R (seq 0 N))
         - mean (map (fun i => (b i - mu) * (ab k i - a i))%R (seq 0 N))) / var base)%R))).
Proof. exact analyze_formulas. Qed.
Print Assumptions C63_index_formulas.

(** One base point, outputs a = 0, ab = 1, b = 3: S1 = (3 - mu) / var, ST = 1 / (2 var), var = 9/4. *)
Example C63_example : forall Zq s,
  analyze Zq (fun _ => [[0]; [0]]) 1 ex_single [0; 1; 3]%R false (1/2) true None = Ok s ->
  nth_error (S1 s) 0 = Some (Some (20/27)%R) /\ nth_error (ST s) 0 = Some (Some (2/9)%R).
Proof.
  intros Zq s Hs.
  assert (Hsd : sd [0; 1; 3]%R <> 0%R).
  { intros E. assert (Q : (0 = 1)%R); [|lra].
    apply (proj1 (sd_zero_iff [0; 1; 3]%R ltac:(congruence)) E); simpl; auto. }
  destruct (C63_index_formulas _ _ _ _ _ _ _ _ _ _ _ _ Hsd Hs) as [_ H].
  destruct H as [H _].
  - change (~ (forall x y : R, In x [0; 3]%R -> In y [0; 3]%R -> x = y)).
    intros H. assert (Q : (0 = 3)%R) by (apply H; simpl; auto). lra.
  - destruct (H 0) as [H1 H2]; [change (0 < 1); lia|]. rewrite H1, H2.
    change (length [0; 1; 3]%R / block_size (snd (extract_group_names ex_single)) false) with 1.
    change (snd (extract_group_names ex_single)) with 1.
    unfold mean, var, out, mean. simpl. split; do 2 f_equal; field.
Qed.
