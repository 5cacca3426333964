(** * Properties C01, C02, C07, C08 (grouping helpers and parameter files). *)
From Coq Require Import Reals Ascii String List Arith.
From Verif Require Import Base ModelGroups SpecGroups ProofsGroups ProofsGroups2.
Import ListNotations.

(** C01: the group names have no duplicates, are exactly the labels of the problem, are counted
    correctly and come in order of first appearance. *)
Theorem C01_group_names : forall p ls names n,
  labels_of p ls -> extract_group_names p = (names, n) ->
  NoDup names /\ (forall x, In x names <-> In x ls) /\ n = length names /\
  (forall i j x y, i < j -> nth_error names i = Some x -> nth_error names j = Some y ->
     exists a b, a < b /\ first_at ls x a /\ first_at ls y b).
Proof. exact group_names_lemma. Qed.
Print Assumptions C01_group_names.

Example C01_example :
  extract_group_names (mkProblem 4 ["a"; "b"; "c"; "d"]%string [] (Some ["g2"; "g1"; "g2"; "g3"]%string)
                         None false) = (["g2"; "g1"; "g3"]%string, 3) /\
  extract_group_names (mkProblem 2 ["a"; "b"]%string [] (Some []) None false)
  = (["a"; "b"]%string, 2).
Proof. split; reflexivity. Qed.

(** C01, same law for the names returned next to the group matrix. *)
Theorem C01_matrix_names : forall groups m names,
  compute_groups_matrix groups = Ok (m, names) ->
  NoDup names /\ (forall x, In x names <-> In x groups) /\
  (forall i j x y, i < j -> nth_error names i = Some x -> nth_error names j = Some y ->
     exists a b, a < b /\ first_at groups x a /\ first_at groups y b).
Proof. exact matrix_names_lemma. Qed.
Print Assumptions C01_matrix_names.

(** C02: the group matrix always exists, ... *)
Theorem C02_group_matrix_total : forall groups,
  exists m names, compute_groups_matrix groups = Ok (m, names).
Proof.
  exact (fun groups => match compute_groups_matrix_total groups with
                       | ex_intro _ m H => ex_intro _ m (ex_intro _ _ H) end).
Qed.
Print Assumptions C02_group_matrix_total.

(** ... has one 0/1 row per parameter, and entry (i,k) is 1 iff parameter i carries the k-th name; *)
Theorem C02_group_matrix_entries : forall groups m names,
  compute_groups_matrix groups = Ok (m, names) ->
  length m = length groups /\
  (forall r, In r m -> length r = length names /\ forall v, In v r -> v = 0 \/ v = 1) /\
  (forall i k, entry m i k = Some 1 <->
     exists g, nth_error groups i = Some g /\ nth_error names k = Some g).
Proof. exact groups_matrix_membership. Qed.
Print Assumptions C02_group_matrix_entries.

(** each row has exactly one 1, each column at least one. *)
Theorem C02_group_matrix_partition : forall groups m names,
  compute_groups_matrix groups = Ok (m, names) ->
  (forall i, i < length groups -> exists k, entry m i k = Some 1 /\
             forall k', entry m i k' = Some 1 -> k' = k) /\
  (forall k, k < length names -> exists i, entry m i k = Some 1).
Proof. exact groups_matrix_row_col. Qed.
Print Assumptions C02_group_matrix_partition.

Example C02_example :
  compute_groups_matrix ["G1"; "G2"; "G2"; "G1"]%string
  = Ok ([[1; 0]; [0; 1]; [0; 1]; [1; 0]], ["G1"; "G2"]%string).
Proof. reflexivity. Qed.

(** C07: what a successfully read parameter file contains. *)
Theorem C07_param_file : forall rs ks p,
  param_rows rs ks -> read_param_file rs = Ok p ->
  p_names p = map r_name ks /\
  p_num_vars p = length ks /\
  Forall2 (fun r b => exists lo up, r_lower r = Ok lo /\ r_upper r = Ok up /\ b = [lo; up])
          ks (p_bounds p) /\
  (p_groups p = None <-> forall r, In r ks -> effective_group r (r_name r)) /\
  (forall g, p_groups p = Some g -> Forall2 effective_group ks g) /\
  (p_dists p = None <-> forall r, In r ks -> effective_dist r "unif"%string) /\
  (forall d, p_dists p = Some d -> Forall2 effective_dist ks d).
Proof. exact read_param_file_ok. Qed.
Print Assumptions C07_param_file.

(** C07: a file is rejected exactly for an unreadable bound or a single foreign group. *)
Theorem C07_param_file_rejected : forall rs ks,
  param_rows rs ks ->
  ((exists e, read_param_file rs = Err e) <->
   (exists r, In r ks /\ bad_number r) \/
   ((exists r, In r ks /\ ~ effective_group r (r_name r)) /\
    (exists g, forall r, In r ks -> effective_group r g))).
Proof. exact read_param_file_err. Qed.
Print Assumptions C07_param_file_rejected.

(** C07: every file has exactly one list of parameter rows, so the two theorems above apply. *)
Theorem C07_param_rows_functional : forall rs, exists! ks, param_rows rs ks.
Proof.
  exact (fun rs => ex_intro _ (kept rs)
           (conj (param_rows_kept rs) (fun ks H => eq_sym (param_rows_unique rs ks H)))).
Qed.
Print Assumptions C07_param_rows_functional.

Example C07_example :
  let rows := [mkRow "  # comment" (Err ValueError) (Err ValueError) None None;
               mkRow "x1" (Ok 0%R) (Ok 1%R) (Some "G1") (Some "norm");
               mkRow "x2" (Ok 2%R) (Ok 3%R) (Some "NA") None]%string in
  read_param_file rows =
  Ok (mkProblem 2 ["x1"; "x2"]%string [[0; 1]; [2; 3]]%R (Some ["G1"; "x2"]%string)
        (Some ["norm"; "unif"]%string) false).
Proof. reflexivity. Qed.

Example C07_example_rejected :
  read_param_file [mkRow "x1" (Ok 0%R) (Ok 1%R) (Some "G1") None;
                   mkRow "x2" (Ok 2%R) (Ok 3%R) (Some "G1") None]%string = Err ValueError.
Proof. reflexivity. Qed.

(** C08: completing a problem with default groups, all cases. *)
Theorem C08_default_groups : forall p,
  (p_groups p = None \/ p_groups p = Some []) /\
    (exists p', define_problem_with_groups p = Ok p' /\ p_groups p' = Some (p_names p) /\
       p_names p' = p_names p /\ p_num_vars p' = p_num_vars p /\ p_bounds p' = p_bounds p /\
       p_dists p' = p_dists p /\ p_scaled p' = p_scaled p)
  \/ (exists g, p_groups p = Some g /\ g <> [] /\ length g = p_num_vars p /\
        define_problem_with_groups p = Ok p)
  \/ (exists g, p_groups p = Some g /\ g <> [] /\ length g <> p_num_vars p /\
        define_problem_with_groups p = Err ValueError).
Proof. exact define_groups_cases. Qed.
Print Assumptions C08_default_groups.

(** C08: doing it twice equals doing it once. *)
Theorem C08_default_groups_idempotent : forall p p',
  length (p_names p) = p_num_vars p ->
  define_problem_with_groups p = Ok p' -> define_problem_with_groups p' = Ok p'.
Proof. exact define_groups_idem. Qed.
Print Assumptions C08_default_groups_idempotent.

(** C08: the samplers treat a problem as grouped iff it has two distinct labels and the labels
    are not just the names. *)
Theorem C08_grouped_iff : forall p g,
  check_groups p = Some g <->
  p_groups p = Some g /\ g <> p_names p /\ exists x y, In x g /\ In y g /\ x <> y.
Proof. exact check_groups_iff. Qed.
Print Assumptions C08_grouped_iff.

Example C08_example :
  define_problem_with_groups (mkProblem 2 ["a"; "b"]%string [] None None false)
  = Ok (mkProblem 2 ["a"; "b"]%string [] (Some ["a"; "b"]%string) None false) /\
  check_groups (mkProblem 3 ["a"; "b"; "c"]%string [] (Some ["g"; "h"; "g"]%string) None false)
  = Some ["g"; "h"; "g"]%string /\
  check_groups (mkProblem 3 ["a"; "b"; "c"]%string [] (Some ["g"; "g"; "g"]%string) None false)
  = None.
Proof. repeat split; reflexivity. Qed.
