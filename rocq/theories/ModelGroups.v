(** * Model of problem specifications, grouping helpers and parameter files. *)
From Coq Require Import Reals Ascii String List Arith Bool.
From Verif Require Import Base.
Import ListNotations.
Local Open Scope string_scope.
Local Open Scope nat_scope.

(** The problem dictionary (src/SALib/util/__init__.py:74-75, util_funcs.py:109-115).
    [None] stands for both a missing key and an explicit [None]; labels are strings
    (numpy would turn other labels into strings, util/__init__.py:311).  [p_scaled] is the
    "sample_scaled" entry (util/__init__.py:88). *)
Record problem : Type := mkProblem {
  p_num_vars : nat;
  p_names : list string;
  p_bounds : list (list R);
  p_groups : option (list string);
  p_dists : option (list string);
  p_scaled : bool
}.

(** Python truthiness of [problem.get("groups")]: missing, None and [] are falsy
    (util/__init__.py:306, 372; util_funcs.py:121). *)
Definition truthy_groups (p : problem) : option (list string) :=
  match p_groups p with
  | Some (g :: gs) => Some (g :: gs)
  | _ => None
  end.

(** Membership test on a list of labels (Python [in]). *)
Fixpoint mem (x : string) (l : list string) : bool :=
  match l with [] => false | y :: r => String.eqb x y || mem x r end.

(** [pd.unique(np.array(l))]: hash-table based unique that keeps first occurrences in order
    (used at util/__init__.py:311 and 339). *)
Fixpoint pd_unique_from (seen : list string) (l : list string) : list string :=
  match l with
  | [] => []
  | x :: r => if mem x seen then pd_unique_from seen r
              else x :: pd_unique_from (x :: seen) r
  end.
Definition pd_unique (l : list string) : list string := pd_unique_from [] l.

(** extract_group_names, util/__init__.py:292-314. *)
Definition extract_group_names (p : problem) : list string * nat :=
  let groups := match truthy_groups p with None => p_names p | Some g => g end in
  let names := pd_unique groups in
  (names, length names).

(** [dict([(x, i) for (i, x) in enumerate(names)])[g]], util/__init__.py:342, 347: for
    duplicate keys the last position would win; KeyError when absent. *)
Fixpoint dict_index (g : string) (names : list string) (i : nat) (found : option nat)
  : option nat :=
  match names with
  | [] => found
  | x :: r => dict_index g r (S i) (if String.eqb x g then Some i else found)
  end.

(** compute_groups_matrix, util/__init__.py:317-350: zero matrix, then
    [output[row, indices[group]] = 1] for each parameter. *)
Definition compute_groups_matrix (groups : list string)
  : result (list (list nat) * list string) :=
  let names := pd_unique groups in
  let g := length names in
  do out <- mapM (fun label =>
                    match dict_index label names 0 None with
                    | None => Err KeyError
                    | Some k => Ok (update (repeat 0 g) k 1)
                    end) groups ;;
  Ok (out, names).

(** _define_problem_with_groups, util/__init__.py:353-378 and the identical copy in
    util_funcs.py:155-181.  (The Python version stores the [names] list object itself, so
    that [groups] aliases [names]; objects are values here.) *)
Definition define_problem_with_groups (p : problem) : result problem :=
  match truthy_groups p with
  | None => Ok (mkProblem (p_num_vars p) (p_names p) (p_bounds p) (Some (p_names p))
                          (p_dists p) (p_scaled p))
  | Some g => if negb (length g =? p_num_vars p) then Err ValueError else Ok p
  end.

(** Python list equality on labels (util_funcs.py:96, 123). *)
Fixpoint list_eqb (l l' : list string) : bool :=
  match l, l' with
  | [], [] => true
  | x :: r, y :: r' => String.eqb x y && list_eqb r r'
  | _, _ => false
  end.

(** [len(set(l))] (util_funcs.py:98, 126). *)
Definition set_size (l : list string) : nat := length (nodup string_dec l).

(** _check_groups, util_funcs.py:118-129; [None] models the returned [False]. *)
Definition check_groups (p : problem) : option (list string) :=
  match truthy_groups p with
  | None => None
  | Some g => if list_eqb g (p_names p) then None
              else if set_size g =? 1 then None
              else Some g
  end.

(** One row produced by csv.DictReader (util_funcs.py:71-72); [r_lower]/[r_upper] are the
    outcomes of [float(...)] on the second and third cells (ValueError/TypeError when it
    raises); [None] group/dist = column missing.  Sniffing and tokenising are not modelled. *)
Record csv_row : Type := mkRow {
  r_name : string;
  r_lower : result R;
  r_upper : result R;
  r_group : option string;
  r_dist : option string
}.

(** ASCII whitespace removed by [str.strip] (util_funcs.py:73). *)
Definition is_space (c : ascii) : bool :=
  let n := nat_of_ascii c in
  (n =? 32) || ((9 <=? n) && (n <=? 13)) || ((28 <=? n) && (n <=? 31)).

(** [name.strip().startswith("#")], util_funcs.py:73: stripping the end cannot matter unless
    the name is all blanks, in which case there is no "#". *)
Fixpoint is_comment (s : string) : bool :=
  match s with
  | EmptyString => false
  | String c r => if is_space c then is_comment r
                  else Ascii.eqb c "#"%char
  end.

(** util_funcs.py:82-87: missing or "NA" group means the parameter's own name. *)
Definition row_group (r : csv_row) : string :=
  match r_group r with
  | None => r_name r
  | Some g => if String.eqb g "NA" then r_name r else g
  end.

(** util_funcs.py:91-94: missing distribution means "unif". *)
Definition row_dist (r : csv_row) : string :=
  match r_dist r with None => "unif" | Some d => d end.

(** Accumulators of the reading loop, util_funcs.py:61-65. *)
Record acc : Type := mkAcc {
  a_names : list string; a_bounds : list (list R);
  a_groups : list string; a_dists : list string; a_num : nat }.

(** One iteration of the loop, util_funcs.py:72-94. *)
Definition read_row (a : acc) (r : csv_row) : result acc :=
  if is_comment (r_name r) then Ok a
  else
    do lo <- r_lower r ;;
    do up <- r_upper r ;;
    Ok (mkAcc (a_names a ++ [r_name r]) (a_bounds a ++ [[lo; up]])
              (a_groups a ++ [row_group r]) (a_dists a ++ [row_dist r]) (S (a_num a))).

Fixpoint read_rows (a : acc) (rs : list csv_row) : result acc :=
  match rs with
  | [] => Ok a
  | r :: rest => do a' <- read_row a r ;; read_rows a' rest
  end.

(** read_param_file, util_funcs.py:33-115, on the rows delivered by the CSV reader. *)
Definition read_param_file (rs : list csv_row) : result problem :=
  do a <- read_rows (mkAcc [] [] [] [] 0) rs ;;
  do groups <-
    (if list_eqb (a_groups a) (a_names a) then Ok None
     else if set_size (a_groups a) =? 1 then Err ValueError
     else Ok (Some (a_groups a))) ;;
  let dists := if forallb (fun d => String.eqb d "unif") (a_dists a)
               then None else Some (a_dists a) in
  Ok (mkProblem (a_num a) (a_names a) (a_bounds a) groups dists false).
