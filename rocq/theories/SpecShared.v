(** * Vocabulary for sessions of calls on shared objects. *)
From Coq Require Import Reals String List Arith Bool.
From Verif Require Import Base ModelGroups ModelFF ModelShared.
Import ListNotations.
Local Open Scope nat_scope.

(** Every address is that of a list. *)
Definition sound (s : state) : Prop :=
  (forall k o, nth_error (s_dicts s) k = Some o -> o_names o < length (s_heap s) /\ forall a, o_groups o = Some a -> a < length (s_heap s)) /\
  (forall r, In r (s_reports s) -> match r_labels r with At a => a < length (s_heap s) | OfProblem k => k < length (s_dicts s) end).

Definition power_of_two (n : nat) : Prop := exists x, n = 2 ^ x.
(** The problem has no list of groups but (perhaps) its list of names. *)
Definition ungrouped (o : dict) : Prop := o_groups o = None \/ o_groups o = Some (o_names o).

(** Calls that do not extend or replace a list of names: no padding, no HDMR of a ProblemSpec, no enhanced HDMR beyond the first order. *)
Definition harmless (s : state) (c : call) : Prop :=
  forall o, nth_error (s_dicts s) (target c) = Some o ->
  match c with
  | FfSample _ _ | FfAnalyze _ _ => power_of_two (o_num o)
  | Hdmr _ _ _ => o_spec o = false
  | Ehdmr _ order _ _ => order <= 1
  | _ => True
  end.

(** The same problem, up to the default for missing groups and the mark of the samplers. *)
Definition same_problem (p q : problem) : Prop :=
  p_num_vars p = p_num_vars q /\ p_names p = p_names q /\ p_bounds p = p_bounds q /\ p_dists p = p_dists q /\
  (p_groups p = p_groups q \/ (p_groups p = None \/ p_groups p = Some []) /\ p_groups q = Some (p_names q)).

(** One name, one pair of bounds and, unless there are no groups, one group per parameter. *)
Definition matched (p : problem) : Prop :=
  length (p_names p) = p_num_vars p /\ length (p_bounds p) = p_num_vars p /\ (forall g, p_groups p = Some g -> g = [] \/ length g = p_num_vars p).

(** No other problem holds the list of names of problem [j], nor its list of groups as names. *)
Definition apart (s : state) (j : nat) (oj : dict) : Prop :=
  forall k ok, nth_error (s_dicts s) k = Some ok -> k <> j -> o_names ok <> o_names oj /\ o_groups oj <> Some (o_names ok).
Definition separate (s : state) : Prop := forall j oj, nth_error (s_dicts s) j = Some oj -> apart s j oj.
(** Groups are missing, empty, the names, or given for a number of parameters that needs no padding. *)
Definition padding_safe (s : state) (o : dict) : Prop :=
  match o_groups o with None => True | Some a => a = o_names o \/ content s a = [] \/ power_of_two (o_num o) end.
(** The calls that put interaction terms among the names. *)
Definition names_terms (s : state) (c : call) : Prop :=
  match c with
  | Hdmr k _ _ => exists o, nth_error (s_dicts s) k = Some o /\ o_spec o = true
  | Ehdmr _ order _ _ => 2 <= order
  | _ => False
  end.

(** A problem without the samplers' mark. *)
Definition unmarked (p : problem) : problem := mkProblem (p_num_vars p) (p_names p) (p_bounds p) (p_groups p) (p_dists p) false.
Definition grouped_by_name (p : problem) : problem := mkProblem (p_num_vars p) (p_names p) (p_bounds p) (Some (p_names p)) (p_dists p) (p_scaled p).
(** Parameters are not grouped. *)
Definition no_groups (p : problem) : Prop := p_groups p = None \/ p_groups p = Some [] \/ p_groups p = Some (p_names p).
