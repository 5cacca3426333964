(** * Problems and results as objects: which lists they share.

    The other models treat dictionaries and lists as values.  Here every list of names is an object with an address, a problem dictionary holds addresses,
    and results hold the address of the caller's list where the code stores the list itself.  Numbers inside results are left out; [rest] is the exception
    that the remaining computation of a call raises, if any, and may be anything. *)
From Coq Require Import Reals String List Arith Bool.
From Verif Require Import Base Arrays ModelGroups ModelFF ModelHdmr ModelEhdmr.
Import ListNotations.
Local Open Scope nat_scope.

(** A problem dictionary: [o_names] and [o_groups] are addresses; the other entries are replaced, never modified in place.  [o_spec]: it is a ProblemSpec. *)
Record dict := mkDict { o_num : nat; o_names : nat; o_bounds : list (list R); o_groups : option nat; o_dists : option (list string); o_scaled : bool; o_spec : bool }.

(** A result: its row labels are the list at an address, or (Sobol', analyze/sobol.py:402, 432) read off the problem when the table is made; and the number of
    values per column. *)
Inductive labels := At (a : nat) | OfProblem (k : nat).
Record report := mkReport { r_labels : labels; r_size : nat }.

Record state := mkState { s_heap : list (list string); s_dicts : list dict; s_reports : list report }.

Definition content (s : state) (a : nat) : list string := nth a (s_heap s) [].
(** The dictionary as a value, as the other models see it. *)
Definition view (s : state) (o : dict) : problem :=
  mkProblem (o_num o) (content s (o_names o)) (o_bounds o) (option_map (content s) (o_groups o)) (o_dists o) (o_scaled o).

Definition set_dict (s : state) (k : nat) (o : dict) : state := mkState (s_heap s) (update (s_dicts s) k o) (s_reports s).
Definition set_list (s : state) (a : nat) (l : list string) : state := mkState (update (s_heap s) a l) (s_dicts s) (s_reports s).
Definition add_report (s : state) (r : report) : state := mkState (s_heap s) (s_dicts s) (s_reports s ++ [r]).
(** A new list; its address. *)
Definition add_list (s : state) (l : list string) : state * nat := (mkState (s_heap s ++ [l]) (s_dicts s) (s_reports s), length (s_heap s)).

(** _define_problem_with_groups, util/__init__.py:372-378: the list of names itself becomes the list of groups. *)
Definition group_default (s : state) (k : nat) (o : dict) : result state :=
  match truthy_groups (view s o) with
  | None => Ok (set_dict s k (mkDict (o_num o) (o_names o) (o_bounds o) (Some (o_names o)) (o_dists o) (o_scaled o) (o_spec o)))
  | Some g => if negb (length g =? o_num o) then Err ValueError else Ok s
  end.

(** extend_bounds, sample/ff.py:43-56: [names.extend] modifies the list, the bounds are copied first. *)
Definition pad (s : state) (k : nat) (o : dict) : result (state * dict) :=
  do n <- ff_size (o_num o) ;;
  let d := n - o_num o in
  if 0 <? d then
    let o' := mkDict n (o_names o) (o_bounds o ++ repeat [0; 1]%R d) (o_groups o) (o_dists o) (o_scaled o) (o_spec o) in
    Ok (set_dict (set_list s (o_names o) (content s (o_names o) ++ map dummy_name (seq 0 d))) k o', o')
  else Ok (s, o).

(** problem["sample_scaled"] = True, util/__init__.py:88. *)
Definition mark (s : state) (k : nat) (o : dict) : state := set_dict s k (mkDict (o_num o) (o_names o) (o_bounds o) (o_groups o) (o_dists o) true (o_spec o)).

(** The number of values that PAWN and discrepancy report, analyze/pawn.py:146-158, analyze/discrepancy.py:103-112. *)
Definition grouped_size (p : problem) : nat := match check_groups p with Some g => length (pd_unique g) | None => p_num_vars p end.

Inductive call :=
  | PlainSample (k : nat) (rest : option exn)           (* latin, sobol, saltelli, fast_sampler, finite_diff: scaling marks the problem *)
  | MorrisSample (k : nat) (rest : option exn)          (* sample/morris/morris.py:133 *)
  | FfSample (k : nat) (rest : option exn)              (* sample/ff.py:119-126 *)
  | ByName (k : nat) (rest : option exn)                (* fast.py:87, rbd_fast.py:93, dgsm.py:85, delta.py:222: Si["names"] = problem["names"] *)
  | Discrepancy (k : nat) (rest : option exn)           (* discrepancy.py:115 *)
  | Pawn (k : nat) (rest : option exn)                  (* pawn.py:110, 170: a list of its own *)
  | MorrisAnalyze (k : nat) (rest : option exn)         (* analyze/morris.py:138, 209: an array of its own *)
  | SobolAnalyze (k : nat) (rest : option exn)          (* analyze/sobol.py:121, 402, 432 *)
  | FfAnalyze (k : nat) (rest : option exn)             (* analyze/ff.py:74, 83 *)
  | Hdmr (k order : nat) (rest : option exn)            (* hdmr.py:760-823, for an X with num_vars columns *)
  | Ehdmr (k order : nat) (args fit : option exn).      (* enhanced_hdmr.py:273-290 ([args]: the other checks), 591-621, and the fit *)

Definition outcome : Type := state * option exn.
Definition finish (s : state) (rest : option exn) (done : state -> state) : outcome := match rest with Some e => (s, Some e) | None => (done s, None) end.

Definition step_dict (s : state) (k : nat) (o : dict) (c : call) : outcome :=
  match c with
  | PlainSample _ rest => finish s rest (fun s => mark s k o)
  | MorrisSample _ rest =>
      match group_default s k o with
      | Err e => (s, Some e)
      | Ok s1 => match nth_error (s_dicts s1) k with
                 | Some o1 => finish s1 rest (fun s => mark s k o1)
                 | None => (s1, None)
                 end
      end
  | FfSample _ rest => match pad s k o with Err e => (s, Some e) | Ok (s1, o1) => finish s1 rest (fun s => mark s k o1) end
  | ByName _ rest => finish s rest (fun s => add_report s (mkReport (At (o_names o)) (o_num o)))
  | Discrepancy _ rest => finish s rest (fun s => add_report s (mkReport (At (o_names o)) (grouped_size (view s o))))
  | Pawn _ rest => finish s rest (fun s => let '(s1, a) := add_list s (fst (extract_group_names (view s o))) in add_report s1 (mkReport (At a) (grouped_size (view s o))))
  | MorrisAnalyze _ rest =>
      match group_default s k o with
      | Err e => (s, Some e)
      | Ok s1 => finish s1 rest (fun s => let '(s2, a) := add_list s (fst (extract_group_names (view s o))) in
                                          add_report s2 (mkReport (At a) (snd (extract_group_names (view s o)))))
      end
  | SobolAnalyze _ rest => finish s rest (fun s => add_report s (mkReport (OfProblem k) (snd (extract_group_names (view s o)))))
  | FfAnalyze _ rest =>
      match pad s k o with Err e => (s, Some e) | Ok (s1, o1) => finish s1 rest (fun s => add_report s (mkReport (At (o_names o1)) (o_num o1))) end
  | Hdmr _ order rest =>
      match rest with
      | Some e => (s, Some e)
      | None =>
        match hdmr_terms (content s (o_names o)) (o_num o) order with
        | Err e => (s, Some e)
        | Ok terms =>
          let '(s1, a) := add_list s terms in
          let s2 := add_report s1 (mkReport (At a) (hdmr_n (o_num o) order)) in
          (* hdmr.py:818-822: a ProblemSpec is updated with the result, "names" included *)
          (if o_spec o then set_dict s2 k (mkDict (o_num o) a (o_bounds o) (o_groups o) (o_dists o) (o_scaled o) (o_spec o)) else s2, None)
        end
      end
  | Ehdmr _ order args fit =>
      let d := o_num o in
      if negb (length (content s (o_names o)) =? d) || negb (length (o_bounds o) =? d) then (s, Some ValueError)
      else if d =? 1 then (s, Some RuntimeError)
      else match args with
      | Some e => (s, Some e)
      | None =>
        let c := mkCore d order true 0 0 in
        let s1 := set_list s (o_names o) (extended_names c (content s (o_names o))) in
        match fit with
        | Some e => (s1, Some e)
        | None => if (order =? 1) && (0 <? d) then (s1, Some AttributeError) else if (order =? 3) && (0 <? d) then (s1, Some ValueError)
                  else (add_report s1 (mkReport (At (o_names o)) (c_nc_t c)), None)
        end
      end
  end.

Definition target (c : call) : nat :=
  match c with
  | PlainSample k _ | MorrisSample k _ | FfSample k _ | ByName k _ | Discrepancy k _ | Pawn k _ | MorrisAnalyze k _ | SobolAnalyze k _ | FfAnalyze k _
  | Hdmr k _ _ | Ehdmr k _ _ _ => k
  end.
(** A call on a problem that does not exist does nothing. *)
Definition step (s : state) (c : call) : outcome :=
  match nth_error (s_dicts s) (target c) with Some o => step_dict s (target c) o c | None => (s, None) end.
(** A session; exceptions are caught by the caller. *)
Definition run (cs : list call) (s : state) : state := fold_left (fun s c => fst (step s c)) cs s.

(** The rows of a result's table, util/results.py:15-19, analyze/sobol.py:432-439, hdmr.py:917-931, enhanced_hdmr.py:1481-1494: pandas refuses labels that are
    not as many as the values. *)
Definition labels_of (s : state) (r : report) : list string :=
  match r_labels r with
  | At a => content s a
  | OfProblem k => match nth_error (s_dicts s) k with Some o => fst (extract_group_names (view s o)) | None => [] end
  end.
Definition table (s : state) (r : report) : result (list string) :=
  if length (labels_of s r) =? r_size r then Ok (labels_of s r) else Err ValueError.
