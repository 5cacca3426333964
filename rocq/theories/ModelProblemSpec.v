(** * Model of ProblemSpec (src/SALib/util/problem.py). *)
From Coq Require Import Reals Decimal DecimalString String List Arith ZArith Bool.
From Verif Require Import Base Arrays ModelGroups.
Import ListNotations.
Local Open Scope nat_scope.

Section ProblemSpec.
(** Numbers; what one analysis returns; positional arguments a user passes on. *)
Variables V Res Arg : Type.
(** The contents of np.empty; multiprocess.cpu_count(); whether p_tqdm and pathos are installed, problem.py:20-32. *)
Variable junk : nat -> nat -> V.
Variable cpu : nat.
Variables ptqdm pathos : bool.

(** 1-D and 2-D arrays; [None] is Python's None.  Other values and other dimensions are not modelled. *)
Inductive arr := A1 (l : list V) | A2 (m : mat V).
Definition value := option arr.
(** [shape[0]], which is also [len]. *)
Definition nrows (a : arr) : nat := match a with A1 l => length l | A2 m => length (rows m) end.
(** [1 if len(shape) == 1 else shape[1]], problem.py:85-89 *)
Definition ncols (a : arr) : nat := match a with A1 _ => 1 | A2 m => cols m end.

(** A result, a dictionary of results in insertion order, or what analyze_parallel stores for no outputs at all. *)
Inductive analysis := Single (r : Res) | PerOutput (d : list (string * Res)) | Listed (l : list Res).

(** The object: the dictionary entries in use and the three private attributes. *)
Record spec := mkSpec {
  s_prob : problem; s_outputs : option (list string);
  s_samples : value; s_results : value; s_analysis : option analysis }.

(** The arguments of __init__: entries may be missing. *)
Record spec_args := mkArgs {
  a_names : option (list string); a_bounds : option (list (list R)); a_groups : option (list string);
  a_dists : option (list string); a_outputs : option (list string) }.

(** __init__ and _check_spec_attributes, problem.py:47-60 and 655-665. *)
Definition construct (a : spec_args) : result spec :=
  match a_names a, a_bounds a with
  | None, _ | _, None => Err AssertionError
  | Some names, Some bounds =>
      if negb (length bounds =? length names) then Err AssertionError
      else do p <- define_problem_with_groups (mkProblem (length names) names bounds (a_groups a) (a_dists a) false) ;;
           Ok (mkSpec p (a_outputs a) None None None)
  end.

Definition outcome := (spec * option exn)%type.

(** The samples setter, problem.py:66-77. *)
Definition assign_samples (v : value) (s : spec) : outcome :=
  match v with
  | None => (s, Some AttributeError)
  | Some (A1 _) => (s, Some IndexError)
  | Some (A2 m) =>
      if negb (cols m =? p_num_vars (s_prob s)) then (s, Some ValueError)
      else (mkSpec (s_prob s) (s_outputs s) v None (s_analysis s), None)
  end.

(** f"Y{i}" *)
Definition numbered (i : nat) : string := ("Y" ++ NilEmpty.string_of_uint (Nat.to_uint i))%string.

(** The results setter, problem.py:83-103. *)
Definition assign_results (v : value) (s : spec) : outcome :=
  match v with
  | None => (s, Some AttributeError)
  | Some a =>
      match s_outputs s with
      | None =>
          let names := if ncols a =? 1 then ["Y"]%string else map numbered (seq 1 (ncols a)) in
          (mkSpec (s_prob s) (Some names) (s_samples s) v (s_analysis s), None)
      | Some o =>
          if negb (ncols a =? length o) then (s, Some ValueError)
          else (mkSpec (s_prob s) (s_outputs s) (s_samples s) v (s_analysis s), None)
      end
  end.

(** sample, problem.py:129-135; samplers are taken not to modify the object. *)
Definition sample (f : problem -> result value) (s : spec) : outcome :=
  let s1 := mkSpec (s_prob s) (s_outputs s) (s_samples s) None None in
  match f (s_prob s) with
  | Ok v => (mkSpec (s_prob s) (s_outputs s) v None None, None)
  | Err e => (s1, Some e)
  end.

(** set_results, problem.py:143-153 *)
Definition set_results (v : value) (s : spec) : outcome :=
  match s_samples s with
  | None => assign_results v s
  | Some x =>
      match v with
      | None => (s, Some AttributeError)
      | Some a => if negb (nrows x =? nrows a) then (s, Some AssertionError) else assign_results v s
      end
  end.

(** [final_res[i : i + len(r)] = r] on rows [buf] of width [k] (a 1-D array has rows of width 1), problem.py:561-563.
    numpy stretches axes of length 1. *)
Definition put {A} (buf : list A) (i : nat) (new : list A) : list A := firstn i buf ++ new ++ skipn (i + length new) buf.
Definition slice_len {A} (buf : list A) (i n : nat) : nat := Nat.min (i + n) (length buf) - Nat.min i (length buf).
Definition write1 (buf : list V) (i : nat) (r : arr) : result (list V) :=
  let n := slice_len buf i (nrows r) in
  match r with
  | A1 l => if length l =? n then Ok (put buf i l)
            else match l with [x] => Ok (put buf i (repeat x n)) | _ => Err ValueError end
  | A2 m => match rows m with
            | [row] => if length row =? n then Ok (put buf i row)
                       else match row with [x] => Ok (put buf i (repeat x n)) | _ => Err ValueError end
            | _ => Err ValueError
            end
  end.
Definition stretch (k : nat) (row : list V) : result (list V) :=
  if length row =? k then Ok row else match row with [x] => Ok (repeat x k) | _ => Err ValueError end.
Definition write2 (k : nat) (buf : list (list V)) (i : nat) (r : arr) : result (list (list V)) :=
  let n := slice_len buf i (nrows r) in
  match r with
  | A1 l => do row <- stretch k l ;; Ok (put buf i (repeat row n))
  | A2 m =>
      if (cols m =? k) || (cols m =? 1) then
        do rs <- mapM (stretch k) (rows m) ;;
        if length rs =? n then Ok (put buf i rs)
        else match rs with [row] => Ok (put buf i (repeat row n)) | _ => Err ValueError end
      else Err ValueError
  end.
Definition write_chunk {B} (write : B -> nat -> arr -> result B) (st : B * nat) (r : value) : result (B * nat) :=
  match r with
  | None => Err TypeError
  | Some a => do b <- write (fst st) (snd st) a ;; Ok (b, snd st + nrows a)
  end.

(** _collect_results, problem.py:547-567; [n] is len(self._samples). *)
Definition collect (n : nat) (res : list value) : result value :=
  match res with
  | [] => Err IndexError
  | None :: _ => Err AttributeError
  | Some (A1 _) :: _ =>
      do st <- foldM (write_chunk write1) res (map (fun i => junk i 0) (seq 0 n), 0) ;; Ok (Some (A1 (fst st)))
  | Some (A2 m) :: _ =>
      do st <- foldM (write_chunk (write2 (cols m))) res (map (fun i => map (junk i) (seq 0 (cols m))) (seq 0 n), 0) ;;
      Ok (Some (A2 (mkMat (cols m) (fst st))))
  end.

(** np.array_split(samples, n, axis=0) *)
Definition chunks (a : arr) (n : Z) : result (list arr) :=
  if (n <=? 0)%Z then Err ValueError
  else match a with
  | A1 l => do cs <- array_split l (Z.to_nat n) ;; Ok (map A1 cs)
  | A2 m => do cs <- array_split (rows m) (Z.to_nat n) ;; Ok (map (fun c => A2 (mkMat (cols m) c)) cs)
  end.

(** [self.results = ...] after an expression that may raise. *)
Definition store (r : result value) (s : spec) : outcome :=
  match r with Ok v => assign_results v s | Err e => (s, Some e) end.

(** evaluate_parallel, problem.py:211-245.  With p_tqdm the chunks are handed to a generator, which cannot be indexed
    (problem.py:548). *)
Definition evaluate_parallel (f : value -> result value) (nprocs : option Z) (s : spec) : outcome :=
  match s_samples s with
  | None => (s, Some RuntimeError)
  | Some x =>
      let n := match nprocs with None => Z.of_nat cpu | Some z => Z.min (Z.of_nat cpu) z end in
      store (do cs <- chunks x n ;;
             if ptqdm then Err TypeError
             else do res <- mapM (fun c => f (Some c)) cs ;; collect (nrows x) res) s
  end.

(** evaluate, problem.py:176-185 *)
Definition evaluate (f : value -> result value) (nprocs : option Z) (s : spec) : outcome :=
  match nprocs with
  | None => (s, Some TypeError)
  | Some z => if (1 <? z)%Z then evaluate_parallel f (Some z) s else store (f (s_samples s)) s
  end.

(** evaluate_distributed, problem.py:281-314, for a pool that starts; [f] is the bare function, called with the chunk only. *)
Definition evaluate_distributed (f : value -> result value) (nprocs : Z) (servers : option nat) (s : spec) : outcome :=
  if negb pathos then (s, Some RuntimeError)
  else match servers, s_samples s with
  | None, _ | _, None => (s, Some TypeError)
  | Some k, Some x =>
      store (do cs <- chunks x (nprocs * Z.of_nat k) ;;
             do res <- mapM (fun c => f (Some c)) cs ;; collect (nrows x) res) s
  end.

(** An analysis function: whether it has a parameter X, and its result for positional arguments, X and Y. *)
Inductive pos := PArg (a : Arg) | PSelf (p : problem).
Record analyzer := mkAnalyzer { an_X : bool; an_fun : list pos -> option value -> arr -> result Res }.

(** [partial(func, *args, X=self._samples, **kwargs)(self, Y=y)], problem.py:347-351 and 365-369: the arguments bound
    by [partial] come first. *)
Definition call_analyzer (a : analyzer) (args : list Arg) (s : spec) (y : arr) : result Res :=
  an_fun a (map PArg args ++ [PSelf (s_prob s)]) (if an_X a then Some (s_samples s) else None) y.

(** problem.py:353-360 and 414-421 *)
Definition outputs_of (s : spec) (y : arr) : list string :=
  match s_outputs s with
  | Some o => o
  | None => match y with A1 _ => ["Y"]%string | A2 m => map numbered (seq 1 (cols m)) end
  end.
Definition with_outputs (o : list string) (s : spec) : spec := mkSpec (s_prob s) (Some o) (s_samples s) (s_results s) (s_analysis s).
Definition with_analysis (a : analysis) (s : spec) : spec := mkSpec (s_prob s) (s_outputs s) (s_samples s) (s_results s) (Some a).

(** [self._results[:, i]] *)
Definition column_of (y : arr) (i : nat) : result arr :=
  match y with
  | A1 _ => Err IndexError
  | A2 m => if cols m <=? i then Err IndexError else do l <- mapM (fun r => get r i) (rows m) ;; Ok (A1 l)
  end.

(** [d[k] = v] *)
Fixpoint dict_set {A} (d : list (string * A)) (k : string) (v : A) : list (string * A) :=
  match d with
  | [] => [(k, v)]
  | (k', v') :: r => if String.eqb k k' then (k, v) :: r else (k', v') :: dict_set r k v
  end.

(** The loop over the outputs, problem.py:363-366; the entries made before an exception stay. *)
Fixpoint analyze_loop (f : arr -> result Res) (y : arr) (outs : list string) (i : nat) (d : list (string * Res)) : list (string * Res) * option exn :=
  match outs with
  | [] => (d, None)
  | o :: r => match (do c <- column_of y i ;; f c) with
              | Err e => (d, Some e)
              | Ok v => analyze_loop f y r (S i) (dict_set d o v)
              end
  end.

(** analyze_parallel, problem.py:400-462.  Pool refuses fewer than one process; with p_tqdm the calls are made
    only when the entries are filled in (problem.py:457). *)
Definition analyze_parallel (a : analyzer) (args : list Arg) (nprocs : option Z) (s : spec) : outcome :=
  match s_results s with
  | None => (s, Some RuntimeError)
  | Some y =>
      let o := outputs_of s y in
      let s1 := with_outputs o s in
      let call := call_analyzer a args s in
      let yn := length o in
      if yn =? 1 then match call y with Ok r => (with_analysis (Single r) s1, None) | Err e => (s1, Some e) end
      else
        let n := match nprocs with None => Z.of_nat cpu | Some z => Z.min (Z.min (Z.of_nat yn) z) (Z.of_nat cpu) end in
        let fill := fun rs => with_analysis (if 1 <? yn then PerOutput (fold_left (fun d p => dict_set d (fst p) (snd p)) (combine o rs) []) else Listed rs) s1 in
        if negb ptqdm && (n <? 1)%Z then (s1, Some ValueError)
        else match mapM (column_of y) (seq 0 yn) with
        | Err e => (s1, Some e)
        | Ok cs => match mapM call cs with
                   | Ok rs => (fill rs, None)
                   | Err e => (if ptqdm then with_analysis (PerOutput []) s1 else s1, Some e)
                   end
        end
  end.

(** analyze, problem.py:336-375; [nprocs] is [None] unless it is among the keyword arguments. *)
Definition analyze (a : analyzer) (args : list Arg) (nprocs : option (option Z)) (s : spec) : outcome :=
  if (p_num_vars (s_prob s) =? 1) || (match truthy_groups (s_prob s) with Some _ => true | None => false end && (String.length "groups" =? 1))
  then (s, Some ValueError)
  else match nprocs with
  | Some n => analyze_parallel a args n s
  | None =>
      match s_results s with
      | None => (s, Some RuntimeError)
      | Some y =>
          let o := outputs_of s y in
          let s1 := with_outputs o s in
          let call := call_analyzer a args s in
          if 1 <? length o
          then let r := analyze_loop call y o 0 [] in (with_analysis (PerOutput (fst r)) s1, snd r)
          else match call y with Ok r => (with_analysis (Single r) s1, None) | Err e => (s1, Some e) end
      end
  end.

(** The public calls; assigning to the samples attribute is the same as set_samples (problem.py:137-141). *)
Inductive call :=
| CSample (f : problem -> result value)
| CSetSamples (v : value)
| CSetResults (v : value)
| CAssignResults (v : value)
| CEvaluate (f : value -> result value) (nprocs : option Z)
| CEvaluateParallel (f : value -> result value) (nprocs : option Z)
| CEvaluateDistributed (f : value -> result value) (nprocs : Z) (servers : option nat)
| CAnalyze (a : analyzer) (args : list Arg) (nprocs : option (option Z))
| CAnalyzeParallel (a : analyzer) (args : list Arg) (nprocs : option Z).
Definition step (s : spec) (c : call) : outcome :=
  match c with
  | CSample f => sample f s
  | CSetSamples v => assign_samples v s
  | CSetResults v => set_results v s
  | CAssignResults v => assign_results v s
  | CEvaluate f n => evaluate f n s
  | CEvaluateParallel f n => evaluate_parallel f n s
  | CEvaluateDistributed f n k => evaluate_distributed f n k s
  | CAnalyze a args n => analyze a args n s
  | CAnalyzeParallel a args n => analyze_parallel a args n s
  end.
(** A history: exceptions are caught by the caller, the object lives on. *)
Definition run (cs : list call) (s : spec) : spec := fold_left (fun s c => fst (step s c)) cs s.
End ProblemSpec.
Arguments A1 {V}. Arguments A2 {V}. Arguments nrows {V}. Arguments ncols {V}.
Arguments Single {Res}. Arguments PerOutput {Res}. Arguments Listed {Res}.
Arguments mkSpec {V Res}. Arguments s_prob {V Res}. Arguments s_outputs {V Res}. Arguments s_samples {V Res}.
Arguments s_results {V Res}. Arguments s_analysis {V Res}. Arguments construct {V Res}.
Arguments assign_samples {V Res}. Arguments assign_results {V Res}. Arguments sample {V Res}. Arguments set_results {V Res}.
Arguments write1 {V}. Arguments write2 {V}. Arguments stretch {V}. Arguments write_chunk {V B}. Arguments collect {V}. Arguments chunks {V}.
Arguments store {V Res}. Arguments evaluate_parallel {V Res}. Arguments evaluate {V Res}. Arguments evaluate_distributed {V Res}.
Arguments PArg {Arg}. Arguments PSelf {Arg}.
Arguments mkAnalyzer {V Res Arg}. Arguments an_X {V Res Arg}. Arguments an_fun {V Res Arg}. Arguments call_analyzer {V Res Arg}.
Arguments outputs_of {V Res}. Arguments with_outputs {V Res}. Arguments with_analysis {V Res}. Arguments column_of {V}.
Arguments analyze_loop {V Res}. Arguments analyze_parallel {V Res Arg}. Arguments analyze {V Res Arg}.
Arguments CSample {V Res Arg}. Arguments CSetSamples {V Res Arg}. Arguments CSetResults {V Res Arg}. Arguments CAssignResults {V Res Arg}.
Arguments CEvaluate {V Res Arg}. Arguments CEvaluateParallel {V Res Arg}. Arguments CEvaluateDistributed {V Res Arg}.
Arguments CAnalyze {V Res Arg}. Arguments CAnalyzeParallel {V Res Arg}. Arguments step {V Res Arg}. Arguments run {V Res Arg}.
