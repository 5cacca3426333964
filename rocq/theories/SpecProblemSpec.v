(** * Specification vocabulary for ProblemSpec (fields of the object, call names and [step]/[run] only). *)
From Coq Require Import Reals String List Arith ZArith Bool.
From Verif Require Import Base Arrays ModelGroups ModelProblemSpec.
Import ListNotations.
Local Open Scope nat_scope.

Section Spec.
Context {V Res Arg : Type}.
Variable junk : nat -> nat -> V.
Variable cpu : nat.
Variables ptqdm pathos : bool.
Notation step' := (@step V Res Arg junk cpu ptqdm pathos).
Notation run' := (@run V Res Arg junk cpu ptqdm pathos).

(** Samples and results, when both present, have equally many rows. *)
Definition same_rows (s : spec V Res) : Prop :=
  forall X Y, s_samples s = Some X -> s_results s = Some Y -> nrows X = nrows Y.

(** A call whose user-supplied pieces keep the number of rows: the model of a serial evaluation, a direct assignment of results. *)
Definition keeps_rows (s : spec V Res) (c : call V Res Arg) : Prop :=
  match c with
  | CEvaluate f _ => forall X Y, f (Some X) = Ok (Some Y) -> nrows Y = nrows X
  | CAssignResults (Some Y) => forall X, s_samples s = Some X -> nrows Y = nrows X
  | _ => True
  end.
(** A call after which an analysis may be out of date: one that stores samples or results other than [sample]. *)
Definition replaces_data (c : call V Res Arg) : Prop :=
  match c with
  | CSetSamples _ | CSetResults _ | CAssignResults _ | CEvaluate _ _ | CEvaluateParallel _ _ | CEvaluateDistributed _ _ _ => True
  | _ => False
  end.
Definition stores_results (c : call V Res Arg) : Prop :=
  match c with
  | CSetResults _ | CAssignResults _ | CEvaluate _ _ | CEvaluateParallel _ _ | CEvaluateDistributed _ _ _ => True
  | _ => False
  end.
Definition analyses (c : call V Res Arg) : Prop :=
  match c with CAnalyze _ _ _ | CAnalyzeParallel _ _ _ => True | _ => False end.

(** Every call of the history satisfies [P] in the state in which it is made. *)
Fixpoint along (P : spec V Res -> call V Res Arg -> Prop) (cs : list (call V Res Arg)) (s : spec V Res) : Prop :=
  match cs with [] => True | c :: r => P s c /\ along P r (fst (step' s c)) end.

(** A state reached by some calls from a freshly constructed object. *)
Definition reached (s : spec V Res) : Prop :=
  exists a s0 cs, construct a = Ok s0 /\ s = run' cs s0.

(** One name per results column. *)
Definition well_named (s : spec V Res) : Prop :=
  forall Y, s_results s = Some Y -> exists o, s_outputs s = Some o /\ length o = ncols Y.

(** All rows have the width the shape says. *)
Definition well_shaped (m : mat V) : Prop := Forall (fun r => length r = cols m) (rows m).
(** The [i]th column of an array. *)
Definition is_column (m : mat V) (i : nat) (l : list V) : Prop :=
  length l = length (rows m) /\ forall k r, nth_error (rows m) k = Some r -> exists v, nth_error r i = Some v /\ nth_error l k = Some v.

(** A model evaluated row by row, with one number, or [k] numbers, per row. *)
Definition rowwise1 (g : list V -> V) (f : value V -> result (value V)) : Prop :=
  forall m, f (Some (A2 m)) = Ok (Some (A1 (map g (rows m)))).
Definition rowwise2 (k : nat) (g : list V -> list V) (f : value V -> result (value V)) : Prop :=
  (forall r, length (g r) = k) /\ forall m, f (Some (A2 m)) = Ok (Some (A2 (mkMat k (map g (rows m))))).
(** The same, but anything may happen when there are no rows (a list comprehension loses the number of columns). *)
Definition rowwise2_nonempty (k : nat) (g : list V -> list V) (f : value V -> result (value V)) : Prop :=
  (forall r, length (g r) = k) /\ forall m, rows m <> [] -> f (Some (A2 m)) = Ok (Some (A2 (mkMat k (map g (rows m))))).
End Spec.
