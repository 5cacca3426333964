(** * Specification vocabulary for the discrepancy analyser. *)
From Coq Require Import Reals String List Arith.
From Verif Require Import Base Arrays ModelGroups ModelScale Stats SpecSobol.
Import ListNotations.
Local Open Scope nat_scope.

(** A point inside the bounds. *)
Definition in_box (bounds : list (list R)) (x : list R) : Prop :=
  length x = length bounds /\ forall j lo up, nth_error bounds j = Some [lo; up] -> (lo <= nth j x 0 <= up)%R.

(** A sample inside the bounds with one output per run; the outputs vary. *)
Definition disc_input (p : problem) (X : mat R) (Y : list R) : Prop :=
  good_box (p_bounds p) /\ p_bounds p <> [] /\ length (p_bounds p) = p_num_vars p /\ cols X = p_num_vars p /\
  Forall (in_box (p_bounds p)) (rows X) /\ length (rows X) = length Y /\ exists a b, In a Y /\ In b Y /\ a <> b.

(** The points of parameter [i]: its values relative to the bounds, beside the outputs relative to their range. *)
Definition unit_points (bounds : list (list R)) (X : list (list R)) (Y : list R) (i : nat) (pts : list (R * R)) : Prop :=
  length pts = length Y /\
  forall k u w, nth_error pts k = Some (u, w) -> exists lo up, nth_error bounds i = Some [lo; up] /\
    nth i (nth k X []) 0%R = (lo + u * (up - lo))%R /\ nth k Y 0%R = (minl Y + w * (maxl Y - minl Y))%R.

Definition in_square (pts : list (R * R)) : Prop := Forall (fun q => 0 <= fst q <= 1 /\ 0 <= snd q <= 1)%R pts.

(** What is assumed of scipy's discrepancy: defined and non-negative for points of the unit square. *)
Definition disc_ok (disc : list (R * R) -> result R) : Prop :=
  forall pts, pts <> [] -> in_square pts -> exists v, disc pts = Ok v /\ (0 <= v)%R.

(** The raw discrepancies of the parameters. *)
Definition raw_of (disc : list (R * R) -> result R) (p : problem) (X : mat R) (Y : list R) (raw : list R) : Prop :=
  length raw = p_num_vars p /\ forall i v, nth_error raw i = Some v -> (0 <= v)%R /\
    exists pts, unit_points (p_bounds p) (rows X) Y i pts /\ in_square pts /\ disc pts = Ok v.

(** Another unit for every parameter: values and bounds change together. *)
Definition reunit (a b : nat -> R) (p : problem) : problem :=
  mkProblem (p_num_vars p) (p_names p)
    (map (fun i => map (fun v => a i * v + b i)%R (nth i (p_bounds p) [])) (seq 0 (length (p_bounds p)))) (p_groups p) (p_dists p) (p_scaled p).
