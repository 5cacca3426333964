(** * Specification vocabulary for PAWN. *)
From Coq Require Import Reals List Arith Permutation.
From Verif Require Import Base ModelScale Stats Quant.
Import ListNotations.
Local Open Scope nat_scope.

(** [c] is the [q]-quantile of [xs]: the sorted values linearly interpolated at position q (n-1). *)
Definition quantile_at (xs : list R) (q c : R) : Prop :=
  exists a i t, ascending a /\ Permutation a xs /\ i < length a /\ (0 <= t < 1)%R /\
    (q * INR (length xs - 1) = INR i + t)%R /\
    (t = 0%R -> c = nth i a 0%R) /\
    ((0 < t)%R -> i + 1 < length a /\ c = (nth i a 0 + t * (nth (i + 1) a 0 - nth i a 0))%R).

(** [m] is the middle of the sorted values, or the mean of the two middle ones. *)
Definition median_of (l : list R) (m : R) : Prop :=
  exists a, ascending a /\ Permutation a l /\
    (forall k, length l = 2 * k + 1 -> m = nth k a 0%R) /\
    (forall k, length l = 2 * k + 2 -> m = ((nth k a 0 + nth (k + 1) a 0) / 2)%R).

(** [d] is the greatest distance of the distribution functions of the two samples. *)
Definition greatest_gap (a b : list R) (d : R) : Prop :=
  (forall t, Rabs (ecdf a t - ecdf b t) <= d)%R /\ exists t, Rabs (ecdf a t - ecdf b t) = d.

(** A value that belongs to slice [s] of the cut points [c]. *)
Definition in_slice (c : nat -> R) (s : nat) (x : R) : Prop := (c s <= x < c (s + 1)%nat)%R.

(** The numbers of an array that may hold nan. *)
Definition somes (l : list fval) : list R :=
  map (fun v => match v with Some x => x | None => 0%R end) (filter (fun v => match v with Some _ => true | None => false end) l).

(** Parameter [d] of every run, and the outputs of the runs with a given property of that value. *)
Definition column_of (X : list (list fval)) (d : nat) : list fval := map (fun r => nth d r None) X.
Definition outputs_where (keep : fval -> bool) (xs : list fval) (Y : list R) : list R :=
  map snd (filter (fun xy => keep (fst xy)) (combine xs Y)).

(** The entry for a slice: nan for an empty slice, else the greatest gap to all outputs. *)
Definition slice_value (c : nat -> R) (xs : list fval) (Y : list R) (s : nat) (v : fval) : Prop :=
  exists keep, (forall u, keep u = true <-> exists x, u = Some x /\ in_slice c s x) /\
    let sel := outputs_where keep xs Y in
    (sel = [] -> v = None) /\ (sel <> [] -> exists d, v = Some d /\ greatest_gap sel Y d).

(** The six figures of a parameter from its slice entries. *)
Definition summary_of (cells : list fval) (row : list fval) : Prop :=
  (somes cells = [] -> row = repeat None 6) /\
  (somes cells <> [] -> exists m,
    median_of (somes cells) m /\
    let v := somes cells in
    row = [Some (minl v); Some (mean v); Some m; Some (maxl v); fdiv (sd v) (mean v); Some (sd v)]).

(** The order of the figures of a row. *)
Definition ordered_row (row : list fval) : Prop :=
  (exists cv, row = [None; None; None; None; cv; None]) \/
  exists mi me md ma cv s, row = [Some mi; Some me; Some md; Some ma; cv; Some s] /\
    (0 <= mi /\ mi <= me /\ me <= ma /\ mi <= md /\ md <= ma /\ ma < 1 /\ 0 <= s)%R.

(** A sample with (at least) D columns and one output per row. *)
Definition pawn_input (D : nat) (X : list (list fval)) (Y : list R) : Prop :=
  Forall (fun r => D <= length r) X /\ length X = length Y.

(** The figures of one parameter: cut points at the k/n-quantiles of its numbers, one entry per slice, summarised. *)
Definition parameter_row (xs : list fval) (Y : list R) (n : nat) (row : list fval) : Prop :=
  exists c cells,
    (somes xs <> [] -> forall k, k <= n -> quantile_at (somes xs) (INR k / INR n) (c k)) /\
    length cells = n /\ (forall s v, nth_error cells s = Some v -> slice_value c xs Y s v) /\
    summary_of cells row.

(** Mean of entries that may be nan: nan if one of them is. *)
Definition nan_mean (vs : list fval) (m : fval) : Prop :=
  (In None vs -> m = None) /\ forall r, vs = map Some r -> m = Some (mean r).
