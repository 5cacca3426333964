(** * Model of the PAWN analyser (src/SALib/analyze/pawn.py). *)
From Coq Require Import Reals String List Arith ZArith Bool.
From Verif Require Import Base Arrays ModelGroups ModelScale Stats Sums ModelFast ModelMorris ModelMorrisAnalyze Quant.
Import ListNotations.
Local Open Scope nat_scope.

(** numpy boolean-mask indexing [Y[mask]]: IndexError when the lengths differ. *)
Definition select {A} (mask : list bool) (Y : list A) : result (list A) :=
  if length mask =? length Y then Ok (map snd (filter fst (combine mask Y))) else Err IndexError.

(** The numbers of an array that may hold nan. *)
Definition numbers (l : list fval) : list R := flat_map (fun v => match v with Some x => [x] | None => [] end) l.

(** np.nanquantile, pawn.py:116; nan when there is no number. *)
Definition nanquantile (l : list fval) (q : R) : fval :=
  match numbers l with [] => None | r => Some (quantile r q) end.

(** Comparisons with nan are false. *)
Definition fle (a b : fval) : bool :=
  match a, b with Some x, Some y => if Rle_dec x y then true else false | _, _ => false end.
Definition flt (a b : fval) : bool :=
  match a, b with Some x, Some y => if Rlt_dec x y then true else false | _, _ => false end.

(** The selection of slice [s] of [S], pawn.py:114-119; [np.arange(0, 1 + step, step)] in exact arithmetic
    has the S + 1 entries k / S. *)
Definition slice_mask (Xi : list fval) (S s : nat) : list bool :=
  let lo := nanquantile Xi (INR s / INR S) in
  let hi := nanquantile Xi (INR (s + 1) / INR S) in
  map (fun x => fle lo x && flt x hi) Xi.

(** One entry of temp_pawn, pawn.py:118-133. *)
Definition pawn_cell (Xi : list fval) (Y : list R) (S s : nat) : result fval :=
  do sel <- select (slice_mask Xi S s) Y ;;
  Ok (match sel with [] => None | _ => Some (ks_2samp sel Y) end).

(** A row of [results], pawn.py:135-142: minimum, mean, median, maximum, CV, stdev over the
    entries that are not nan; all nan when every entry is. *)
Definition pawn_summary (cells : list fval) : list fval :=
  match numbers cells with
  | [] => repeat None 6
  | v => [Some (minl v); Some (mean v); Some (median v); Some (maxl v); fdiv (sd v) (mean v); Some (sd v)]
  end.

(** The mean over the rows of a group, pawn.py:150-154. *)
Definition group_means (g : list string) (results : list (list fval)) : result (list (list fval)) :=
  mapM (fun grp =>
    do rows <- select (map (fun x => String.eqb x grp) g) results ;;
    Ok (map (fun k => fmean (map (fun r => nth k r None) rows)) (seq 0 6))) (pd_unique g).

(** [pw_rows]: per reported row the six figures in the order minimum, mean, median, maximum, CV, stdev. *)
Record pawn_out := mkPawn { pw_rows : list (list fval); pw_names : list string }.

(** analyze, pawn.py:10-173 (the seed is unused by the computation). *)
Definition pawn_analyze (p : problem) (X : list (list fval)) (Y : list R) (S : nat) : result pawn_out :=
  if S =? 0 then Err ZeroDivisionError
  else
    do results <- mapM (fun d =>
        do Xi <- mapM (fun r => get r d) X ;;
        do cells <- mapM (pawn_cell Xi Y S) (seq 0 S) ;;
        Ok (pawn_summary cells)) (seq 0 (p_num_vars p)) ;;
    do rows <- match check_groups p with Some g => group_means g results | None => Ok results end ;;
    Ok (mkPawn rows (fst (extract_group_names p))).
