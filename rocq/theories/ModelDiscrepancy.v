(** * Model of the discrepancy analyser (src/SALib/analyze/discrepancy.py). *)
From Coq Require Import Reals String List Arith ZArith Bool.
From Verif Require Import Base Arrays ModelGroups ModelScale Stats Sums ModelMorrisAnalyze Quant ModelPawn.
Import ListNotations.
Local Open Scope nat_scope.

(** scipy.stats.qmc.scale(sample, l_bounds, u_bounds, reverse=True): the bounds are broadcast to the columns,
    must be increasing, and must contain the sample. *)
Definition qmc_unscale (m : mat R) (lu : list (R * R)) : result (mat R) :=
  do v <- broadcast (cols m) lu ;;
  if any_illegal v then Err ValueError
  else if existsb (fun r => existsb (fun b => b) (map2 (fun x b => Rltb x (fst b) || Rltb (snd b) x) r v)) (rows m) then Err ValueError
  else Ok (mkMat (cols m) (map (fun r => map2 (fun x b => (x - fst b) / (snd b - fst b))%R r v) (rows m))).

(** One raw discrepancy, discrepancy.py:94-97: column [i] beside the outputs.  [disc] is scipy's
    qmc.discrepancy(points, method=method) for points in the plane. *)
Definition raw_discrepancy (disc : list (R * R) -> result R) (X : mat R) (Ys : list R) (i : nat) : result R :=
  if cols X <=? i then Err IndexError
  else
    do xi <- mapM (fun r => get r i) (rows X) ;;
    if negb (length xi =? length Ys) then Err ValueError else disc (combine xi Ys).

(** The group averages, discrepancy.py:101-111. *)
Definition share_means (g : list string) (s : list fval) : result (list fval) :=
  mapM (fun grp => do sel <- select (map (fun x => String.eqb x grp) g) s ;; Ok (fmean sel)) (pd_unique g).

Record disc_out := mkDisc { dc_values : list fval; dc_names : list string }.

(** analyze, discrepancy.py:12-122. *)
Definition disc_analyze (disc : list (R * R) -> result R) (p : problem) (X : mat R) (Y : list R) : result disc_out :=
  do lu <- bounds_columns (p_bounds p) ;;
  do Xs <- qmc_unscale X lu ;;
  match Y with
  | [] => Err ValueError
  | _ =>
    do Ym <- qmc_unscale (mkMat 1 (map (fun y => [y]) Y)) [(minl Y, maxl Y)] ;;
    let Ys := map (fun r => nth 0 r 0%R) (rows Ym) in
    do raw <- mapM (raw_discrepancy disc Xs Ys) (seq 0 (p_num_vars p)) ;;
    let s := map (fun v => fdiv v (Rsum raw)) raw in
    do s <- match check_groups p with Some g => share_means g s | None => Ok s end ;;
    Ok (mkDisc s (p_names p))
  end.

(** ResultDict.to_df, results.py:13-19: one value per name, otherwise pandas refuses. *)
Definition disc_to_df (o : disc_out) : result (list (string * fval)) :=
  if length (dc_values o) =? length (dc_names o) then Ok (combine (dc_names o) (dc_values o)) else Err ValueError.
