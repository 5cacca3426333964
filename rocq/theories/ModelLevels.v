(** * Quantile levels of PAWN and regional sensitivity analysis in double precision.

    The levels, their number and the labels of the bins are computed with rounding, as in ModelDouble; the quantiles at these levels and everything after
    them are exact, as in ModelPawn and ModelRsa. *)
From Coq Require Import Reals String List Arith ZArith Bool.
From Flocq Require Import Core.
From Verif Require Import Base Arrays ModelGroups ModelScale Stats Sums ModelMorrisAnalyze Quant ModelPawn ModelRsa ModelDouble.
Import ListNotations.
Local Open Scope R_scope.

(** np.arange(start, stop, step) for doubles, as numpy computes it: ceil((stop - start) / step) entries; the first two are [start] and [start + step], the
    others [start + i * delta] with the difference delta of the first two. *)
Definition arange_fl (start stop step : R) : list R :=
  let second := fl (start + step) in
  let delta := fl (second - start) in
  map (fun i => match i with 0%nat => start | 1%nat => second | _ => fl (start + fl (INR i * delta)) end)
      (seq 0 (Z.to_nat (Zceil (fl (fl (stop - start) / step))))).

(** ** PAWN *)

(** step and seq, pawn.py:114-117. *)
Definition pawn_levels (S : nat) : list R := let step := fl (1 / INR S) in arange_fl 0 (fl (1 + step)) step.

(** np.nanquantile(X_di, seq), pawn.py:119: numpy refuses levels outside [0, 1]. *)
Definition nanquantiles (Xi : list fval) (levels : list R) : result (list fval) :=
  if existsb (fun q => Rlt_bool q 0 || Rlt_bool 1 q) levels then Err ValueError else Ok (map (nanquantile Xi) levels).

(** One entry of temp_pawn, pawn.py:121-134. *)
Definition pawn_cell_at (Xi : list fval) (Xq : list fval) (Y : list R) (s : nat) : result fval :=
  do lo <- get Xq s ;;
  do hi <- get Xq (s + 1)%nat ;;
  do sel <- select (map (fun x => fle lo x && flt x hi) Xi) Y ;;
  Ok (match sel with [] => None | _ => Some (ks_2samp sel Y) end).

(** pawn.py:10-175 *)
Definition pawn_analyze_fl (p : problem) (X : list (list fval)) (Y : list R) (S : nat) : result pawn_out :=
  if (S =? 0)%nat then Err ZeroDivisionError
  else
    do results <- mapM (fun d =>
        do Xi <- mapM (fun r => get r d) X ;;
        do Xq <- nanquantiles Xi (pawn_levels S) ;;
        do cells <- mapM (pawn_cell_at Xi Xq Y) (seq 0 S) ;;
        Ok (pawn_summary cells)) (seq 0 (p_num_vars p)) ;;
    do rows <- match check_groups p with Some g => group_means g results | None => Ok results end ;;
    Ok (mkPawn rows (fst (extract_group_names p))).

(** ** Regional sensitivity analysis *)

(** Si["bins"], rsa.py:127, and seq, rsa.py:145. *)
Definition rsa_edges (bins : nat) : list R := arange_fl 0 1 (fl (1 / INR bins)).
Definition rsa_levels (bins : nat) : list R := rsa_edges bins ++ [1].

(** rsa.py:147-174 for one parameter; numpy refuses levels outside [0, 1], and the quantiles of nothing. *)
Definition rsa_column_fl (Xi y : list R) (bins : nat) (target : string) : result (list fval) :=
  do tm <- (if String.eqb target "X" then Ok (Xi, y)
            else if String.eqb target "Y" then Ok (y, Xi) else Err UnboundLocalError) ;;
  let '(t, m) := tm in
  if existsb (fun q => Rlt_bool q 0 || Rlt_bool 1 q) (rsa_levels bins) then Err ValueError
  else match t with
  | [] => Err IndexError
  | _ =>
    let quants := map (quantile t) (rsa_levels bins) in
    mapM (fun s => do lo <- get quants s ;; do hi <- get quants (s + 1)%nat ;;
                   rsa_cell y m (rsa_bin (fun k => if (k =? s)%nat then lo else hi) t s)) (seq 0 bins)
  end.

(** rsa, rsa.py:141-174, and analyze, rsa.py:13-138. *)
Definition rsa_fl (X : mat R) (y : list R) (bins : nat) (target : string) : result (list (list fval)) :=
  if (bins =? 0)%nat then Err ZeroDivisionError
  else mapM (fun d => do Xi <- mapM (fun r => get r d) (rows X) ;; rsa_column_fl Xi y bins target) (seq 0 (cols X)).
Definition rsa_analyze_fl (p : problem) (X : mat R) (Y : list R) (bins : nat) (target : string) : result rsa_dict :=
  do results <- rsa_fl X Y bins target ;;
  let names := fst (extract_group_names p) in
  do results <- match check_groups p with Some _ => rsa_groups names bins results | None => Ok results end ;;
  do vals <- mapM (fun i => get results i) (seq 0 (length names)) ;;
  let d := fold_left (fun d kv => dict_set d (fst kv) (snd kv)) (combine names (map Values vals)) [] in
  Ok (dict_set (dict_set (dict_set d "names" (Names names)) "bins" (Bins (rsa_edges bins))) "target" (Target target)).

(** to_df, rsa.py:193-208: the rows are labelled with the bins; pandas refuses a column of another length. *)
Definition rsa_table_fl (d : rsa_dict) : result (list R * list (string * option (list fval))) :=
  do columns <- rsa_to_df d ;;
  match dict_get d "bins" with
  | Some (Bins b) => if forallb (fun c => match snd c with Some v => (length v =? length b)%nat | None => true end) columns
                     then Ok (b, columns) else Err ValueError
  | _ => Err KeyError
  end.
