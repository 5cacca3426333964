(** * PAWN in double precision: the Kolmogorov-Smirnov distances and the figures computed from them.

    The levels are those of ModelLevels, which are rounded too; the quantiles at these levels are exact. *)
From Coq Require Import Reals String List Arith ZArith Bool.
From Verif Require Import Base Arrays ModelGroups ModelScale Stats Sums ModelFast ModelMorris ModelMorrisAnalyze Quant ModelPawn ModelDouble ModelDouble4 ModelDouble5 ModelLevels.
Import ListNotations.
Local Open Scope R_scope.

(** One entry of temp_pawn, pawn.py:121-134.  The statistic is taken to be the double nearest to the exact one. *)
Definition pawn_cell_dbl (Xi Xq : list fval) (Y : list R) (s : nat) : result fval :=
  do v <- pawn_cell_at Xi Xq Y s ;; Ok (option_map fl v).

(** numpy's _replace_nan(a, 0), at the start of np.nanmean and np.nanstd. *)
Definition nan_to_zero (l : list fval) : list R := map (fun v => match v with Some x => x | None => 0 end) l.

(** np.nanmedian of the numbers: the middle one, or np.mean of the two in the middle. *)
Definition median_fl (v : list R) : R :=
  let a := sortR v in
  let n := length a in
  if Nat.even n then fl (fl (nth (n / 2 - 1) a 0 + nth (n / 2) a 0) / 2) else nth (n / 2) a 0.

(** [arr]: the order of addition in the columns of temp_pawn; [arr2]: over the rows of a group. *)
Section Figures.
Variables arr arr2 : nat -> tree.

(** np.nanmean, pawn.py:138: the sum of the array with 0 for nan, over the number of numbers. *)
Definition nanmean_fl (cells : list fval) : R := fl (sum_fl arr (nan_to_zero cells) / INR (length (numbers cells))).
(** np.nanstd, pawn.py:141: the deviations at nan are 0. *)
Definition nanstd_fl (cells : list fval) : R :=
  let m := nanmean_fl cells in
  let squares := map (fun v => match v with Some x => fl (fl (x - m) * fl (x - m)) | None => 0 end) cells in
  fl (sqrt (fl (sum_fl arr squares / INR (length (numbers cells))))).

(** pawn.py:136-143; all nan when every entry is. *)
Definition pawn_summary_fl (cells : list fval) : list fval :=
  match numbers cells with
  | [] => repeat None 6
  | v => [Some (minl v); Some (nanmean_fl cells); Some (median_fl v); Some (maxl v); fdiv_fl (nanstd_fl cells) (nanmean_fl cells); Some (nanstd_fl cells)]
  end.

(** pawn.py:146-155 *)
Definition group_means_fl (g : list string) (results : list (list fval)) : result (list (list fval)) :=
  mapM (fun grp =>
    do rows <- select (map (fun x => String.eqb x grp) g) results ;;
    Ok (map (fun k => fmean_fl arr2 (map (fun r => nth k r None) rows)) (seq 0 6))) (pd_unique g).

(** analyze, pawn.py:10-175. *)
Definition pawn_dbl (p : problem) (X : list (list fval)) (Y : list R) (S : nat) : result pawn_out :=
  if (S =? 0)%nat then Err ZeroDivisionError
  else
    do results <- mapM (fun d =>
        do Xi <- mapM (fun r => get r d) X ;;
        do Xq <- nanquantiles Xi (pawn_levels S) ;;
        do cells <- mapM (pawn_cell_dbl Xi Xq Y) (seq 0 S) ;;
        Ok (pawn_summary_fl cells)) (seq 0 (p_num_vars p)) ;;
    do rows <- match check_groups p with Some g => group_means_fl g results | None => Ok results end ;;
    Ok (mkPawn rows (fst (extract_group_names p))).
End Figures.
