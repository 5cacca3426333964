(** * The Morris analyser in double precision. *)
From Coq Require Import Reals String List Arith ZArith Bool.
From Verif Require Import Base Arrays ModelGroups ModelScale Stats ModelFast ModelMorris ModelMorrisAnalyze ModelDouble ModelDouble2 ModelDouble4.
Import ListNotations.
Local Open Scope R_scope.

(** Arrangements of the sums: in np.einsum, along the points of a trajectory, over trajectories, over parameters, over resamples. *)
Record sums := mkSums { s_einsum : nat -> tree; s_along : nat -> tree; s_over : nat -> tree; s_within : nat -> tree; s_again : nat -> tree }.

Section Effects.
Variable S : sums.
Variable size : nat.
Variable X : list (list R).
Variable Y : list R.

(** _reorganize_output_matrix, analyze/morris.py:284-327: np.einsum multiplies the outputs by 0 or 1, which is exact, and adds up. *)
Definition picked (up : bool) (i j : nat) : list R :=
  map (fun k =>
    let flag := if up then pad_before size (fun k => increased_fl size X i k j) k || pad_after size (fun k => decreased_fl size X i k j) k
                else pad_after size (fun k => increased_fl size X i k j) k || pad_before size (fun k => decreased_fl size X i k j) k in
    if flag then y_at size Y i k else 0) (seq 0 size).
Definition reorganize_fl (up : bool) (i j : nat) : R := tsum (s_einsum S size) (picked up i j).
(** _calc_results_difference, analyze/morris.py:420-437. *)
Definition difference_fl (i j : nat) : R := fl (reorganize_fl true i j - reorganize_fl false i j).

Definition fmul_fl (a b : fval) : fval := match a, b with Some x, Some y => Some (fl (x * y)) | _, _ => None end.
(** Scaled effects, analyze/morris.py:394-412, 582-588. *)
Definition scaled_effect_fl (i j : nat) : fval :=
  let dx := fl (maxl (xs_of size X i j) - minl (xs_of size X i j)) in
  let sy := std_fl (s_along S) (ys_of size Y i) in
  let adjustment := if Reqb sy 0 then 0 else fl (std_fl (s_along S) (xs_of size X i j) / sy) in
  fmul_fl (fdiv_fl (difference_fl i j) dx) (Some adjustment).

(** analyze/morris.py:394-415 for one parameter and one trajectory. *)
Definition effect_fl (delta : R) (scaled : bool) (i j : nat) : fval :=
  if scaled then scaled_effect_fl i j else fdiv_fl (difference_fl i j) delta.

(** _compute_elementary_effects, analyze/morris.py:330-417. *)
Definition elementary_effects_fl (cols : nat) (delta : R) (scaled : bool) : result (list (list fval)) :=
  let T := (length X / size)%nat in
  if negb (T * size =? length Y)%nat then Err ValueError
  else if negb (T * size * cols =? length X * cols)%nat then Err ValueError
  else Ok (tab cols T (fun j i => effect_fl delta scaled i j)).
End Effects.

(** np.average and np.std(ddof=1) with nan. *)
Definition fmean_fl (arr : nat -> tree) (l : list fval) : fval := option_map (mean_fl arr) (all_some l).
Definition fsd1_fl (arr : nat -> tree) (l : list fval) : fval := match all_some l with Some r => std1_fl arr r | None => None end.

(** _compute_grouped_metric, analyze/morris.py:256-281: np.ma.mean adds up the members with 0 for all others and divides by the number of members. *)
Definition grouped_fl (arr : nat -> tree) (m : list fval) (groups : list (list nat)) (k : nat) : fval :=
  let js := members groups k in
  match all_some (map (fun j => nth j m None) js) with
  | None => None
  | Some _ =>
    let filled := map (fun j => if existsb (Nat.eqb j) js then match nth j m None with Some x => x | None => 0 end else 0) (seq 0 (length groups)) in
    Some (fl (tsum (arr (length groups)) filled / INR (length js)))
  end.
Definition grouped_metric_fl (arr : nat -> tree) (m : list fval) (groups : list (list nat)) (g : nat) : list fval :=
  map (grouped_fl arr m groups) (seq 0 g).
(** _compute_grouped_sigma, analyze/morris.py:226-253. *)
Definition grouped_sigma_fl (arr : nat -> tree) (m : list fval) (groups : list (list nat)) (g : nat) : list fval :=
  map (fun k => if (list_sum (column groups k) =? 1)%nat then grouped_fl arr m groups k else None) (seq 0 g).

(** _compute_mu_star_confidence, analyze/morris.py:531-579, for one parameter. *)
Definition conf_fl (S : sums) (nq : R -> R) (conf_level : R) (idxs : list (list nat)) (ee : list fval) : fval :=
  fmul_fl (Some (nq (fl (/ 2 + fl (conf_level / 2)))))
    (fsd1_fl (s_again S) (map (fun idx => fmean_fl (s_over S) (map (fun t => fabs (nth t ee None)) idx)) idxs)).

(** analyze and _compute_statistical_outputs, analyze/morris.py:16-223, with the restrictions of [morris_analyze]; _compute_delta, util/__init__.py:381-393, rounds
    to [delta_fl]. *)
Definition morris_analyze_fl (S : sums) (nq : R -> R) (p : problem) (X : mat R) (Y : list R) (conf_level : R) (scaled : bool)
  (levels : nat) (resample : nat -> list (list nat)) : problem * result morris_out :=
  match define_problem_with_groups p with
  | Err e => (p, Err e)
  | Ok p1 =>
    (p1,
     do _ <- compute_delta levels ;;
     do mn <- compute_groups_matrix (match p_groups p1 with Some g => g | None => [] end) ;;
     let '(groups, names) := mn in
     let g := length names in
     let T := (length Y / (g + 1))%nat in
     if (T =? 0)%nat then Err ZeroDivisionError
     else
       let size := (length Y / T)%nat in
       do EE <- elementary_effects_fl S size (rows X) Y (cols X) (delta_fl levels) scaled ;;
       if negb (Rltb 0 conf_level && Rltb conf_level 1) then Err ValueError
       else
         do conf <- mapM (fun j => do ee <- get EE j ;; Ok (conf_fl S nq conf_level (resample j) ee)) (seq 0 (p_num_vars p1)) ;;
         if negb (cols X =? length groups)%nat then Err ValueError
         else
           let w := s_within S in
           Ok (mkMorris names (grouped_metric_fl w (map (fmean_fl (s_over S)) EE) groups g)
                 (grouped_metric_fl w (map (fun ee => fmean_fl (s_over S) (map fabs ee)) EE) groups g)
                 (grouped_sigma_fl w (map (fsd1_fl (s_over S)) EE) groups g) (grouped_metric_fl w conf groups g)))
  end.
