(** * Model of the Morris analyser (src/SALib/analyze/morris.py). *)
From Coq Require Import Reals String List Arith ZArith Bool.
From Verif Require Import Base Arrays ModelGroups ModelScale Stats Sums ModelFast ModelMorris.
Import ListNotations.
Local Open Scope nat_scope.

(** nan-propagating average, product and standard deviation (ddof = 1). *)
Definition fmean (l : list fval) : fval :=
  match all_some l with Some r => Some (mean r) | None => None end.
Definition fmul (a b : fval) : fval :=
  match a, b with Some x, Some y => Some (x * y)%R | _, _ => None end.
Definition fsd1 (l : list fval) : fval :=
  match all_some l with Some r => sd1 r | None => None end.
Definition fabs (a : fval) : fval := option_map Rabs a.

Section Effects.
Variable size : nat.
Variable X : list (list R).
Variable Y : list R.

(** The arrays reshaped to trajectory, point, parameter: analyze/morris.py:484-528. *)
Definition x_at (i k j : nat) : R := nth j (nth (i * size + k) X []) 0%R.
Definition y_at (i k : nat) : R := nth (i * size + k) Y 0%R.

(** delta_variables > 0 and < 0, analyze/morris.py:381-383, 440-458. *)
Definition increased (i k j : nat) : bool := Rltb 0 (x_at i (k + 1) j - x_at i k j)%R.
Definition decreased (i k j : nat) : bool := Rltb (x_at i (k + 1) j - x_at i k j) 0%R.

(** np.pad along the points: one false value before or after the [size - 1] flags,
    analyze/morris.py:315-323. *)
Definition pad_before (f : nat -> bool) (k : nat) : bool :=
  match k with 0 => false | S k' => (k' <? size - 1) && f k' end.
Definition pad_after (f : nat -> bool) (k : nat) : bool := (k <? size - 1) && f k.

(** _reorganize_output_matrix, analyze/morris.py:284-327: the sum of boolean arrays is their
    disjunction. *)
Definition reorganize (up : bool) (i j : nat) : R :=
  sum size (fun k =>
    let flag := if up then pad_before (fun k => increased i k j) k || pad_after (fun k => decreased i k j) k
                else pad_after (fun k => increased i k j) k || pad_before (fun k => decreased i k j) k in
    if flag then y_at i k else 0)%R.
Definition difference (i j : nat) : R := (reorganize true i j - reorganize false i j)%R.

(** Scaled effects, analyze/morris.py:394-412, 582-588. *)
Definition xs_of (i j : nat) : list R := map (fun k => x_at i k j) (seq 0 size).
Definition ys_of (i : nat) : list R := map (fun k => y_at i k) (seq 0 size).
Definition scaled_effect (i j : nat) : fval :=
  let dx := (maxl (xs_of i j) - minl (xs_of i j))%R in
  let adjustment := if Reqb (sd (ys_of i)) 0 then 0%R else (sd (xs_of i j) / sd (ys_of i))%R in
  fmul (fdiv (difference i j) dx) (Some adjustment).

(** _compute_elementary_effects, analyze/morris.py:330-417: one row per parameter, one column
    per trajectory.  [cols] is the number of columns of X. *)
Definition elementary_effects (cols : nat) (delta : R) (scaled : bool) : result (list (list fval)) :=
  let T := length X / size in
  if negb (T * size =? length Y) then Err ValueError
  else if negb (T * size * cols =? length X * cols) then Err ValueError
  else Ok (tab cols T (fun j i => if scaled then scaled_effect i j else fdiv (difference i j) delta)).
End Effects.

(** _compute_grouped_metric, analyze/morris.py:256-281: average over the members of each group. *)
Definition members (groups : list (list nat)) (k : nat) : list nat :=
  filter (fun j => negb (nth k (nth j groups []) 0 =? 0)) (seq 0 (length groups)).
Definition grouped_metric (m : list fval) (groups : list (list nat)) (g : nat) : list fval :=
  map (fun k => fmean (map (fun j => nth j m None) (members groups k))) (seq 0 g).

(** _compute_grouped_sigma, analyze/morris.py:226-253. *)
Definition grouped_sigma (m : list fval) (groups : list (list nat)) (g : nat) : list fval :=
  map (fun k => if list_sum (column groups k) =? 1
                then nth k (grouped_metric m groups g) None else None) (seq 0 g).

Record morris_out := mkMorris {
  m_names : list string; m_mu : list fval; m_mu_star : list fval; m_sigma : list fval; m_conf : list fval }.

(** _compute_mu_star_confidence, analyze/morris.py:531-579; [resample j] are the rows of random
    indices drawn for parameter [j], [nq] is norm.ppf. *)
Definition mu_star_confidence (nq : R -> R) (EE : list (list fval)) (num_vars : nat)
  (conf_level : R) (resample : nat -> list (list nat)) : result (list fval) :=
  if negb (Rltb 0 conf_level && Rltb conf_level 1) then Err ValueError
  else mapM (fun j =>
         do ee <- get EE j ;;
         let means := map (fun idx => fmean (map (fun t => fabs (nth t ee None)) idx)) (resample j) in
         Ok (fmul (Some (nq (1 / 2 + conf_level / 2)%R)) (fsd1 means))) (seq 0 num_vars).

(** analyze and _compute_statistical_outputs, analyze/morris.py:16-223, for float arrays (the dtype
    check, 591-601, always passes).  X with a number of columns other than the number of labels
    is taken to fail when the grouped metric multiplies the two shapes (for a single parameter numpy
    would broadcast instead; not modelled).  int(a / b) is exact division. *)
Definition morris_analyze (nq : R -> R) (p : problem) (X : mat R) (Y : list R) (conf_level : R) (scaled : bool)
  (levels : nat) (resample : nat -> list (list nat)) : problem * result morris_out :=
  match define_problem_with_groups p with
  | Err e => (p, Err e)
  | Ok p1 =>
    (p1,
     do delta <- compute_delta levels ;;
     do mn <- compute_groups_matrix (match p_groups p1 with Some g => g | None => [] end) ;;
     let '(groups, names) := mn in
     let g := length names in
     let T := length Y / (g + 1) in
     if T =? 0 then Err ZeroDivisionError
     else
       let size := length Y / T in
       do EE <- elementary_effects size (rows X) Y (cols X) delta scaled ;;
       let mu := map fmean EE in
       let mu_star := map (fun ee => fmean (map fabs ee)) EE in
       let sigma := map fsd1 EE in
       do conf <- mu_star_confidence nq EE (p_num_vars p1) conf_level resample ;;
       if negb (cols X =? length groups) then Err ValueError
       else Ok (mkMorris names (grouped_metric mu groups g) (grouped_metric mu_star groups g)
                  (grouped_sigma sigma groups g) (grouped_metric conf groups g)))
  end.
