(** * Model of the delta moment-independent analyser (src/SALib/analyze/delta.py).

    Arithmetic is exact.  The Gaussian kernel density estimate of scipy and the normal quantile are arguments.
    Random draws are streams of arbitrary numbers reduced modulo the size of the pool, so that every possible
    draw occurs for some stream. Messages of exceptions and warnings are not modelled; notes are tagged. *)
From Coq Require Import Reals String List Arith ZArith Bool.
From Verif Require Import Base Arrays ModelGroups ModelScale Stats Sums ModelFast Quant ModelRsa.
Import ListNotations.
Local Open Scope nat_scope.

(** np.linspace(a, b, n) *)
Definition linspace (a b : R) (n : nat) : list R :=
  if n =? 1 then [a] else map (fun i => a + INR i * ((b - a) / INR (n - 1)))%R (seq 0 n).

(** An entry of bins_specs: a whole number, a list of numbers, a list with something else in it, anything else. *)
Inductive bin_spec := BInt (n : Z) | BList (l : list R) | BWords | BOther.

(** Notes of the result, delta.py:217-221, 250-252, 307-348, 22-31. *)
Inductive note :=
| NoteStep (zeroes nonzeroes : nat) | NoteDiff (d : R) | NoteWords | NoteRange | NoteOrder | NoteKind | NoteError (e : exn).

(** np.any(bin_edges < Xmin), np.any(bin_edges > Xmax), np.all(np.diff(bin_edges) > 0) *)
Definition some_below (l : list R) (x : R) : bool := existsb (fun e => if Rlt_dec e x then true else false) l.
Definition some_above (l : list R) (x : R) : bool := existsb (fun e => if Rlt_dec x e then true else false) l.
Fixpoint ascends (l : list R) : bool :=
  match l with
  | a :: ((b :: _) as r) => (if Rlt_dec a b then true else false) && ascends r
  | _ => true
  end.

(** check_specified_bininfo, delta.py:307-348; np.linspace with a negative number of points raises ValueError. *)
Definition check_bininfo (spec : option bin_spec) (xmin xmax : R) : result (list R * list note) :=
  let default := linspace xmin xmax 11 in
  match spec with
  | None => Ok (default, [])
  | Some (BInt n) => if (n + 1 <? 0)%Z then Err ValueError else Ok (linspace xmin xmax (Z.to_nat (n + 1)), [])
  | Some BWords => Ok (default, [NoteWords])
  | Some (BList l) =>
      if some_below l xmin || some_above l xmax then Ok (default, [NoteRange])
      else if negb (ascends l) then Ok (default, [NoteOrder])
      else Ok ([xmin - / 1000000000] ++ l ++ [xmax + / 1000000000], [])%R
  | Some BOther => Ok (default, [NoteKind])
  end.

(** np.where(mask)[0] for a mask given by a test on the values. *)
Definition where_ (t : R -> bool) (X : list R) : list nat :=
  map fst (filter (fun ix => t (snd ix)) (combine (seq 0 (length X)) X)).

Definition leb (x y : R) : bool := if Rle_dec x y then true else false.
Definition ltb (x y : R) : bool := if Rlt_dec x y then true else false.

(** The first loop of obtain_bins_indices, delta.py:436-442. *)
Definition init_bins (edges : list R) (X : list R) : list (list nat) :=
  map (fun i => let lo := nth i edges 0%R in
                let hi := nth (i + 1) edges 0%R in
                where_ (fun x => (if i =? 0 then leb lo x else ltb lo x) && leb x hi) X)
      (seq 0 (length edges - 1)).

(** The second loop, delta.py:443-451: [current] is the bin being filled. *)
Fixpoint fill (min_size : nat) (current : list nat) (bins : list (list nat)) : list (list nat) :=
  match bins with
  | [] => [current]
  | b :: r => if length current <? min_size then fill min_size (current ++ b) r else current :: fill min_size b r
  end.
Definition merge_bins (min_size : nat) (bins : list (list nat)) : list (list nat) :=
  match bins with [] => [] | b :: r => fill min_size b r end.

(** obtain_bins_indices, delta.py:431-452 *)
Definition bins_indices (edges X : list R) (min_size : nat) : list (list nat) * list (list nat) :=
  let init := init_bins edges X in (init, merge_bins min_size init).

(** np.random.choice(pool, size=n, replace=True) and, for [pool = seq 0 N], np.random.randint(N, size=n);
    ValueError for an empty pool. *)
Definition choice (c : nat -> nat) (pool : list nat) (n : nat) : result (list nat) :=
  match pool with
  | [] => if n =? 0 then Ok [] else Err ValueError
  | _ => Ok (map (fun k => nth (c k mod length pool) pool 0) (seq 0 n))
  end.

Inductive mode := Balanced | Raw | Step.
Definition mode_eqb (a b : mode) : bool :=
  match a, b with Balanced, Balanced | Raw, Raw | Step, Step => true | _, _ => false end.

(** The draws from the final bins, delta.py:506-514; bin [i] gets one more for the first [remaining] bins,
    empty bins are skipped. *)
Fixpoint draw_bins (c : nat -> nat -> nat) (per remaining i : nat) (bins : list (list nat)) : result (list (list nat)) :=
  match bins with
  | [] => Ok []
  | b :: r =>
      if length b =? 0 then draw_bins c per remaining (S i) r
      else do d <- choice (c (S i)) b (per + (if i <? remaining then 1 else 0)) ;;
           do ds <- draw_bins c per remaining (S i) r ;; Ok (d :: ds)
  end.

(** delta.py:485-514 after the selection of the values to be binned. *)
Definition balanced_draws (c : nat -> nat -> nat) (edges Xs : list R) (size min_size : nat) : result (list (list nat)) :=
  let bins := snd (bins_indices edges Xs min_size) in
  let n := length bins in
  if n =? 0 then Err ZeroDivisionError
  else
    let per := size / n in
    let remaining := size - per * n in
    if n <? 2 then Err AnalysisError
    else if per <? min_size then Err ValueError
    else draw_bins c per remaining 0 bins.

(** obtain_resampled_subset, delta.py:455-526; [c 0] is the draw of delta.py:468 or 482, [c (S i)] that of bin [i]. *)
Definition resample (c : nat -> nat -> nat) (X : list R) (y_resamples : nat) (m : mode) (edges : list R) (min_size : nat) : result (list nat) :=
  match X with
  | [] => Err ValueError
  | _ =>
    if Reqb (maxl X) (minl X) then Err ValueError
    else match m with
    | Raw => choice (c 0) (seq 0 (length X)) y_resamples
    | Balanced => do ds <- balanced_draws c edges X y_resamples min_size ;; Ok (concat ds)
    | Step =>
        let zeroes := where_ (fun x => leb x 0) X in
        let nonzeroes := where_ (fun x => ltb 0 x) X in
        let n0 := y_resamples / 2 in
        do z <- choice (c 0) zeroes n0 ;;
        do Xs <- mapM (get X) nonzeroes ;;
        match Xs with
        | [] => Err ValueError
        | _ =>
          do en <- check_bininfo (Some (BInt 5)) (minl Xs) (maxl Xs) ;;
          do ds <- balanced_draws c (fst en) Xs (y_resamples - n0) (min_size / 2) ;;
          do nz <- mapM (mapM (get nonzeroes)) ds ;;
          Ok (z ++ concat nz)
        end
    end
  end.

(** scipy.stats.rankdata(X, method="ordinal"): ties are ranked in order of appearance. *)
Definition ordinal (X : list R) (i : nat) : nat :=
  let x := nth i X 0%R in
  count_lt X x + length (filter (fun y => if Req_EM_T y x then true else false) (firstn (S i) X)).

(** m = np.linspace(0, y_resamples, M + 1), delta.py:187 *)
Definition grid_m (y M : nat) : list R := linspace 0 (INR y) (M + 1).

(** np.where((xr > m[j]) & (xr <= m[j + 1]))[0], delta.py:363 and 543 *)
Definition class_of (X m : list R) (j : nat) : list nat :=
  filter (fun i => let r := INR (ordinal X i) in ltb (nth j m 0%R) r && leb r (nth (j + 1) m 0%R)) (seq 0 (length X)).

(** np.trapezoid(f, grid) *)
Fixpoint trapezoid (f g : list R) : R :=
  match f, g with
  | a :: ((b :: _) as f'), s :: ((t :: _) as g') => ((t - s) * (a + b) / 2 + trapezoid f' g')%R
  | _, _ => 0%R
  end.

(** delta.py:186: M = min(ceil(y ** exp), 48) with exp = 2 / (7 + tanh((1500 - y) / 500)) *)
Definition ceil_nat (x : R) : nat := Z.to_nat (- Int_part (- x)).
Definition classes (y : nat) : nat :=
  if y =? 0 then 0
  else Nat.min (ceil_nat (Rpower (INR y) (2 / (7 + tanh ((1500 - INR y) / 500))))) 48.

Section Delta.
(** scipy.stats.gaussian_kde(data, bw_method="silverman")(grid): raises ValueError for fewer than two values and
    LinAlgError for singular data. *)
Variable kde : list R -> list R -> result (list R).
(** scipy.stats.norm.ppf *)
Variable nq : R -> R.

(** One class of the loop of calc_delta, delta.py:362-379: its contribution to d_hat and whether it is counted as skipped. *)
Definition class_term (fy : list R) (Y Ygrid X m : list R) (j : nat) : result R :=
  let ix := class_of X m j in
  match ix with
  | [] => Ok 0%R
  | _ =>
    do Yx <- mapM (get Y) ix ;;
    if Reqb (ptp Yx) 0 then Ok 0%R
    else do fyc <- kde Yx Ygrid ;;
         Ok (INR (length ix) / (2 * INR (length Y)) * trapezoid (map2 (fun a b => Rabs (a - b)) fy fyc) Ygrid)%R
  end.

(** calc_delta, delta.py:351-384 (the warning is dropped; num_skipped / total_bins raises for no bins). *)
Definition calc_delta (Y Ygrid X m : list R) : result R :=
  do fy <- kde Y Ygrid ;;
  do ts <- mapM (class_term fy Y Ygrid X m) (seq 0 (length m - 1)) ;;
  if length m - 1 =? 0 then Err ZeroDivisionError else Ok (Rsum ts).

Definition take (ind : list nat) (l : list R) : result (list R) := mapM (get l) ind.

(** [norm.ppf(0.5 + conf_level / 2) * d.std(ddof=1)] and [d.mean()] *)
Definition fmean_of (l : list R) : fval := match l with [] => None | _ => Some (mean l) end.
Definition half_width (conf : R) (l : list R) : fval := option_map (fun s => nq (1 / 2 + conf / 2) * s)%R (sd1 l).

(** bias_reduced_delta, delta.py:387-428; [c 0] serves the first subset, [c (S k)] the k-th bootstrap subset. *)
Definition bias_reduced (c : nat -> nat -> nat -> nat) (Y Ygrid X m : list R) (num_resamples : nat) (conf : R)
  (y_resamples : nat) (mo : mode) (edges : list R) (min_size : nat) : result (fval * fval * list nat) :=
  do ind <- resample (c 0) X y_resamples mo edges min_size ;;
  do Yi <- take ind Y ;; do Xi <- take ind X ;;
  do d_hat <- calc_delta Yi Ygrid Xi m ;;
  do rs <- match mapM (fun k => resample (c (S k)) X y_resamples mo edges min_size) (seq 0 num_resamples) with
           | Ok r => Ok r
           | Err ValueError => Err RuntimeError
           | Err e => Err e
           end ;;
  do ds <- mapM (fun r => do Yr <- take r Y ;; do Xr <- take r X ;; calc_delta Yr Ygrid Xr m) rs ;;
  let d := map (fun x => 2 * d_hat - x)%R ds in
  Ok (fmean_of d, half_width conf d, ind).

(** sobol_first, delta.py:529-546; np.ptp of an empty array raises; the mean of an empty class is nan. *)
Definition sobol_first (Y X m : list R) : result fval :=
  match Y with
  | [] => Err ValueError
  | _ =>
    if Reqb (ptp Y) 0 then Ok (Some 0%R)
    else
      do ts <- mapM (fun j => let ix := class_of X m j in
                              do Yx <- mapM (get Y) ix ;;
                              Ok (match Yx with
                                  | [] => None
                                  | _ => Some (INR (length ix) / INR (length Y) * (mean Yx - mean Y) ^ 2)%R
                                  end)) (seq 0 (length m - 1)) ;;
      Ok (match all_some ts with Some l => fdiv (Rsum l) (var Y) | None => None end)
  end.

(** sobol_first_conf, delta.py:549-562 *)
Definition sobol_conf (c : nat -> nat -> nat) (Y X m : list R) (num_resamples : nat) (conf : R) (y_resamples : nat) : result fval :=
  do ss <- mapM (fun k =>
      do r <- choice (c k) (seq 0 (length Y)) y_resamples ;;
      do Yr <- take r Y ;; do Xr <- take r X ;; sobol_first Yr Xr m) (seq 0 num_resamples) ;;
  Ok (width (nq (1 / 2 + conf / 2)%R) ss).

(** What the loop body stores for one parameter, and whether it reached the end of the try block. *)
Record cell := mkCell { c_delta : mode -> fval; c_delta_conf : mode -> fval; c_S1 : fval; c_S1_conf : fval; c_note : list note; c_done : bool }.
Definition set_mode (f : mode -> fval) (m : mode) (v : fval) : mode -> fval := fun m' => if mode_eqb m m' then v else f m'.

(** One mode of the delta part, delta.py:213-249: the values stored or the exception raised. *)
Definition run_mode (c : mode -> nat -> nat -> nat -> nat) (Y Ygrid X m : list R) (num_resamples : nat) (conf : R)
  (y_resamples : nat) (edges : list R) (min_size : nat) (mo : mode) (s : cell) : result cell :=
  let zeroes := length (where_ (fun x => leb x 0) X) in
  let nonzeroes := length (where_ (fun x => ltb 0 x) X) in
  if mode_eqb mo Step && ((zeroes <? min_size) || (nonzeroes <? min_size))
  then Ok (mkCell (set_mode (c_delta s) Step None) (set_mode (c_delta_conf s) Step None) (c_S1 s) (c_S1_conf s)
                  (c_note s ++ [NoteStep zeroes nonzeroes]) (c_done s))
  else do v <- bias_reduced (c mo) Y Ygrid X m num_resamples conf y_resamples mo edges min_size ;;
       Ok (mkCell (set_mode (c_delta s) mo (fst (fst v))) (set_mode (c_delta_conf s) mo (snd (fst v)))
                  (c_S1 s) (c_S1_conf s) (c_note s) (c_done s)).

(** Running statements in a try block: what was stored before the exception stays. *)
Fixpoint run_all (steps : list (cell -> result cell)) (s : cell) : cell * option exn :=
  match steps with
  | [] => (s, None)
  | f :: r => match f s with Ok s' => run_all r s' | Err e => (s, Some e) end
  end.

(** delta.py:250-256 *)
Definition note_diff (s : cell) : result cell :=
  Ok (match c_delta s Balanced, c_delta s Raw with
      | Some a, Some b => if Rlt_dec (1 / 10) (Rabs (a - b))
                          then mkCell (c_delta s) (c_delta_conf s) (c_S1 s) (c_S1_conf s) (c_note s ++ [NoteDiff (Rabs (a - b))]) (c_done s)
                          else s
      | _, _ => s
      end).

(** delta.py:259-260 and 261-263; [c 0] is the draw of line 259, [c (S k)] those of the confidence interval. *)
Definition run_S1 (c : nat -> nat -> nat) (Y X m : list R) (y_resamples : nat) (s : cell) : result cell :=
  do ind <- choice (c 0) (seq 0 (length Y)) y_resamples ;;
  do Yi <- take ind Y ;; do Xi <- take ind X ;;
  do v <- sobol_first Yi Xi m ;;
  Ok (mkCell (c_delta s) (c_delta_conf s) v (c_S1_conf s) (c_note s) (c_done s)).
Definition run_S1_conf (c : nat -> nat -> nat) (Y X m : list R) (num_resamples : nat) (conf : R) (y_resamples : nat) (s : cell) : result cell :=
  do w <- sobol_conf (fun k => c (S k)) Y X m num_resamples conf y_resamples ;;
  Ok (mkCell (c_delta s) (c_delta_conf s) (c_S1 s) w (c_note s) (c_done s)).

(** exception_handler, delta.py:22-31, and the except branch, delta.py:265-268. *)
Definition finish (r : cell * option exn) : result cell :=
  match r with
  | (s, None) => Ok (mkCell (c_delta s) (c_delta_conf s) (c_S1 s) (c_S1_conf s) (c_note s) true)
  | (s, Some LinAlgError) => Err ValueError
  | (s, Some e) => Ok (mkCell (c_delta s) (c_delta_conf s) (c_S1 s) (c_S1_conf s) [NoteError e] false)
  end.

(** One round of the loop over the parameters, delta.py:201-270. *)
Definition delta_param (dc : mode -> nat -> nat -> nat -> nat) (sc : nat -> nat -> nat) (Y X : list R) (with_delta with_sobol : bool)
  (num_resamples : nat) (conf : R) (y_resamples : nat) (spec : option bin_spec) : result cell :=
  let m := grid_m y_resamples (classes y_resamples) in
  let Ygrid := linspace (minl Y) (maxl Y) 100 in
  let min_size := Nat.max (length X / 200) 10 in
  do en <- check_bininfo spec (minl X) (maxl X) ;;
  let start := mkCell (fun _ => None) (fun _ => None) None None (snd en) false in
  let dsteps := if with_delta
                then map (run_mode dc Y Ygrid X m num_resamples conf y_resamples (fst en) min_size) [Balanced; Raw; Step] ++ [note_diff]
                else [] in
  let ssteps := if with_sobol then [run_S1 sc Y X m y_resamples; run_S1_conf sc Y X m num_resamples conf y_resamples] else [] in
  finish (run_all (dsteps ++ ssteps) start).

(** The result: an entry per requested index, names, and notes unless no parameter was completed. *)
Record delta_out := mkDelta {
  d_delta : option (mode -> list fval); d_delta_conf : option (mode -> list fval);
  d_S1 : option (list fval); d_S1_conf : option (list fval);
  d_names : list string; d_notes : option (list (list note)) }.

(** str.endswith *)
Definition ends_with (s suffix : string) : bool :=
  let n := String.length s in
  let k := String.length suffix in
  (k <=? n) && String.eqb (String.substring (n - k) k s) suffix.

(** analyze, delta.py:38-304 (after seeding; without printing and without bootstrap_savedf).  [notes] is one list,
    stored in the result at the end of every completed round and extended afterwards, delta.py:264-270. *)
Definition delta_analyze (dc : nat -> mode -> nat -> nat -> nat -> nat) (sc : nat -> nat -> nat -> nat)
  (p : problem) (X : mat R) (Y : list R) (num_resamples : nat) (conf : R)
  (y_resamples : option nat) (method : string) (bins_specs : string -> option bin_spec) : result delta_out :=
  if negb (length (rows X) =? length Y) then Err RuntimeError
  else if negb (ltb 0 conf && ltb conf 1) then Err RuntimeError
  else if negb (existsb (String.eqb method) ["delta"; "sobol"; "all"]%string) then Err ValueError
  else
    let y := match y_resamples with None => length Y | Some y => y end in
    let with_delta := negb (String.eqb method "sobol") in
    let with_sobol := negb (String.eqb method "delta") in
    if negb (y <=? length Y) then Err RuntimeError
    else match Y with
    | [] => Err ValueError
    | _ =>
      if existsb (fun n => existsb (ends_with n) ["_raw"; "_balanced"; "_step"; "_conf"]%string) (p_names p) then Err ValueError
      else
        do cs <- mapM (fun i =>
            do name <- get (p_names p) i ;;
            do Xi <- (if i <? cols X then mapM (fun r => get r i) (rows X) else Err IndexError) ;;
            delta_param (dc i) (sc i) Y Xi with_delta with_sobol num_resamples conf y (bins_specs name)) (seq 0 (p_num_vars p)) ;;
        Ok (mkDelta (if with_delta then Some (fun mo => map (fun c => c_delta c mo) cs) else None)
                    (if with_delta then Some (fun mo => map (fun c => c_delta_conf c mo) cs) else None)
                    (if with_sobol then Some (map c_S1 cs) else None)
                    (if with_sobol then Some (map c_S1_conf cs) else None)
                    (p_names p)
                    (if existsb c_done cs then Some (map c_note cs) else None))
    end.
End Delta.
