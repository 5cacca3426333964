(** * What the plots of HDMR results show, plotting/hdmr.py. *)
From Coq Require Import Reals String List Arith ZArith Bool.
From Verif Require Import Base Arrays ModelScale Stats ModelMorrisAnalyze ModelHdmr ModelPlotting.
Import ListNotations.
Local Open Scope nat_scope.

(** The red crosses of trial [i], plotting/hdmr.py:56: emulated against observed. *)
Definition trial_points (h : hdmr_out) (Y : list R) (i : nat) : list (R * R) :=
  match nth_error (h_Em h) i, nth_error (h_idx h) i with
  | Some f, Some idx => combine (fit_Y_e f) (take_rows 0%R idx Y)
  | _, _ => []
  end.

(** The red and the black points of parameter [j], plotting/hdmr.py:72 and 81-82.  Si["Y_em"] is the array that every pass of _compute overwrites
    (analyze/hdmr.py:300-334), so it holds the components of the last trial; Em["f0"] has an entry per trial. *)
Definition regression_points (h : hdmr_out) (X : mat R) (Y : list R) (j : nat) : list (R * R) * list (R * R) :=
  match rev (h_Em h), rev (h_idx h) with
  | f :: _, idx :: _ =>
      let xs := take_rows 0%R idx (map (fun r => nth j r 0%R) (rows X)) in
      (combine xs (take_rows 0%R idx Y),
       combine xs (map (fun c => mean (map fit_f0 (h_Em h)) + c)%R (nth j (fit_Y_em f) [])))
  | _, _ => ([], [])
  end.

(** The entries "emulated" and "Y_test" of a result, None while they do not exist. *)
Record tested := mkTested { t_emulated : option (list fval); t_observed : option (list R) }.
Definition untested : tested := mkTested None None.

(** emulate, analyze/hdmr.py:909-914: what a call stores. *)
Definition emulate_call (h : hdmr_out) (t : tested) (X : mat R) (Y : option (list R)) : tested :=
  mkTested (Some (emulate h X Y)) (match Y with Some y => Some y | None => t_observed t end).

(** The testing panel, plotting/hdmr.py:93-111: the crosses and the sum in the title (before it is rounded to two decimals).  Arrays of different
    lengths do not broadcast, or are refused by Axes.plot when one of them has length one; both raise ValueError. *)
Definition testing_panel (t : tested) : result (option (list (fval * R) * fval)) :=
  match t_emulated t with
  | None => Ok None
  | Some e =>
      match t_observed t with
      | None => Err KeyError
      | Some y => if length e =? length y
                  then Ok (Some (combine e y, fsum (map (fun ey => option_map (fun v => (v - snd ey) ^ 2)%R (fst ey)) (combine e y))))
                  else Err ValueError
      end
  end.

(** plot, plotting/hdmr.py:14-113, after the bar plot: per trial the figure, the position, the number in the title and the crosses; per parameter
    the figure, the position, the name in the title and the points; the testing panel.  The lines "1:1" and the decorations are left out. *)
Definition hdmr_plot (h : hdmr_out) (names : list string) (X : mat R) (Y : list R) (t : tested)
  : result (list (nat * nat * nat * list (R * R)) * list (nat * nat * string * (list (R * R) * list (R * R))) * option (list (fval * R) * fval)) :=
  do ts <- trial_panels (length (h_Em h)) ;;
  do rs <- regression_panels names (cols X) ;;
  do te <- testing_panel t ;;
  Ok (map (fun p => let '(f, it, i) := p in (f, it, length (h_Em h) - i, trial_points h Y i)) ts,
      map (fun p => let '(f, it, j, n) := p in (f, it, n, regression_points h X Y j)) rs, te).
