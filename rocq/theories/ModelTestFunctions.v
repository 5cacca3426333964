(** * Model of the test functions (src/SALib/test_functions/). *)
From Coq Require Import Reals String List Arith ZArith Bool.
From Verif Require Import Base Arrays ModelScale Stats Sums ModelMorrisAnalyze.
Import ListNotations.
Local Open Scope nat_scope.

(** [None] stands for a number that is not finite (division by zero); numpy would go on with inf or nan. *)

(** numpy's power of a number that is not negative; zero to a negative power is not modelled. *)
Definition rpow (x y : R) : R := if Reqb x 0 then (if Reqb y 0 then 1 else 0)%R else Rpower x y.

(** numpy's elementwise operation on one-dimensional arrays. *)
Definition elementwise {A B C} (f : A -> B -> C) (l : list A) (l' : list B) : result (list C) :=
  if length l =? length l' then Ok (map2 f l l')
  else match l, l' with
       | [x], _ => Ok (map (f x) l')
       | _, [y] => Ok (map (fun x => f x y) l)
       | _, _ => Err ValueError
       end.

(** ** Sobol_G.py *)

(** Sobol_G.py:40-41. *)
Definition default_a : list R := [0; 1; 9 / 2; 9; 99; 99; 99; 99]%R.

(** np.prod. *)
Definition fprod (l : list fval) : fval := fold_right fmul (Some 1%R) l.

(** One row, Sobol_G.py:77-83. *)
Definition g_row (a delta alpha row : list R) : result fval :=
  do shift <- elementwise Rplus row delta ;;
  let mod_x := map (fun s => s - IZR (Int_part s))%R shift in
  do temp_y <- elementwise (fun m al => rpow (Rabs (2 * m - 1)) al) mod_x alpha ;;
  do scaled <- elementwise (fun al t => (1 + al) * t)%R alpha temp_y ;;
  do num <- elementwise Rplus scaled a ;;
  do ys <- elementwise (fun n v => fdiv n (1 + v)%R) num a ;;
  Ok (fprod ys).

(** evaluate, Sobol_G.py:12-85, for numpy arrays. *)
Definition g_evaluate (values : list (list R)) (a delta alpha : option (list R)) : result (list fval) :=
  let a := match a with Some a => a | None => default_a end in
  do d <- match delta with
          | None => Ok (map (fun _ => 0%R) a)
          | Some d => if existsb (fun x => Rltb x 0 || Rltb 1 x) d then Err ValueError else Ok d
          end ;;
  do al <- match alpha with
           | None => Ok (map (fun _ => 1%R) a)
           | Some al => if existsb (fun x => negb (Rltb 0 x)) al then Err ValueError else Ok al
           end ;;
  if existsb (existsb (fun x => Rltb x 0)) values then Err ValueError
  else if existsb (existsb (fun x => Rltb 1 x)) values then Err ValueError
  else mapM (g_row a d al) values.

Definition alpha_of (a : list R) (alpha : option (list R)) : list R :=
  match alpha with Some al => al | None => map (fun _ => 1%R) a end.

(** _partial_first_order_variance, Sobol_G.py:88-95; here and below [a] is given. *)
Definition partial_variance (a : list R) (alpha : option (list R)) : result (list fval) :=
  elementwise (fun al v => fdiv (al ^ 2)%R ((1 + 2 * al) * (1 + v) ^ 2)%R) (alpha_of a alpha) a.

(** _total_variance, Sobol_G.py:98-105. *)
Definition fadd1 (v : fval) : fval := option_map (fun x => 1 + x)%R v.
Definition total_variance (a : list R) (alpha : option (list R)) : result fval :=
  do pv <- partial_variance a alpha ;;
  Ok (option_map (fun p => -1 + p)%R (fprod (map fadd1 pv))).

(** Division of numbers that may not be finite. *)
Definition fquot (a b : fval) : fval := match a, b with Some x, Some y => fdiv x y | _, _ => None end.

(** sensitivity_index, Sobol_G.py:108-110. *)
Definition sensitivity_index (a : list R) (alpha : option (list R)) : result (list fval) :=
  do pv <- partial_variance a alpha ;;
  do tv <- total_variance a alpha ;;
  Ok (map (fun p => fquot p tv) pv).

(** total_sensitivity_index, Sobol_G.py:113-120. *)
Definition total_sensitivity_index (a : list R) (alpha : option (list R)) : result (list fval) :=
  do pv <- partial_variance a alpha ;;
  do tv <- total_variance a alpha ;;
  let product_pv := fprod (map fadd1 pv) in
  Ok (map (fun p => fquot (fmul p (fquot product_pv (fadd1 p))) tv) pv).

(** ** Ishigami.py, linear_model_1.py, linear_model_2.py *)

(** Ishigami.py:54-59: the columns 0, 1 and 2 of a matrix. *)
Definition ishigami (A B : R) (X : mat R) : result (list R) :=
  if cols X <? 3 then Err IndexError
  else Ok (map (fun r => sin (nth 0 r 0) + A * sin (nth 1 r 0) ^ 2 + B * nth 2 r 0 ^ 4 * sin (nth 0 r 0))%R (rows X)).

(** linear_model_1.py:23-24. *)
Definition linear_1 (X : mat R) : list R := map Rsum (rows X).

(** linear_model_2.py:22-29. *)
Definition linear_2 (X : mat R) : result (list R) :=
  if cols X <? 5 then Err IndexError
  else Ok (map (fun r => 5 * nth 0 r 0 + 4 * nth 1 r 0 + 3 * nth 2 r 0 + 2 * nth 3 r 0 + nth 4 r 0)%R (rows X)).

(** ** lake_problem.py *)

(** lake_problem, lake_problem.py:64-67, for one number that is not negative. *)
Definition lake_problem (a q b x eps : R) : R := (x + a + rpow x q / (1 + rpow x q) - b * x + eps)%R.

(** Rows [t], [t + 1], … of Y, lake_problem.py:115-119, from the previous row. *)
Fixpoint lake_rows (a q b : R) (eps row : list R) (n : nat) : list (list R) :=
  match n with
  | 0 => []
  | S n => let next := map2 (lake_problem a q b) row eps in next :: lake_rows a q b eps next n
  end.

(** evaluate_lake, lake_problem.py:71-121, called with one row of five values: [nvars] is then 5, the length of the row. [inflows] is the
    seeded draw of the log normal inflows. *)
Definition evaluate_lake (inflows : R -> R -> nat -> list R) (a q b mn sd : R) : list (list R) :=
  lake_rows a q b (inflows mn sd 5) (repeat 0%R 5) 5.

(** One row of evaluate, lake_problem.py:144-164. [critical] is brentq applied to lines 150; it may raise. *)
Definition lake_row (inflows : R -> R -> nat -> list R) (critical : R -> R -> result R) (nvars : nat) (row : list R) : result (list R) :=
  match row with
  | [a; q; b; mn; sd; delta; alpha] =>
      let tmp := concat (evaluate_lake inflows a q b mn sd) in
      do p <- critical q b ;;
      if nvars =? 0 then Err ZeroDivisionError
      else
        let reliability := (INR (length (filter (fun x => Rltb x p) tmp)) / INR nvars)%R in
        let utility := Rsum (map (fun t => alpha * a * delta ^ t)%R (seq 0 nvars)) in
        let inertia := (INR (if Rltb a (2 / 100) then 1 else 0) / INR nvars)%R in
        Ok [maxl tmp; utility; inertia; reliability]
  | _ => Err ValueError
  end.

(** evaluate, lake_problem.py:124-166. *)
Definition lake_evaluate (inflows : R -> R -> nat -> list R) (critical : R -> R -> result R) (values : list (list R)) (nvars : nat)
  : result (list (list R)) := mapM (lake_row inflows critical nvars) values.
