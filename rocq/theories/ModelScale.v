(** * Model of sample scaling (src/SALib/util/__init__.py:25-289). *)
From Coq Require Import Reals String List Arith Bool.
From Verif Require Import Base ModelGroups.
Import ListNotations.
Local Open Scope R_scope.

(** Float comparisons, as booleans over the reals (no NaN bounds). *)
Definition Rleb (x y : R) : bool := if Rle_dec x y then true else false.
Definition Rltb (x y : R) : bool := if Rlt_dec x y then true else false.
Definition Reqb (x y : R) : bool := if Req_EM_T x y then true else false.

(** [b = np.array(bounds); b[:, 0], b[:, 1]] (util_funcs.py:144-147, __init__.py:106-108):
    ragged rows are refused by numpy (ValueError), an empty list or rows with fewer than two
    entries raise IndexError. *)
Definition bounds_columns (bounds : list (list R)) : result (list (R * R)) :=
  match bounds with
  | [] => Err IndexError
  | r0 :: _ =>
    if negb (forallb (fun r => Nat.eqb (length r) (length r0)) bounds) then Err ValueError
    else mapM (fun r => match r with
                        | lo :: up :: _ => Ok (lo, up)
                        | _ => Err IndexError
                        end) bounds
  end.

(** [np.any(lower_bounds >= upper_bounds)] (util_funcs.py:149, __init__.py:40, 110). *)
Definition any_illegal (lu : list (R * R)) : bool :=
  existsb (fun b => Rleb (snd b) (fst b)) lu.

(** _check_bounds, util_funcs.py:132-152. *)
Definition check_bounds (bounds : list (list R)) : result (list (R * R)) :=
  do lu <- bounds_columns bounds ;;
  if any_illegal lu then Err ValueError else Ok lu.

(** numpy broadcasting of a length-[n] vector against an array with [c] columns when the result
    must fit the array ([out=params]): equal lengths, or a single value repeated; anything else
    raises ValueError before writing. *)
Definition broadcast {A} (c : nat) (v : list A) : result (list A) :=
  if Nat.eqb (length v) c then Ok v
  else match v with
       | [x] => Ok (repeat x c)
       | _ => Err ValueError
       end.

(** [op(params, v, out=params)] for a ufunc [op]. *)
Definition inplace {B} (op : R -> B -> R) (m : mat R) (v : list B) : mat R :=
  mkMat (cols m) (map (fun r => map2 op r v) (rows m)).

(** _scale_samples, __init__.py:25-53.  Returns the array as the caller sees it afterwards and
    the outcome.  The legality test is made twice, as in the code (in _check_bounds and again
    at line 40). *)
Definition scale_inplace (m : mat R) (bounds : list (list R)) : mat R * result unit :=
  match check_bounds bounds with
  | Err e => (m, Err e)
  | Ok lu =>
    if any_illegal lu then (m, Err ValueError)
    else match broadcast (cols m) lu with
         | Err e => (m, Err e)
         | Ok v =>
           let m1 := inplace (fun x b => x * (snd b - fst b)) m v in
           (inplace (fun x b => x + fst b) m1 v, Ok tt)
         end
  end.

(** _unscale_samples, __init__.py:94-123. *)
Definition unscale_inplace (m : mat R) (bounds : list (list R)) : mat R * result unit :=
  match bounds_columns bounds with
  | Err e => (m, Err e)
  | Ok lu =>
    if any_illegal lu then (m, Err ValueError)
    else match broadcast (cols m) lu with
         | Err e => (m, Err e)
         | Ok v =>
           let m1 := inplace (fun x b => x - fst b) m v in
           (inplace (fun x b => x / (snd b - fst b)) m1 v, Ok tt)
         end
  end.

(** ** Non-uniform scaling *)

(** Values of scaled entries: [Some y] a finite number, [None] nan or infinity. *)
Notation fval := (option R) (only parsing).

Section Oracles.
(** scipy's standard normal quantile function on (0,1), and the quantile function of the standard
    normal truncated to [a,b] (arguments q a b).  Arbitrary functions here. *)
Variable norm_q : R -> R.
Variable truncnorm_q : R -> R -> R -> R.

(** [0 <= q <= 1]: outside, scipy's ppf gives nan. *)
Definition unit_arg (q : R) : bool := Rleb 0 q && Rleb q 1.

(** scipy.stats.triang.ppf(q, c, loc, scale) (called at __init__.py:197-199): nan unless
    scale > 0 and 0 <= c <= 1. *)
Definition triang_ppf (q c loc scale : R) : fval :=
  if Rltb 0 scale && (Rleb 0 c && Rleb c 1) && unit_arg q then
    Some (loc + scale * (if Rltb q c then sqrt (c * q) else 1 - sqrt ((1 - c) * (1 - q))))
  else None.

(** scipy.stats.loguniform.ppf(q, a, b) (called at __init__.py:211): nan unless 0 < a < b. *)
Definition loguniform_ppf (q a b : R) : fval :=
  if Rltb 0 a && Rltb a b && unit_arg q then Some (exp (ln a + q * (ln b - ln a)))
  else None.

(** scipy.stats.norm.ppf(q, loc, scale) with scale > 0 (called at __init__.py:217, 247):
    infinite at 0 and 1. *)
Definition norm_ppf (q loc scale : R) : fval :=
  if Rltb 0 q && Rltb q 1 then Some (loc + scale * norm_q q) else None.

(** scipy.stats.truncnorm.ppf(q, a, b, loc, scale) with a < b, scale > 0 (called at
    __init__.py:235-237). *)
Definition truncnorm_ppf (q a b loc scale : R) : fval :=
  if unit_arg q then Some (loc + scale * truncnorm_q q a b) else None.

(** Real power of a non-negative base ([0 ** y = 0] for y > 0). *)
Definition pow0 (x y : R) : R := if Reqb x 0 then 0 else Rpower x y.

(** scipy.stats.weibull_min.ppf(q, c, loc, scale) with c, scale > 0 (called at
    __init__.py:273-275): loc + scale * (-log1p(-q)) ** (1/c); infinite at q = 1. *)
Definition weibull_ppf (q c loc scale : R) : fval :=
  if Rleb 0 q && Rltb q 1 then Some (loc + scale * pow0 (- ln (1 - q)) (1 / c)) else None.

(** One column of _nonuniform_scale_samples, __init__.py:159-287: [b] is [bounds[i]], [d] is
    [dists[i]], [col] is [params[:, i]].  Deprecation warnings are not modelled. *)
Definition nonuniform_column (b : list R) (d : string) (col : list R) : result (list fval) :=
  do b1 <- get b 0 ;;
  do b2 <- get b 1 ;;
  if String.eqb d "triang" then
    do args <- (match b with
                | [s; e; c] => Ok (s, e, c)
                | [e; c] => Ok (0, e, c)
                | _ => Err ValueError
                end) ;;
    let '(loc_start, b1, b2) := args in
    if Rltb b1 0 || Rltb b2 0 || Rleb 1 b2 || Rltb b1 loc_start then Err ValueError
    else Ok (map (fun q => triang_ppf q b2 loc_start (b1 - loc_start)) col)
  else if String.eqb d "unif" then
    if Rleb b2 b1 then Err ValueError
    else Ok (map (fun x => Some (x * (b2 - b1) + b1)) col)
  else if String.eqb d "logunif" then
    Ok (map (fun q => loguniform_ppf q b1 b2) col)
  else if String.eqb d "norm" then
    if Rleb b2 0 then Err ValueError
    else Ok (map (fun q => norm_ppf q b1 b2) col)
  else if String.eqb d "truncnorm" then
    do b3 <- get b 2 ;;
    do b4 <- get b 3 ;;
    if Rleb b4 0 then Err ValueError
    else if Rleb b2 b1 then Err ValueError
    else Ok (map (fun q => truncnorm_ppf q ((b1 - b3) / b4) ((b2 - b3) / b4) b3 b4) col)
  else if String.eqb d "lognorm" then
    if Rleb b2 0 then Err ValueError
    else Ok (map (fun q => option_map exp (norm_ppf q b1 b2)) col)
  else if String.eqb d "weibull" then
    do args <- (match b with
                | [k; l; s] => Ok (k, l, s)
                | [k; l] => Ok (k, l, 0)
                | _ => Err ValueError
                end) ;;
    let '(b1, b2, loc_start) := args in
    if Rleb b1 0 || Rleb b2 0 then Err ValueError
    else Ok (map (fun q => weibull_ppf q b1 loc_start b2) col)
  else Err ValueError.

(** The loop over columns, __init__.py:159-289; the result is listed column by column.
    [bounds[i]] and [dists[i]] raise IndexError when missing. *)
Definition nonuniform_scale (m : mat R) (bounds : list (list R)) (dists : list string)
  : result (list (list fval)) :=
  mapM (fun i => do b <- get bounds i ;;
                 do d <- get dists i ;;
                 nonuniform_column b d (column (rows m) i))
       (seq 0 (cols m)).

(** What scale_samples hands back: the caller's own array, scaled in place (uniform case), or the
    columns of a fresh array. *)
Inductive scaled : Type :=
| InPlace (m : mat R)
| Fresh (columns : list (list fval)).

(** scale_samples, __init__.py:56-90.  Result: the caller's array afterwards, the problem
    afterwards, and the outcome. *)
Definition scale_samples (m : mat R) (p : problem) : mat R * problem * result scaled :=
  let marked := mkProblem (p_num_vars p) (p_names p) (p_bounds p) (p_groups p) (p_dists p) true in
  match p_dists p with
  | None =>
    match scale_inplace m (p_bounds p) with
    | (m', Ok _) => (m', marked, Ok (InPlace m'))
    | (m', Err e) => (m', p, Err e)
    end
  | Some dists =>
    if negb (Nat.eqb (cols m) (length dists)) then (m, p, Err ValueError)
    else match nonuniform_scale m (p_bounds p) dists with
         | Ok cs => (m, marked, Ok (Fresh cs))
         | Err e => (m, p, Err e)
         end
  end.
End Oracles.
