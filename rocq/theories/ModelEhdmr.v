(** * Model of the enhanced HDMR analyser (src/SALib/analyze/enhanced_hdmr.py). *)
From Coq Require Import Reals String List Arith ZArith Bool DecimalString.
From Verif Require Import Base Arrays ModelGroups ModelScale Stats Sums Det ModelFast ModelMorris ModelMorrisAnalyze ModelDgsm ModelPawn ModelHdmr.
Import ListNotations.
Local Open Scope nat_scope.

(** ** The problem and the arguments *)

(** The entries of the problem dictionary the analyser looks at. *)
Record eproblem := mkEproblem { e_names : option (list string); e_bounds : option (list (R * R)); e_num : option nat }.

Definition x_name (i : nat) : string := ("x_" ++ NilZero.string_of_uint (Nat.to_uint i))%string.

(** Missing entries are added to the caller's problem, enhanced_hdmr.py:261-271; the minimum of no values raises ValueError. *)
Definition fill_problem (X : mat R) (pb : eproblem) : result unit * eproblem :=
  let d := cols X in
  let names := match e_names pb with Some l => l | None => map x_name (seq 0 d) end in
  match e_bounds pb with
  | Some b => (Ok tt, mkEproblem (Some names) (Some b) (Some (match e_num pb with Some n => n | None => d end)))
  | None =>
    if (length (rows X) =? 0) && (0 <? d) then (Err ValueError, mkEproblem (Some names) None (e_num pb))
    else (Ok tt, mkEproblem (Some names)
                   (Some (map (fun j => (minl (column (rows X) j), maxl (column (rows X) j))) (seq 0 d)))
                   (Some (match e_num pb with Some n => n | None => d end)))
  end.

Definition opt_length {A} (o : option (list A)) : nat := match o with Some l => length l | None => 0 end.

(** The remaining checks, enhanced_hdmr.py:273-348; [ylen] is the size of Y.  The value is [subset]. *)
Definition check_args (pb : eproblem) (N d ylen : nat) (maxorder poly K : Z) (sub : option Z) (maxiter : Z) (lambda alpha : R) (ext : bool)
  : result nat :=
  if negb (match e_num pb with Some n => n | None => d end =? d) then Err ValueError
  else if negb (opt_length (e_names pb) =? d) then Err ValueError
  else if negb (opt_length (e_bounds pb) =? d) then Err ValueError
  else if d =? 1 then Err RuntimeError
  else if N <? 300 then Err RuntimeError
  else if negb (N =? ylen) then Err ValueError
  else if negb (in_range 1 3 maxorder) then Err ValueError
  else if negb (in_range 1 10 poly) then Err ValueError
  else if negb (in_range 1 100 K) then Err ValueError
  else
    let sub := if (K =? 1)%Z then Some (Z.of_nat ylen) else sub in
    do s <- match sub with
            | None => Ok (ylen / 2)
            | Some s => if in_range 300 (Z.of_nat N) s then Ok (Z.to_nat s) else Err ValueError
            end ;;
    if Rltb alpha (1 / 2) || Rltb 1 alpha then Err ValueError
    else if negb ext && negb (in_range 100 999 maxiter) then Err ValueError
    else if Rltb lambda 0 || Rltb 10 lambda then Err ValueError
    else Ok s.

(** ** Sizes *)

(** math.comb. *)
Fixpoint comb (n k : nat) : nat :=
  match k with
  | 0 => 1
  | S k' => match n with 0 => 0 | S n' => comb n' k' + comb n' k end
  end.

(** The core parameters that are given, enhanced_hdmr.py:479-564. *)
Record core := mkCore { c_d : nat; c_order : nat; c_ext : bool; c_subset : nat; c_p : nat }.
Definition c_nc1 (c : core) : nat := c_d c.
Definition c_nc2 (c : core) : nat := if 1 <? c_order c then comb (c_d c) 2 else 0.
Definition c_nc3 (c : core) : nat := if c_order c =? 3 then comb (c_d c) 3 else 0.
Definition c_nc_t (c : core) : nat := c_nc1 c + c_nc2 c + c_nc3 c.
Definition c_nt1 (c : core) : nat := c_p c.
Definition c_nt2 (c : core) : nat := if 1 <? c_order c then c_p c ^ 2 + (if c_ext c then 2 * c_p c else 0) else 0.
Definition c_nt3 (c : core) : nat := if c_order c =? 3 then c_p c ^ 3 + (if c_ext c then 3 * c_p c + 3 * c_p c ^ 2 else 0) else 0.
Definition c_tnt1 (c : core) : nat := c_nt1 c * c_nc1 c.
Definition c_tnt2 (c : core) : nat := c_nt2 c * c_nc2 c.
Definition c_tnt3 (c : core) : nat := c_nt3 c * c_nc3 c.
Definition c_a_tnt (c : core) : nat := c_tnt1 c + c_tnt2 c + c_tnt3 c.

(** The list problem["names"] after _core_params: it is extended in place, enhanced_hdmr.py:591-621 (beta and gamma are the
    combinations; len(names) = d has been checked). *)
Definition label (names : list string) (t : list nat) : string := String.concat "/" (map (fun i => nth i names EmptyString) t).
Definition extended_names (c : core) (names : list string) : list string :=
  names ++ (if 1 <? c_order c then map (fun i => label names (nth i (combinations 2 (seq 0 (c_d c))) [])) (seq 0 (c_nc2 c)) else [])
        ++ (if c_order c =? 3 then map (fun i => label names (nth i (combinations 3 (seq 0 (c_d c))) [])) (seq 0 (c_nc3 c)) else []).

(** ** The basis *)

(** Python's range. *)
Definition range (a b : nat) : list nat := seq a (b - a).

(** itertools.product. *)
Fixpoint cartesian (ls : list (list nat)) : list (list nat) :=
  match ls with
  | [] => [[]]
  | l :: r => flat_map (fun x => map (cons x) (cartesian r)) l
  end.
Definition mem (x : nat) (l : list nat) : bool := existsb (Nat.eqb x) l.
Fixpoint distinct (t : list nat) : bool := match t with [] => true | x :: r => negb (mem x r) && distinct r end.
Definition same_set (a b : list nat) : bool := forallb (fun x => mem x b) a && forallb (fun x => mem x a) b.
(** _prod, enhanced_hdmr.py:780-800. *)
Fixpoint unseen (seen : list (list nat)) (l : list (list nat)) : list (list nat) :=
  match l with
  | [] => []
  | t :: r => if negb (distinct t) then unseen seen r
              else if existsb (same_set t) seen then unseen seen r
              else t :: unseen (t :: seen) r
  end.
Definition uprod (ls : list (list nat)) : list (list nat) := unseen [] (cartesian ls).

(** _orth_poly_coeff for a rescaled column, enhanced_hdmr.py:733-777: [det] is numpy.linalg.det. *)
Definition moment (xs : list R) (k : nat) : R := (Rsum (map (fun x => x ^ k) xs) / INR (length xs))%R.
Definition moments (xs : list R) (j z : nat) : R := moment xs (j + z).
Definition det_ij (xs : list R) (j : nat) : R := (det (S j) (moments xs) * det (S (S j)) (moments xs))%R.
(** The coefficient of the power [k] in polynomial [j]. *)
Definition poly_coeff (xs : list R) (j k : nat) : R :=
  ((-1) ^ (j + k + 1) * det (S j) (fun a b => moments xs a (skip k b)) / sqrt (det_ij xs j))%R.
(** np.polyval. *)
Definition poly (xs : list R) (j : nat) (x : R) : R := sum (j + 2) (fun k => poly_coeff xs j k * x ^ k)%R.
(** The columns of a parameter, nothing when they are not finite (a zero determinant). *)
Definition poly_columns (p : nat) (xs : list R) : option (list (list R)) :=
  if forallb (fun j => Rltb 0 (det_ij xs j)) (seq 0 p) then Some (map (fun j => map (poly xs j) xs) (seq 0 p)) else None.

Definition vmul (a b : list R) : list R := map2 Rmult a b.
Definition block_range (c : core) (i : nat) : list nat := range (i * c_p c) ((i + 1) * c_p c).
Definition first_block (c : core) (b : list (list R)) (i : nat) : list (list R) := slice b (i * c_p c) ((i + 1) * c_p c).
(** The part of a pair's block that a third-order block copies, enhanced_hdmr.py:693-718. *)
Definition pair_block (c : core) (b : list (list R)) (i : nat) : list (list R) :=
  slice b (c_tnt1 c + 2 * c_nt1 c * (i + 1) + i * c_p c ^ 2) (c_tnt1 c + (i + 1) * (c_p c ^ 2 + 2 * c_nt1 c)).

(** One pass of the second-order loop, enhanced_hdmr.py:663-676; the columns are written from left to right. *)
Definition add_pair (c : core) (b : list (list R)) (t : list nat) : list (list R) :=
  match t with
  | [i; j] =>
    b ++ (if c_ext c then first_block c b i ++ first_block c b j else [])
      ++ map (fun k => match k with [k1; k2] => vmul (nth k1 b []) (nth k2 b []) | _ => [] end) (uprod [block_range c i; block_range c j])
  | _ => b
  end.
(** One pass of the third-order loop, enhanced_hdmr.py:680-728. *)
Definition add_triple (c : core) (b : list (list R)) (t : list nat) : list (list R) :=
  match t with
  | [i; j; k] =>
    b ++ (if c_ext c then first_block c b i ++ first_block c b j ++ first_block c b k
                          ++ pair_block c b i ++ pair_block c b j ++ pair_block c b k else [])
      ++ map (fun l => match l with [l1; l2; l3] => vmul (vmul (nth l1 b []) (nth l2 b [])) (nth l3 b []) | _ => [] end)
             (uprod [block_range c i; block_range c j; block_range c k])
  | _ => b
  end.

(** _basis_matrix from the first-order columns, by columns. *)
Definition extend_basis (c : core) (first : list (list R)) : list (list R) :=
  let d := c_d c in
  let b := if 1 <? c_order c then fold_left (add_pair c) (uprod [range 0 (d - 1); range 1 d]) first else first in
  if c_order c =? 3 then fold_left (add_triple c) (uprod [range 0 (d - 2); range 1 (d - 1); range 2 d]) b else b.

(** The first-order columns by parameter, enhanced_hdmr.py:644-659. *)
Definition first_columns (p : nat) (X : mat R) : option (list (list (list R))) :=
  all_some (map (fun j => match normalise (column (rows X) j) with Some xs => poly_columns p xs | None => None end) (seq 0 (cols X))).

(** _basis_matrix, enhanced_hdmr.py:626-730. *)
Definition basis_matrix (c : core) (X : mat R) : option (list (list R)) :=
  match first_columns (c_p c) X with Some f => Some (extend_basis c (concat f)) | None => None end.

(** ** Fitting *)

Definition scale (v : R) (c : list R) : list R := map (fun b => b * v)%R c.
(** [B @ x] for a block of columns. *)
Definition combine_columns (n : nat) (B : list (list R)) (x : list R) : list R := row_sums n (map2 (fun c v => scale v c) B x).

(** The entry of the cost matrix, enhanced_hdmr.py:888-944: only blocks of the same term are not zero.  [sr] of a term is the mean
    of its columns and their products with its [lower] first columns, divided by [subset]. *)
Definition sr (subset : nat) (B : list (list R)) (lower : nat) : list (list R) :=
  map mean B :: map (fun a => map (fun b => dot a b / INR subset)%R B) (firstn lower B).
(** sr.T @ sr. *)
Definition square_of (M : list (list R)) (w : nat) : list (list R) :=
  map (fun i => map (fun j => Rsum (map (fun r => nth i r 0 * nth j r 0)%R M)) (seq 0 w)) (seq 0 w).
(** The part of an array over all columns that belongs to a term. *)
Definition term_columns {A} (c : core) (b : list A) (i : nat) : list A :=
  if i <? c_nc1 c then slice b (i * c_p c) ((i + 1) * c_p c)
  else if i <? c_nc1 c + c_nc2 c then let q := i - c_nc1 c in slice b (c_tnt1 c + q * c_nt2 c) (c_tnt1 c + (q + 1) * c_nt2 c)
  else let q := i - c_nc1 c - c_nc2 c in slice b (c_tnt1 c + c_tnt2 c + q * c_nt3 c) (c_tnt1 c + c_tnt2 c + (q + 1) * c_nt3 c).
(** The diagonal blocks of the cost matrix by term; first-order blocks are zero. *)
Definition cost_blocks (c : core) (b : list (list R)) : list (list (list R)) :=
  map (fun i =>
    let B := term_columns c b i in
    if i <? c_nc1 c then repeat (repeat 0%R (c_nt1 c)) (c_nt1 c)
    else if i <? c_nc1 c + c_nc2 c then square_of (sr (c_subset c) B (c_p c * 2)) (c_nt2 c)
    else square_of (sr (c_subset c) B (3 * c_p c + 3 * c_p c ^ 2)) (c_nt3 c)) (seq 0 (c_nc_t c)).

Section Fit.
(** scipy.linalg.solve. *)
Variable solve : list (list R) -> list R -> result (list R).
(** _d_morph: the basis, the cost, the output and [bootstrap] (passed as [subset]). *)
Variable d_morph : list (list R) -> list (list (list R)) -> list R -> nat -> result (list R).

(** B.T @ B / subset + l2 * identity and B.T @ y / subset. *)
Definition gram (subset : nat) (l2 : R) (B : list (list R)) : list (list R) :=
  map (fun ia => map (fun jb => dot (snd ia) (snd jb) / INR subset + (if fst ia =? fst jb then l2 else 0))%R (combine (seq 0 (length B)) B))
      (combine (seq 0 (length B)) B).
Definition rhs (subset : nat) (B : list (list R)) (y : list R) : list R := map (fun a => dot a y / INR subset)%R B.
(** The assignment of a solution to a slice of hdmr.x needs its length. *)
Definition solve_block (subset : nat) (l2 : R) (B : list (list R)) (y : list R) : result (list R) :=
  do x <- solve (gram subset l2 B) (rhs subset B y) ;;
  if length x =? length B then Ok x else Err ValueError.

(** The output minus the other terms' functions, enhanced_hdmr.py:1068-1070. *)
Definition without (n : nat) (Bs : list (list (list R))) (xs : list (list R)) (y : list R) (i : nat) : list R :=
  vsub y (row_sums n (map (fun z => combine_columns n (nth z Bs []) (nth z xs [])) (filter (fun z => negb (z =? i)) (seq 0 (length Bs))))).
Definition e_pass (n : nat) (Bs : list (list (list R))) (y : list R) (xs : list (list R)) : result (list (list R)) :=
  foldM (fun xs i => do x <- solve_block n 0 (nth i Bs []) (without n Bs xs y i) ;; Ok (update xs i x)) (seq 0 (length Bs)) xs.
(** The backfitting loop, enhanced_hdmr.py:1063-1090 and 1155-1184: at most [fuel] passes. *)
Fixpoint e_backfit (fuel n : nat) (Bs : list (list (list R))) (y : list R) (xs : list (list R)) : result (list (list R)) :=
  match fuel with
  | 0 => Ok xs
  | S f =>
    do xs' <- e_pass n Bs y xs ;;
    let sq l := map (fun v => v ^ 2)%R (concat l) in
    if Rltb (maxl (map Rabs (vsub (sq xs) (sq xs')))) (1 / 10000) then Ok xs' else e_backfit f n Bs y xs'
  end.
(** _first_order, enhanced_hdmr.py:1004-1092, and _second_order, enhanced_hdmr.py:1095-1186: coefficients and residual. *)
Definition e_order (n maxiter : nat) (l2 : R) (Bs : list (list (list R))) (y : list R) : result (list (list R) * list R) :=
  do xs0 <- mapM (fun B => solve_block n l2 B y) Bs ;;
  do xs <- e_backfit (S maxiter) n Bs y xs0 ;;
  Ok (xs, vsub y (row_sums n (map2 (combine_columns n) Bs xs))).

(** The blocks of columns of the terms from [a] on. *)
Definition blocks (c : core) (b : list (list R)) (a k : nat) : list (list (list R)) := map (term_columns c b) (seq a k).

(** The coefficients of a bootstrap, enhanced_hdmr.py:852-876.  _third_order is called without its last argument. *)
Definition coefficients (c : core) (K maxiter : nat) (l2 : R) (b : list (list R)) (y : list R) : result (list R) :=
  if c_ext c then
    do x <- d_morph b (cost_blocks c b) y K ;;
    if length x =? c_a_tnt c then Ok x else Err ValueError
  else
    do f <- e_order (c_subset c) maxiter l2 (blocks c b 0 (c_nc1 c)) y ;;
    do s <- (if 1 <? c_order c then e_order (c_subset c) maxiter l2 (blocks c b (c_nc1 c) (c_nc2 c)) (snd f) else Ok ([], snd f)) ;;
    if c_order c =? 3 then Err TypeError else Ok (concat (fst f) ++ concat (fst s)).
End Fit.

(** _comp_func, enhanced_hdmr.py:1237-1292, by columns; [n] rows. *)
Definition comp_func (c : core) (n : nat) (b : list (list R)) (x : list R) : list (list R) :=
  let Y_t := map2 (fun col v => scale v col) b x in
  map (fun i => row_sums n (slice Y_t (i * c_p c) ((i + 1) * c_p c))) (seq 0 (c_nc1 c))
  ++ (if 1 <? c_order c then
        map (fun i => row_sums n (slice Y_t (c_tnt1 c + i * c_nt2 c) (c_tnt1 c + (i + 1) * c_nt2 c))) (seq 0 (c_nc2 c)) else [])
  ++ (if c_order c =? 3 then
        map (fun i => row_sums n (slice Y_t (c_tnt1 c + c_tnt2 c + i * c_nt3 c) (c_tnt1 c + c_tnt2 c + (i + 1) * c_nt3 c))) (seq 0 (c_nc3 c)) else []).

(** _ancova, enhanced_hdmr.py:1295-1355: S, Sa and Sb; np.cov divides by n - 1, np.var by n. *)
Definition e_ancova (Y : list R) (Y_e : list (list R)) : list fval * list fval * list fval :=
  let Y_sum := row_sums (length Y) Y_e in
  let tot_v := var Y in
  (map (fun y => fdiv (cov1 y Y) tot_v) Y_e,
   map (fun y => fdiv (cov1 y y) tot_v) Y_e,
   map (fun y => fdiv (cov1 y (vsub Y_sum y)) tot_v) Y_e).

(** _f_test, enhanced_hdmr.py:1358-1405. *)
Definition e_f_p (c : core) (i : nat) : nat :=
  if i <? c_nc1 c then c_nt1 c else if (c_nc1 c <=? i) && (i <? c_nc1 c + c_nc2 c) then c_nt2 c else c_nt3 c.
Definition e_f_test (crit : nat -> Z -> option R) (c : core) (Y : list R) (Y_e : list (list R)) : list bool :=
  map (fun iy => f_selected crit (sumsq Y) (sumsq (vsub Y (snd iy))) (c_subset c) (e_f_p c (fst iy))) (combine (seq 0 (length Y_e)) Y_e).

(** What a pass of the loop of _fanova stores. *)
Record efit := mkEfit { ef_y : list R; ef_x : list R; ef_Y_e : list (list R); ef_signf : list bool; ef_S : list fval; ef_Sa : list fval; ef_Sb : list fval }.

Section Run.
Variable solve : list (list R) -> list R -> result (list R).
Variable d_morph : list (list R) -> list (list (list R)) -> list R -> nat -> result (list R).

(** A pass of _fanova, enhanced_hdmr.py:846-883. *)
Definition fanova_one (crit : nat -> Z -> option R) (c : core) (K maxiter : nat) (l2 : R) (b : list (list R)) (Y : list R) (idx : list nat) : result efit :=
  let Yi := take_rows 0%R idx Y in
  let y := map (fun v => v - mean Yi)%R Yi in
  let bi := map (take_rows 0%R idx) b in
  do x <- coefficients solve d_morph c K maxiter l2 bi y ;;
  let Y_e := comp_func c (length idx) bi x in
  let '(s, sa, sb) := e_ancova y Y_e in
  Ok (mkEfit y x Y_e (e_f_test crit c y Y_e) s sa sb).

(** ** Results *)

Record eout := mkEout { eo_Sa : list fval; eo_Sa_conf : list fval; eo_Sb : list fval; eo_Sb_conf : list fval; eo_S : list fval; eo_S_conf : list fval;
  eo_ST : list fval; eo_ST_conf : list fval; eo_Sa_sum : fval; eo_Sa_sum_conf : fval; eo_Sb_sum : fval; eo_Sb_sum_conf : fval;
  eo_S_sum : fval; eo_S_sum_conf : fval; eo_Signf : list R; eo_Term : list string; eo_core : core; eo_fits : list efit; eo_idx : list (list nat) }.

(** _finalize, enhanced_hdmr.py:1408-1477.  With max_order 1 the core parameters have no attribute S; with max_order 3,
    np.sum of a number along axis 1 raises AxisError, a ValueError. *)
Definition e_finalize (c : core) (mult : fval) (terms : list string) (idx : list (list nat)) (fits : list efit) : result eout :=
  if (c_order c =? 1) && (0 <? c_d c) then Err AttributeError
  else if (c_order c =? 3) && (0 <? c_d c) then Err ValueError
  else
    let n := c_nc_t c in
    let s := map ef_S fits in let sa := map ef_Sa fits in let sb := map ef_Sb fits in
    let conf l := fmul mult (fsd l) in
    let pad l := l ++ repeat (None : fval) (n - c_d c) in
    let TS r := map (fun s => fsum (map (fun i => nth i s None) (r :: map (fun i => c_d c + i) (rows_with r (combinations 2 (seq 0 (c_d c))))))) s in
    let means t := map (fun i => fmean (across t i)) (seq 0 n) in
    let confs t := map (fun i => conf (across t i)) (seq 0 n) in
    Ok (mkEout (means sa) (confs sa) (means sb) (confs sb) (means s) (confs s)
               (pad (map (fun r => fmean (TS r)) (seq 0 (c_d c)))) (pad (map (fun r => conf (TS r)) (seq 0 (c_d c))))
               (fsum (means sa)) (conf [fsum (concat sa)]) (fsum (means sb)) (conf [fsum (concat sb)])
               (fsum (means s)) (conf [fsum (concat s)])
               (map (fun i => 100 * mean (map (fun f => if nth i (ef_signf f) false then 1 else 0) fits))%R (seq 0 n))
               terms c fits idx).

(** The rows of each bootstrap, enhanced_hdmr.py:496-501. *)
Definition e_rows (N K subset : nat) (argsorts : nat -> list nat) : list (list nat) :=
  if K =? 1 then [seq 0 N] else map (fun k => firstn subset (argsorts k)) (seq 0 K).

(** analyze, enhanced_hdmr.py:20-237: the result and the caller's problem afterwards.  [Y] is flattened; when the basis is not finite,
    the routines of numpy.linalg raise LinAlgError and those of scipy.linalg ValueError. *)
Definition enhanced_analyze (crit : R -> nat -> Z -> option R) (quantile : R -> fval) (argsorts : nat -> list nat)
    (pb : eproblem) (X : mat R) (Y : list R) (maxorder poly K : Z) (sub : option Z) (maxiter : Z) (l2 alpha : R) (ext : bool)
    : result eout * eproblem :=
  let (filled, pb1) := fill_problem X pb in
  match filled with
  | Err e => (Err e, pb1)
  | Ok _ =>
    match check_args pb1 (length (rows X)) (cols X) (length Y) maxorder poly K sub maxiter l2 alpha ext with
    | Err e => (Err e, pb1)
    | Ok subset =>
      let c := mkCore (cols X) (Z.to_nat maxorder) ext subset (Z.to_nat poly) in
      let terms := extended_names c (match e_names pb1 with Some l => l | None => [] end) in
      let idx := e_rows (length (rows X)) (Z.to_nat K) subset argsorts in
      ((match basis_matrix c X with
        | None => Err (if ext then LinAlgError else ValueError)
        | Some b =>
          do fits <- mapM (fanova_one (crit alpha) c (Z.to_nat K) (Z.to_nat maxiter) l2 b Y) idx ;;
          e_finalize c (quantile (alpha + (1 - alpha) / 2)%R) terms idx fits
        end),
       mkEproblem (Some terms) (e_bounds pb1) (e_num pb1))
    end
  end.
End Run.

(** emulate, enhanced_hdmr.py:1497-1516: the mean of the coefficients over the bootstraps. *)
Definition e_emulate (h : eout) (X : mat R) : list fval :=
  let c := eo_core h in
  let x := map (fun i => mean (map (fun f => nth i (ef_x f) 0%R) (eo_fits h))) (seq 0 (c_a_tnt c)) in
  match basis_matrix c X with
  | None => repeat None (length (rows X))
  | Some b => map Some (row_sums (length (rows X)) (comp_func c (length (rows X)) b x))
  end.
