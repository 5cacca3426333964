(** * Model of the HDMR analyser (src/SALib/analyze/hdmr.py). *)
From Coq Require Import Reals String List Arith ZArith Bool.
From Verif Require Import Base Arrays ModelGroups ModelScale Stats Sums ModelFast ModelMorris ModelMorrisAnalyze ModelDgsm ModelPawn.
Import ListNotations.
Local Open Scope nat_scope.

(** ** Settings *)

(** The outputs: a vector or a matrix. *)
Inductive outputs := Vector (l : list R) | Matrix (m : mat R).
Definition y_rows (Y : outputs) : nat := match Y with Vector l => length l | Matrix m => length (rows m) end.
Definition y_size (Y : outputs) : nat := match Y with Vector l => length l | Matrix m => length (rows m) * cols m end.

Record settings := mkSettings { st_maxorder : nat; st_maxiter : nat; st_m : nat; st_K : nat; st_R : nat; st_alpha : R; st_lambda : R }.

(** [v in np.arange(lo, hi + 1)]. *)
Definition in_range (lo hi v : Z) : bool := ((lo <=? v) && (v <=? hi))%Z.

(** _check_settings, hdmr.py:202-282; integer options are integers. *)
Definition check_settings (N d : nat) (Y : outputs) (maxorder maxiter m K : Z) (Ro : option Z) (alpha lambdax : R) : result settings :=
  if d =? 1 then Err RuntimeError
  else if N <? 300 then Err RuntimeError
  else if negb (N =? y_rows Y) then Err RuntimeError
  else if negb (y_size Y =? N) then Err RuntimeError
  else if negb (in_range 1 3 maxorder) then Err RuntimeError
  else if (d =? 2) && (2 <? maxorder)%Z then Err RuntimeError
  else if negb (in_range 1 1000 maxiter) then Err RuntimeError
  else if negb (in_range 1 10 m) then Err RuntimeError
  else if negb (in_range 1 100 K) then Err RuntimeError
  else
    do r <- match Ro with
            | None => Ok (y_rows Y / 2)
            | Some r => if in_range 300 (Z.of_nat N) r then Ok (Z.to_nat r) else Err RuntimeError
            end ;;
    let r := if (K =? 1)%Z && negb (r =? y_rows Y) then y_rows Y else r in
    if Rltb alpha (1 / 2) || Rltb 1 alpha then Err RuntimeError
    else if Rltb 10 lambdax then Err RuntimeError
    else if Rltb lambdax 0 then Err RuntimeError
    else Ok (mkSettings (Z.to_nat maxorder) (Z.to_nat maxiter) (Z.to_nat m) (Z.to_nat K) r alpha lambdax).

(** ** Terms *)

(** c2 and c3 (empty unless the order asks for them), hdmr.py:392-408. *)
Definition hdmr_c2 (d maxorder : nat) : list (list nat) := if 1 <? maxorder then combinations 2 (seq 0 d) else [].
Definition hdmr_c3 (d maxorder : nat) : list (list nat) := if maxorder =? 3 then combinations 3 (seq 0 d) else [].
(** n = n1 + n2 + n3, hdmr.py:410-411. *)
Definition hdmr_n (d maxorder : nat) : nat := d + length (hdmr_c2 d maxorder) + length (hdmr_c3 d maxorder).

(** The labels, hdmr.py:757-781. *)
Definition hdmr_terms (names : list string) (d maxorder : nat) : result (list string) :=
  do l1 <- mapM (get names) (seq 0 d) ;;
  do l2 <- mapM (fun c => do ns <- mapM (get names) c ;; Ok (String.concat "/" ns)) (hdmr_c2 d maxorder) ;;
  do l3 <- mapM (fun c => do ns <- mapM (get names) c ;; Ok (String.concat "/" ns)) (hdmr_c3 d maxorder) ;;
  Ok (l1 ++ l2 ++ l3).

(** ** Basis *)

(** A column rescaled to its own range, hdmr.py:386-387 and 868-869; 0/0 (nan in every row) when it is constant. *)
Definition normalise (col : list R) : option (list R) :=
  if Reqb (ptp col) 0 then None else Some (map (fun x => (x - minl col) / ptp col)%R col).

(** The cubic B-spline on the knots -2, -1, 0, 1, 2 with its outer pieces extended
    ([interpolate.BSpline.basis_element] extrapolates). *)
Definition cardinal (u : R) : R :=
  (if Rltb u (-1) then (u + 2) ^ 3 / 6
   else if Rltb u 0 then (4 - 6 * u ^ 2 - 3 * u ^ 3) / 6
   else if Rltb u 1 then (4 - 6 * u ^ 2 + 3 * u ^ 3) / 6
   else (2 - u) ^ 3 / 6)%R.

(** Entry [i] of B_spline at [x], hdmr.py:505-517: the knots are (i - 3)/m, ..., (i + 1)/m. *)
Definition spline (m i : nat) (x : R) : R :=
  let temp := (cardinal (INR m * x - (INR i - 1)) * INR m ^ 3)%R in
  if Rltb temp 0 then 0%R else temp.

(** B1[:, :, j], hdmr.py:440, from a rescaled column. *)
Definition basis1 (m : nat) (col : list R) : list (list R) := map (fun x => map (fun i => spline m i x) (seq 0 (m + 3))) col.
(** B2[:, :, k] and B3[:, :, k], hdmr.py:443-467: itertools.product varies the last index fastest. *)
Definition row2 (a b : list R) : list R := flat_map (fun p => map (fun q => p * q)%R b) a.
Definition row3 (a b c : list R) : list R := flat_map (fun p => flat_map (fun q => map (fun r => p * q * r)%R c) b) a.
Definition basis2 (A B : list (list R)) : list (list R) := map2 row2 A B.
Definition basis3 (A B C : list (list R)) : list (list R) := map2 (fun ab c => row3 (fst ab) (snd ab) c) (map2 pair A B) C.

(** The basis of a term from those of the parameters. *)
Definition term_basis (B1 : list (list (list R))) (t : list nat) : list (list R) :=
  match t with
  | [a] => nth a B1 []
  | [a; b] => basis2 (nth a B1 []) (nth b B1 [])
  | [a; b; c] => basis3 (nth a B1 []) (nth b B1 []) (nth c B1 [])
  | _ => []
  end.

(** [v[idx]]. *)
Definition take_rows {A} (d : A) (idx : list nat) (l : list A) : list A := map (fun i => nth i l d) idx.

Definition dot (a b : list R) : R := Rsum (map2 Rmult a b).
Definition matvec (M : list (list R)) (v : list R) : list R := map (fun r => dot r v) M.
Definition vsub (a b : list R) : list R := map2 Rminus a b.
Definition vadd (a b : list R) : list R := map2 Rplus a b.
Definition sumsq (l : list R) : R := Rsum (map (fun x => x ^ 2)%R l).

(** ** Component functions *)
Section Fit.
(** [lin_solve(B.T @ B + lambdax * identity, B.T)], or nothing when the singular value decomposition of [B.T @ B] has
    a zero. *)
Variable regress : list (list R) -> R -> result (option (list (list R))).

Section First.
Variable B1 : list (list (list R)).
Variable T1 : list (list (list R)).
Variable Y_res : list R.

(** The residual without the other parameters' terms, hdmr.py:549-552. *)
Definition without_others (C1 : list (list R)) (j : nat) : list R :=
  fold_left (fun y z => if j =? z then y else vsub y (matvec (nth z B1 []) (nth z C1 []))) (seq 0 (length B1)) Y_res.
(** A pass of the backfitting loop, hdmr.py:548-554. *)
Definition backfit_pass (C1 : list (list R)) : list (list R) :=
  fold_left (fun C j => update C j (matvec (nth j T1 []) (without_others C j))) (seq 0 (length B1)) C1.
(** The loop, hdmr.py:544-559: [n] is [maxiter - it]. *)
Fixpoint backfit (n : nat) (varmax : R) (var_old : list R) (C1 : list (list R)) : list (list R) :=
  match n with
  | 0 => C1
  | S n' =>
    if Rltb (1 / 1000) varmax then
      let C := backfit_pass C1 in
      let var_new := map sumsq C in
      backfit n' (maxl (map Rabs (vsub var_new var_old))) var_new C
    else C1
  end.
End First.

(** _first_order, hdmr.py:521-570.  [junk] is what np.empty left in T1. *)
Definition first_order (B1 : list (list (list R))) (Y_res : list R) (junk : nat -> list (list R)) (maxiter : nat) (lambdax : R)
  : result (list (list R) * list R * list (list R)) :=
  match B1 with
  | [] => Err IndexError
  | _ =>
    do T1 <- mapM (fun jB => do t <- regress (snd jB) lambdax ;; Ok (match t with Some t => t | None => junk (fst jB) end))
                  (combine (seq 0 (length B1)) B1) ;;
    let C0 := map (fun T => matvec T Y_res) T1 in
    let C1 := backfit B1 T1 Y_res maxiter 1 (map sumsq C0) C0 in
    let Y_i := map2 matvec B1 C1 in
    Ok (Y_i, fold_left vsub Y_i Y_res, C1)
  end.

(** _second_order, hdmr.py:573-604, and _third_order, hdmr.py:607-633 (which does not return the residual): [rows] x [size]
    coefficients are zero when the regression is not possible. *)
Definition higher_order (size : nat) (B : list (list (list R))) (Y_res : list R) (lambdax : R)
  : result (list (list R) * list R * list (list R)) :=
  do C <- mapM (fun Bj => do t <- regress Bj lambdax ;;
                          Ok (match t with Some T => matvec T Y_res | None => repeat 0%R size end)) B ;;
  let Y_ij := map2 matvec B C in
  Ok (Y_ij, fold_left vsub Y_ij Y_res, C).
End Fit.

(** ** Significance *)

(** The number of coefficients used for term [i], hdmr.py:650-655. *)
Definition f_test_p (m1 m2 m3 n1 n2 i : nat) : nat :=
  if i <=? n1 then m1 else if (n1 <? i) && (i <=? n1 + n2) then m2 else m3.

(** The comparison [F_stat > F_crit], hdmr.py:657-668: [crit dfn dfd] is stats.f.ppf(alpha, dfn, dfd), nothing when it is
    nan or infinite (it is nan when dfd <= 0; the comparison is then false).  A zero denominator makes F_stat infinite or nan. *)
Definition f_selected (crit : nat -> Z -> option R) (SSR0 SSR1 : R) (r p1 : nat) : bool :=
  let dfd := (Z.of_nat r - Z.of_nat p1)%Z in
  if (dfd <=? 0)%Z then false
  else match crit p1 dfd with
       | None => false
       | Some c => if Reqb SSR1 0 then Rltb 0 SSR0 else Rltb c (((SSR0 - SSR1) / INR p1) / (SSR1 / IZR dfd))%R
       end.

(** f_test, hdmr.py:636-671; [Y_em] by columns. *)
Definition f_test (crit : nat -> Z -> option R) (Y : list R) (f0 : R) (Y_em : list (list R)) (r m1 m2 m3 n1 n2 : nat) : list bool :=
  let Y_res0 := map (fun y => y - f0)%R Y in
  map (fun iy => f_selected crit (sumsq Y_res0) (sumsq (vsub Y_res0 (snd iy))) r (f_test_p m1 m2 m3 n1 n2 (fst iy)))
      (combine (seq 0 (length Y_em)) Y_em).

(** ** Variance decomposition *)

(** np.cov(a, b)[0, 1]: ddof = 1. *)
Definition cov1 (a b : list R) : R := (Rsum (map2 (fun x y => (x - mean a) * (y - mean b)) a b) / (INR (length a) - 1))%R.
(** np.sum(Y_em, axis=1). *)
Definition row_sums (r : nat) (Y_em : list (list R)) : list R := fold_left vadd Y_em (repeat 0%R r).
(** ancova, hdmr.py:674-708: S, Sa and Sb; by columns. *)
Definition ancova (Y : list R) (Y_em : list (list R)) (V_Y : R) : list fval * list fval * list fval :=
  let Y0 := row_sums (length Y) Y_em in
  (map (fun y => fdiv (cov1 y Y) V_Y) Y_em,
   map (fun y => fdiv (var y) V_Y) Y_em,
   map (fun y => fdiv (cov1 y (vsub Y0 y)) V_Y) Y_em).

(** ** The loop over bootstraps *)

(** What a pass of the loop of _compute stores. *)
Record fit := mkFit { fit_f0 : R; fit_C1 : list (list R); fit_C2 : list (list R); fit_C3 : list (list R); fit_Y_em : list (list R);
  fit_select : list bool; fit_Y_e : list R; fit_RMSE : R; fit_S : list fval; fit_Sa : list fval; fit_Sb : list fval }.

Section Compute.
Variable regress : list (list R) -> R -> result (option (list (list R))).
Variable crit : nat -> Z -> option R.

(** A pass of _compute, hdmr.py:290-369.  [B1] holds the whole basis by parameter; [None] is a basis of nan (constant
    parameter), on which numpy's svd raises LinAlgError. *)
Definition compute_one (st : settings) (B1 : list (option (list (list R)))) (Y : list R) (idx : list nat) (junk : nat -> list (list R))
  : result fit :=
  let d := length B1 in
  let Y_id := take_rows 0%R idx Y in
  let f0 := (Rsum Y_id / INR (st_R st))%R in
  let Y_res := map (fun y => y - f0)%R Y_id in
  match all_some B1 with
  | None => Err LinAlgError
  | Some B1 =>
    let Bk := map (fun B => take_rows [] idx B) B1 in
    do f1 <- first_order regress Bk Y_res junk (st_maxiter st) (st_lambda st) ;;
    let '(Y1, res1, C1) := f1 in
    let m1 := st_m st + 3 in
    do f2 <- higher_order regress (m1 * m1) (map (fun c => take_rows [] idx (term_basis B1 c)) (hdmr_c2 d (st_maxorder st))) res1 (st_lambda st) ;;
    let '(Y2, res2, C2) := f2 in
    do f3 <- higher_order regress (m1 * m1 * m1) (map (fun c => take_rows [] idx (term_basis B1 c)) (hdmr_c3 d (st_maxorder st))) res2 (st_lambda st) ;;
    let '(Y3, _, C3) := f3 in
    let Y_em := Y1 ++ Y2 ++ Y3 in
    let select := f_test crit Y_id f0 Y_em (st_R st) m1 (m1 * m1) (m1 * m1 * m1) d (length (hdmr_c2 d (st_maxorder st))) in
    let Y_e := map (fun y => f0 + y)%R (row_sums (st_R st) Y_em) in
    let '(s, sa, sb) := ancova Y_id Y_em (var Y_id) in
    Ok (mkFit f0 C1 C2 C3 Y_em select Y_e (sqrt (sumsq (vsub Y_id Y_e) / INR (st_R st))) s sa sb)
  end.
End Compute.

(** ** Results *)

(** nan-propagating sum. *)
Definition fsum (l : list fval) : fval := match all_some l with Some r => Some (Rsum r) | None => None end.
(** Row [i] of a table kept by bootstrap. *)
Definition across (tbl : list (list fval)) (i : nat) : list fval := map (fun s => nth i s None) tbl.

(** The rows added up for parameter [r], hdmr.py:744-754: [np.where(np.sum(c == r, axis=1) == 1)]. *)
Definition rows_with (r : nat) (c : list (list nat)) : list nat :=
  filter (fun i => length (filter (Nat.eqb r) (nth i c [])) =? 1) (seq 0 (length c)).
Definition total_rows (d maxorder r : nat) : list nat :=
  if maxorder =? 1 then [r]
  else if maxorder =? 2 then r :: map (fun i => d + i) (rows_with r (hdmr_c2 d maxorder))
  else r :: map (fun i => d + i) (rows_with r (hdmr_c2 d maxorder))
         ++ map (fun i => d + length (hdmr_c2 d maxorder) + i) (rows_with r (hdmr_c3 d maxorder)).
(** TS. *)
Definition total_of (S : list (list fval)) (d maxorder r : nat) : list fval :=
  map (fun s => fsum (map (fun i => nth i s None) (total_rows d maxorder r))) S.

Record hdmr_out := mkHdmr { h_Sa : list fval; h_Sa_conf : list fval; h_Sb : list fval; h_Sb_conf : list fval; h_S : list fval;
  h_S_conf : list fval; h_ST : list fval; h_ST_conf : list fval; h_Sa_sum : fval; h_Sa_sum_conf : fval; h_Sb_sum : fval;
  h_Sb_sum_conf : fval; h_S_sum : fval; h_S_sum_conf : fval; h_select : list bool; h_Term : list string; h_Em : list fit;
  h_idx : list (list nat);
  h_m : nat; h_maxorder : nat }.

(** _finalize, hdmr.py:711-824; [mult] is the normal quantile of (1 + alpha)/2, nothing when it is infinite (alpha = 1).  The plotting hooks are left out. *)
Definition finalize (names : list string) (d : nat) (st : settings) (mult : fval) (idx : list (list nat)) (fits : list fit) : result hdmr_out :=
  let maxorder := st_maxorder st in
  let n := hdmr_n d maxorder in
  let s := map fit_S fits in let sa := map fit_Sa fits in let sb := map fit_Sb fits in
  let pad l := l ++ repeat (None : fval) (n - d) in
  do terms <- hdmr_terms names d maxorder ;;
  let conf l := fmul mult (fsd l) in
  Ok (mkHdmr (map (fun i => fmean (across sa i)) (seq 0 n)) (map (fun i => conf (across sa i)) (seq 0 n))
             (map (fun i => fmean (across sb i)) (seq 0 n)) (map (fun i => conf (across sb i)) (seq 0 n))
             (map (fun i => fmean (across s i)) (seq 0 n)) (map (fun i => conf (across s i)) (seq 0 n))
             (pad (map (fun r => fmean (total_of s d maxorder r)) (seq 0 d)))
             (pad (map (fun r => conf (total_of s d maxorder r)) (seq 0 d)))
             (fmean (map fsum sa)) (conf [fsum (concat sa)])
             (fmean (map fsum sb)) (conf [fsum (concat sb)])
             (fmean (map fsum s)) (conf [fsum (concat s)])
             (concat (map (fun i => map (fun f => nth i (fit_select f) false) fits) (seq 0 n)))
             terms fits idx (st_m st) maxorder).

(** The rows used by each bootstrap, hdmr.py:378-383: [argsorts] are the columns of [np.argsort(np.random.rand(N, K), axis=0)]. *)
Definition bootstrap_rows (N : nat) (st : settings) (argsorts : nat -> list nat) : list (list nat) :=
  if st_K st =? 1 then [seq 0 N] else map (fun k => firstn (st_R st) (argsorts k)) (seq 0 (st_K st)).

(** analyze, hdmr.py:26-199.  The seed has no effect on it: the generator made from it is dropped. *)
Definition hdmr_analyze (regress : list (list R) -> R -> result (option (list (list R)))) (crit : R -> nat -> Z -> option R)
    (quantile : R -> fval) (argsorts : nat -> list nat) (junk : nat -> nat -> list (list R))
    (names : list string) (X : mat R) (Y : outputs) (maxorder maxiter m K : Z) (Ro : option Z) (alpha lambdax : R) : result hdmr_out :=
  do st <- check_settings (length (rows X)) (cols X) Y maxorder maxiter m K Ro alpha lambdax ;;
  match Y with
  | Matrix _ => Err ValueError
  | Vector y =>
    let B1 := map (fun j => option_map (basis1 (st_m st)) (normalise (column (rows X) j))) (seq 0 (cols X)) in
    let idx := bootstrap_rows (length (rows X)) st argsorts in
    do fits <- mapM (fun ki => compute_one regress (crit alpha) st B1 y (snd ki) (junk (fst ki))) (combine (seq 0 (st_K st)) idx) ;;
    finalize names (cols X) st (quantile ((1 + alpha) / 2)%R) idx fits
  end.

(** ** The emulator *)

(** np.mean(C, axis=2), hdmr.py:848-851, per term. *)
Definition mean_coefficients (C : fit -> list (list R)) (fits : list fit) (t : nat) : list R :=
  let width := match fits with [] => 0 | f :: _ => length (nth t (C f) []) end in
  map (fun i => mean (map (fun f => nth i (nth t (C f) []) 0%R) fits)) (seq 0 width).

(** emulate, hdmr.py:827-914, for a matrix with the columns of the one analysed and at least one row; [None] for nan. *)
Definition emulate (h : hdmr_out) (X : mat R) (Y : option (list R)) : list fval :=
  let d := cols X in
  let B1 := map (fun j => option_map (basis1 (h_m h)) (normalise (column (rows X) j))) (seq 0 d) in
  match all_some B1 with
  | None => repeat None (length (rows X))
  | Some B1 =>
    let part C ts := map (fun it => matvec (term_basis B1 (snd it)) (mean_coefficients C (h_Em h) (fst it))) (combine (seq 0 (length ts)) ts) in
    let Y_em := part fit_C1 (map (fun j => [j]) (seq 0 d)) ++ part fit_C2 (hdmr_c2 d (h_maxorder h)) ++ part fit_C3 (hdmr_c3 d (h_maxorder h)) in
    let Y_mean := match Y with Some y => mean y | None => 0%R end in
    map (fun v => Some (v + Y_mean)%R) (row_sums (length (rows X)) Y_em)
  end.
