(** * Estimators in double precision: sums, means and deviations as numpy computes them, and the Sobol' analysis. *)
From Coq Require Import Reals String List Arith ZArith Bool Permutation.
From Verif Require Import Base Arrays ModelGroups ModelScale Stats ModelSobol ModelDouble.
Import ListNotations.
Local Open Scope R_scope.

(** np.sum adds the numbers up in an arrangement that depends on how many there are: a binary tree whose leaves are positions.  (A first term 0 changes nothing.) *)
Inductive tree := Leaf (i : nat) | Node (l r : tree).
Fixpoint leaves (t : tree) : list nat := match t with Leaf i => [i] | Node l r => leaves l ++ leaves r end.
Definition arrangement (arr : nat -> tree) : Prop := forall n, (0 < n)%nat -> Permutation (leaves (arr n)) (seq 0 n).
Fixpoint tsum (t : tree) (l : list R) : R :=
  match t with Leaf i => nth i l 0 | Node a b => fl (tsum a l + tsum b l) end.

(** From left to right. *)
Fixpoint comb (n : nat) : tree := match n with O => Leaf 0 | S n => Node (comb n) (Leaf (S n)) end.
Definition left_to_right (n : nat) : tree := comb (n - 1).

Section Estimators.
Variable arr : nat -> tree.  (* for arrays, and for the columns of resamples *)

Definition sum_fl (l : list R) : R := tsum (arr (length l)) l.
(** np.mean, np.var and np.std of a non-empty array. *)
Definition mean_fl (l : list R) : R := fl (sum_fl l / INR (length l)).
Definition squares_fl (m : R) (l : list R) : list R := map (fun y => fl (fl (y - m) * fl (y - m))) l.
Definition var_fl (l : list R) : R := fl (sum_fl (squares_fl (mean_fl l) l) / INR (length l)).
Definition std_fl (l : list R) : R := fl (sqrt (var_fl l)).
(** np.std(ddof=1); nan for fewer than two values. *)
Definition std1_fl (l : list R) : fval :=
  if (length l <? 2)%nat then None else Some (fl (sqrt (fl (sum_fl (squares_fl (mean_fl l) l) / INR (length l - 1))))).
(** np.ptp. *)
Definition ptp_fl (l : list R) : R := fl (maxl l - minl l).
(** A division; by 0 it gives nan or an infinity. *)
Definition fdiv_fl (x y : R) : fval := if Reqb y 0 then None else Some (fl (x / y)).
Definition fsub_fl (x y : fval) : fval := match x, y with Some a, Some b => Some (fl (a - b)) | _, _ => None end.

Definition sub_fl (x y : R) : R := fl (x - y).
Definition mul_fl (x y : R) : R := fl (x * y).

(** analyze/sobol.py:219, 232 and 242-246, for one column of outputs. *)
Definition first_col_fl (A AB B : list R) : fval := fdiv_fl (mean_fl (map2 mul_fl B (map2 sub_fl AB A))) (var_fl (A ++ B)).
Definition total_col_fl (A AB B : list R) : fval :=
  fdiv_fl (fl (/ 2 * mean_fl (map (fun d => mul_fl d d) (map2 sub_fl A AB)))) (var_fl (A ++ B)).
Definition second_col_fl (A ABj ABk BAj B : list R) : fval :=
  fsub_fl (fsub_fl (fdiv_fl (mean_fl (map2 sub_fl (map2 mul_fl BAj ABk) (map2 mul_fl A B))) (var_fl (A ++ B))) (first_col_fl A ABj B)) (first_col_fl A ABk B).

(** first_order, total_order and second_order, analyze/sobol.py:209-246, on arrays … *)
Definition first_fl (A AB B : list R) : fval := if Reqb (ptp_fl (A ++ B)) 0 then Some 0 else first_col_fl A AB B.
Definition total_fl (A AB B : list R) : fval := if Reqb (ptp_fl (A ++ B)) 0 then Some 0 else total_col_fl A AB B.
Definition second_fl (A ABj ABk BAj B : list R) : fval := if Reqb (ptp_fl (A ++ B)) 0 then Some 0 else second_col_fl A ABj ABk BAj B.
(** … and on the columns of resamples. *)
Definition first2_fl (A AB B : list (list R)) : estimate :=
  if Reqb (ptp_fl (concat A ++ concat B)) 0 then Scalar (Some 0) else Columns (map3 first_col_fl A AB B).
Definition total2_fl (A AB B : list (list R)) : estimate :=
  if Reqb (ptp_fl (concat A ++ concat B)) 0 then Scalar (Some 0) else Columns (map3 total_col_fl A AB B).
Definition second2_fl (A ABj ABk BAj B : list (list R)) : estimate :=
  if Reqb (ptp_fl (concat A ++ concat B)) 0 then Scalar (Some 0) else Columns (map5 second_col_fl A ABj ABk BAj B).
End Estimators.

(** [z * e.std(ddof=1)], analyze/sobol.py:157, 171, 180-182. *)
Definition confidence_fl (arr : nat -> tree) (z : R) (e : estimate) : fval :=
  match e with
  | Scalar _ => None
  | Columns l => match all_some l with Some xs => option_map (fun s => fl (z * s)) (std1_fl arr xs) | None => None end
  end.

(** analyze, analyze/sobol.py:114-185, without keep_resamples and without parallel workers.  [arr] is numpy's arrangement of sums over one-dimensional arrays,
    [arr2] that of sums over the columns of two-dimensional ones.  The lists are the final contents of the dictionary, whose entries are written once each.
    With a computed standard deviation of 0 every normalised output is taken to be nan (0/0). *)
Definition sobol_fl (arr arr2 : nat -> tree) (Zq : R -> R) (resample : nat -> list (list nat))
  (p : problem) (Y : list R) (second : bool) (conf_level : R) : result Si :=
  let D := snd (extract_group_names p) in
  let step := (if second then 2 * D + 2 else D + 2)%nat in
  if negb (length Y mod step =? 0)%nat then Err RuntimeError
  else if negb (Rltb 0 conf_level && Rltb conf_level 1) then Err RuntimeError
  else
    let N := (length Y / step)%nat in
    let r := resample N in
    if ((0 <? D) && ((N =? 0) || (length r =? 0)))%nat then Err ValueError
    else if Reqb (std_fl arr Y) 0 then Ok (all_nan D (length r) false second false)
    else
      let Yn := map (fun y => fl (fl (y - mean_fl arr Y) / std_fl arr Y)) Y in
      do s <- separate_output_values Yn D N second ;;
      let '(A, B, AB, BA) := s in
      let Ar := gather A r in
      let Br := gather B r in
      let conf := fun e => if Reqb (ptp_fl (concat Ar ++ concat Br)) 0 then Some 0 else confidence_fl arr (Zq conf_level) e in
      let pairs := fun (f : list R -> list R -> list R -> fval) ba =>
        map (fun j => map (fun k => if (j <? k)%nat then f (nth j AB []) (nth k AB []) (nth j ba []) else None) (seq 0 D)) (seq 0 D) in
      Ok (mkSi (map (fun ab => first_fl arr A ab B) AB) (map (fun ab => conf (first2_fl arr2 Ar (gather ab r) Br)) AB)
               (map (fun ab => total_fl arr A ab B) AB) (map (fun ab => conf (total2_fl arr2 Ar (gather ab r) Br)) AB) None None
               (option_map (pairs (fun abj abk baj => second_fl arr A abj abk baj B)) BA)
               (option_map (pairs (fun abj abk baj => confidence_fl arr (Zq conf_level) (second2_fl arr2 Ar (gather abj r) (gather abk r) (gather baj r) Br))) BA)).
