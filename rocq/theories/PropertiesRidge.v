(** * HDMR as penalised least squares: C93. *)
From Coq Require Import Reals String List Arith ZArith Lia Lra Psatz.
From Verif Require Import Base ModelScale Stats ModelMorrisAnalyze ModelHdmr SpecHdmr SpecRidge ProofsRidge ProofsRidge2 ProofsRidge3 ProofsRidge4.
Import ListNotations.
Local Open Scope nat_scope.

(** A pass of the backfitting loop never increases the penalised sum of squares of the joint fit, and with a positive penalty it contracts the
    excess over any other coefficients by a factor that depends on the tables only. *)
Theorem C93_pass : forall n m B T y lam, (forall z, z < length B -> table n m (nth z B [])) -> (forall z, z < length B -> ridge_solution n m (nth z B []) lam (nth z T [])) -> length y = n ->
  forall C, length C = length B /\ (forall z, z < length B -> length (nth z C []) = m) ->
  ((0 <= lam)%R -> (objective m B y lam (backfit_pass B T y C) <= objective m B y lam C)%R) /\
  ((0 < lam)%R -> forall E, (objective m B y lam (backfit_pass B T y C) - objective m B y lam E
     <= gram_squares m n B / (gram_squares m n B + lam ^ 2) * (objective m B y lam C - objective m B y lam E))%R).
Proof.
  intros n m B T y lam HB HT HY C HC. split.
  - intros L. exact (pass_descends n m B T y lam HB HT HY C L HC).
  - intros L E. exact (pass_contracts n m B T y lam HB HT HY C E L HC).
Qed.
Print Assumptions C93_pass.

(** Coefficients that a pass leaves unchanged are the joint penalised least squares fit, the only one when the penalty is positive. *)
Theorem C93_fixed_point : forall n m B T y lam, (forall z, z < length B -> table n m (nth z B [])) -> (forall z, z < length B -> ridge_solution n m (nth z B []) lam (nth z T [])) -> length y = n ->
  forall C, length C = length B /\ (forall z, z < length B -> length (nth z C []) = m) -> (0 <= lam)%R -> backfit_pass B T y C = C ->
  (forall E, (objective m B y lam C <= objective m B y lam E)%R) /\
  ((0 < lam)%R -> forall E, (forall F, (objective m B y lam E <= objective m B y lam F)%R) -> forall z i, z < length B -> i < m -> at2 C z i = at2 E z i).
Proof.
  intros n m B T y lam HB HT HY C HC L F. pose proof (fixed_minimal n m B T y lam HB HT HY C L HC F) as M. split; [exact M|].
  intros P E HE. exact (minimal_unique n m B y lam C E HY P M HE).
Qed.
Print Assumptions C93_fixed_point.

(** The first-order terms of an analysis: the loop starts from the best single terms and makes between one and [maxiter] passes. *)
Theorem C93_first_order : forall regress crit quantile argsorts junk names X y maxorder maxiter m K Ro alpha lam h,
  hdmr_analyze regress crit quantile argsorts junk names X (Vector y) maxorder maxiter m K Ro alpha lam = Ok h ->
  (forall row, In row (rows X) -> length row = cols X) ->
  forall k f idx, nth_error (h_Em h) k = Some f -> nth_error (h_idx h) k = Some idx -> (forall i, In i idx -> i < length (rows X)) ->
  exists B, length B = cols X /\
    (forall z, z < cols X -> table (length idx) (Z.to_nat m + 3) (nth z B []) /\
       forall r i, r < length idx -> i < Z.to_nat m + 3 ->
         let x := map (fun row => nth z row 0%R) (rows X) in
         at3 B z r i = spline (Z.to_nat m) i ((nth (nth r idx 0%nat) x 0 - minl x) / (maxl x - minl x))%R) /\
    ((forall b, In b B -> exists T, regress b lam = Ok (Some T) /\ ridge_solution (length idx) (Z.to_nat m + 3) b lam T) ->
     let res := map (fun i => nth i y 0 - fit_f0 f)%R idx in
     exists C0 p, 0 < p <= Z.to_nat maxiter /\ length C0 = cols X /\
       (forall z, z < cols X -> best_alone (Z.to_nat m + 3) (nth z B []) res lam (nth z C0 [])) /\
       (objective (Z.to_nat m + 3) B res lam (fit_C1 f) <= objective (Z.to_nat m + 3) B res lam C0)%R /\
       (0 < lam -> forall E, objective (Z.to_nat m + 3) B res lam (fit_C1 f) - objective (Z.to_nat m + 3) B res lam E
          <= (gram_squares (Z.to_nat m + 3) (length idx) B / (gram_squares (Z.to_nat m + 3) (length idx) B + lam ^ 2)) ^ p
             * (objective (Z.to_nat m + 3) B res lam C0 - objective (Z.to_nat m + 3) B res lam E))%R).
Proof. exact run_first_order. Qed.
Print Assumptions C93_first_order.

(** Terms of higher order are the best single terms for what the first-order terms leave. *)
Theorem C93_higher_order : forall regress n m lam, (0 <= lam)%R -> forall size B y Y2 res C,
  (forall b, In b B -> table n m b /\ exists T, regress b lam = Ok (Some T) /\ ridge_solution n m b lam T) -> length y = n ->
  higher_order regress size B y lam = Ok (Y2, res, C) ->
  length C = length B /\ (forall z, z < length B -> best_alone m (nth z B []) y lam (nth z C [])) /\
  (forall r, r < n -> nth r res 0%R = (nth r y 0 - predicted m B C r)%R).
Proof. exact higher_order_fit. Qed.
Print Assumptions C93_higher_order.

(** Two tables of one column on two points: the first pass from zero, and the coefficients it leaves unchanged. *)
Definition two_tables : list (list (list R)) := [[[1]; [0]]; [[1]; [1]]]%R.
Definition two_solutions : list (list (list R)) := [[[1/2; 0]]; [[1/3; 1/3]]]%R.
Lemma two_ok : forall z, z < 2 -> table 2 1 (nth z two_tables []) /\ ridge_solution 2 1 (nth z two_tables []) 1 (nth z two_solutions []).
Proof.
  intros z Hz. assert (T : forall a b : list R, length a = 1 -> length b = 1 -> table 2 1 [a; b]) by (intros a b Ha Hb; split; auto; intros row [<-|[<-|[]]]; auto).
  destruct z as [|[|z]]; [| |lia]; (split; [apply T; reflexivity|]); (split; [split; [reflexivity|intros row [<-|[]]; reflexivity]|]);
    intros [|i] [|[|r]] Hi Hr; try lia; unfold total, at2; cbn; lra.
Qed.
Example C93_example : backfit_pass two_tables two_solutions [3; 3]%R [[0]; [0]]%R = [[3/2]; [3/2]]%R /\
  backfit_pass two_tables two_solutions [3; 3]%R [[3/5]; [9/5]]%R = [[3/5]; [9/5]]%R /\
  forall E, (objective 1 two_tables [3; 3] 1 [[3/5]; [9/5]] <= objective 1 two_tables [3; 3] 1 E)%R.
Proof.
  assert (Q : forall a b c d : R, a = c -> b = d -> [[a]; [b]] = [[c]; [d]]) by (intros; subst; auto).
  assert (F : backfit_pass two_tables two_solutions [3; 3]%R [[3/5]; [9/5]]%R = [[3/5]; [9/5]]%R).
  { unfold backfit_pass, without_others, matvec, dot, vsub. cbn. apply Q; field. }
  split; [unfold backfit_pass, without_others, matvec, dot, vsub; cbn; apply Q; field|]. split; [exact F|].
  apply (C93_fixed_point 2 1 two_tables two_solutions [3; 3]%R 1%R); auto; try lra; try (intros z Hz; apply two_ok; exact Hz).
  split; [reflexivity|]. intros [|[|z]] Hz; cbn in *; try lia; reflexivity.
Qed.

(** "If it is ill-conditioned matrix, the default value is zero" does not hold of the first-order terms: when no regression is possible the
    result is computed from what the allocated memory held, and its first coefficient can be any number. *)
Theorem C93_default_zero_refuted : forall regress crit quantile argsorts names X y maxorder maxiter m Ro alpha lam, (forall b l, regress b l = Ok None) ->
  settings_ok (length (rows X)) (cols X) (Vector y) maxorder maxiter m 1 Ro alpha lam -> 0 < cols X -> cols X <= length names ->
  (forall j, j < cols X -> ptp (column (rows X) j) <> 0%R) -> forall i, i < length y -> nth i y 0%R <> (Rsum y / INR (length y))%R ->
  forall v, exists junk h f, hdmr_analyze regress crit quantile argsorts junk names X (Vector y) maxorder maxiter m 1 Ro alpha lam = Ok h /\
    h_Em h = [f] /\ at2 (fit_C1 f) 0 0 = v /\ forall k j, table (Z.to_nat m + 3) (length y) (junk k j).
Proof. exact run_uninitialised. Qed.
Print Assumptions C93_default_zero_refuted.

(** 300 samples of two parameters that take two values each, so that most splines vanish on all samples. *)
Definition two_valued : mat R := mkMat 2 (map (fun i => if i <? 150 then [0; 1] else [1; 0])%R (seq 0 300)).
Example C93_default_zero_example : forall v, exists junk h f, hdmr_analyze (fun _ _ => Ok None) (fun _ _ _ => Some 3%R) (fun _ => Some 2%R) (fun _ => seq 0 300) junk
  ["a"; "b"]%string two_valued (Vector (1 :: repeat 0 299)%R) 2 100 10 1 None (95 / 100) (1 / 100) = Ok h /\ h_Em h = [f] /\ at2 (fit_C1 f) 0 0 = v.
Proof.
  intros v. assert (Z : forall k, Rsum (repeat 0%R k) = 0%R) by (induction k as [|k IH]; [reflexivity|]; change (0 + Rsum (repeat 0 k) = 0)%R; rewrite IH; lra).
  assert (Z1 : Rsum (1 :: repeat 0 299)%R = 1%R) by (change (1 + Rsum (repeat 0 299) = 1)%R; rewrite Z; lra).
  destruct (C93_default_zero_refuted (fun _ _ => Ok None) (fun _ _ _ => Some 3%R) (fun _ => Some 2%R) (fun _ => seq 0 300) ["a"; "b"]%string two_valued
    (1 :: repeat 0 299)%R 2 100 10 None (95 / 100) (1 / 100)) with (i := 0) (v := v) as (junk & h & f & E1 & E2 & E3 & _); auto.
  - unfold settings_ok. cbn [two_valued rows cols y_rows y_size length]. rewrite !map_length, !seq_length, repeat_length. repeat split; try lia; try lra; discriminate.
  - simpl. lia.
  - intros j Hj. cbn [two_valued rows cols] in *. set (l := column _ _). intros Q.
    assert (E : exists f : nat -> R, f 0 <> f 200 /\ l = map f (seq 0 300)).
    { unfold l, column. generalize (seq 0 300). intros s. destruct j as [|[|j]]; [| |lia].
      - exists (fun i => if i <? 150 then 0 else 1)%R. split; [cbn; lra|]. induction s as [|a s IH]; cbn [map flat_map]; [reflexivity|]. destruct (a <? 150); cbn; f_equal; exact IH.
      - exists (fun i => if i <? 150 then 1 else 0)%R. split; [cbn; lra|]. induction s as [|a s IH]; cbn [map flat_map]; [reflexivity|]. destruct (a <? 150); cbn; f_equal; exact IH. }
    destruct E as (f & N & E). assert (NE : l <> []) by (rewrite E; discriminate).
    apply N. apply (proj1 (ptp_zero_iff l NE) Q); rewrite E; apply in_map, in_seq; lia.
  - simpl. lia.
  - rewrite Z1. replace (length (1 :: repeat 0 299)%R) with 300 by (cbn [length]; rewrite repeat_length; reflexivity). cbn [nth].
    replace (INR 300) with 300%R by (rewrite INR_IZR_INZ; reflexivity). lra.
  - eauto 10.
Qed.
