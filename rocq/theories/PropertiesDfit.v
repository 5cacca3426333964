(** * Enhanced HDMR with the extended basis, fitted by D-MORPH regression: C106. *)
From Coq Require Import Reals String List Arith ZArith Bool Lia Lra Psatz Permutation.
From Verif Require Import Base Arrays Stats ModelScale ModelMorris ModelMorrisAnalyze ModelHdmr ModelEhdmr SpecRidge SpecEhdmr SpecEfit SpecDfit RField SpecDmorph ModelDfit ProofsRidge2 ProofsEfit3 ProofsDfit ProofsDfit3 ProofsDfit4 ProofsDfit6.
Import ListNotations.
Local Open Scope nat_scope.

(** Every fit of an analysis: of all coefficients that fit the centred output best, those whose interaction functions are closest to the hierarchical
    orthogonality.  The columns of the basis that is not extended have to be independent on the rows of the fit. *)
Theorem C106_run : forall solve pinv matrix_rank svd, pinv_ok (F:=R_realFieldType) pinv -> rank_ok (F:=R_realFieldType) matrix_rank -> svd_ok (F:=R_realFieldType) svd ->
  forall crit quantile argsorts pb X Y maxorder poly K sub maxiter l2 alpha h, 0 < cols X -> wf_mat X ->
  fst (enhanced_analyze solve (d_morph_lists pinv matrix_rank svd) crit quantile argsorts pb X Y maxorder poly K sub maxiter l2 alpha true) = Ok h ->
  (forall k, Permutation (argsorts k) (seq 0 (length (rows X)))) ->
  exists first, first_columns (Z.to_nat poly) X = Some first /\
  forall k f idx, nth_error (eo_fits h) k = Some f -> nth_error (eo_idx h) k = Some idx ->
    let phi a := map (fun col => map (fun i => nth i col 0%R) idx) (nth a first []) in
    let ts := map (fun i => [i]) (seq 0 (cols X)) ++ combinations 2 (seq 0 (cols X)) in
    let Bs := map (own_columns true phi) ts in
    let Yi := map (fun i => nth i Y 0%R) idx in
    let y := map (fun v => v - mean Yi)%R Yi in
    length (concat Bs) <= length idx -> independent (map (own_columns false phi) ts) (length idx) ->
    exists xs, ef_x f = concat xs /\ cheapest_fit Bs y (hierarchy (length idx) phi ts) xs /\
      length (ef_Y_e f) = length ts /\ forall z, z < length ts -> nth z (ef_Y_e f) [] = combination (length idx) (nth z Bs []) (nth z xs []).
Proof. exact run_cheapest. Qed.
Print Assumptions C106_run.

(** Without bootstrap the function of each pair is orthogonal to all columns of its two parameters, the indices of a single parameter are the sum of
    their two parts, and with two parameters the correlative part of the interaction is zero. *)
Theorem C106_hierarchical : forall solve pinv matrix_rank svd, pinv_ok (F:=R_realFieldType) pinv -> rank_ok (F:=R_realFieldType) matrix_rank -> svd_ok (F:=R_realFieldType) svd ->
  forall crit quantile argsorts pb X Y maxorder poly sub maxiter l2 alpha h, 0 < cols X -> wf_mat X ->
  fst (enhanced_analyze solve (d_morph_lists pinv matrix_rank svd) crit quantile argsorts pb X Y maxorder poly 1 sub maxiter l2 alpha true) = Ok h ->
  exists first f, first_columns (Z.to_nat poly) X = Some first /\ eo_fits h = [f] /\
    let phi a := nth a first [] in
    let ts := map (fun i => [i]) (seq 0 (cols X)) ++ combinations 2 (seq 0 (cols X)) in
    length (concat (map (own_columns true phi) ts)) <= length Y -> independent (map (own_columns false phi) ts) (length Y) ->
    (forall z a b, nth_error ts z = Some [a; b] -> forall col, In col (phi a ++ phi b) -> inner col (nth z (ef_Y_e f) []) = 0%R) /\
    (var Y <> 0%R ->
      (forall j, j < cols X -> exists s sa sb, nth_error (eo_S h) j = Some (Some s) /\ nth_error (eo_Sa h) j = Some (Some sa) /\ nth_error (eo_Sb h) j = Some (Some sb) /\ (s = sa + sb)%R) /\
      (cols X = 2 -> nth_error (eo_Sb h) 2 = Some (Some 0%R))).
Proof. exact run_whole. Qed.
Print Assumptions C106_hierarchical.

(** Two parameters at eight points: of the fits without error, the cheapest leaves the single parameters out of the interaction. *)
Definition ex_phi (a : nat) : list (list R) :=
  match a with 0 => [[1; 1; -1; -1; 1; 1; -1; -1]] | 1 => [[1; -1; 1; -1; 1; -1; 1; -1]] | _ => [] end%R.
Definition ex_y : list R := [6; -2; -4; 0; 6; -2; -4; 0]%R.
Example C106_example : let ts := [[0]; [1]; [0; 1]] in let Bs := map (own_columns true ex_phi) ts in
  length (concat Bs) <= 8 /\ independent (map (own_columns false ex_phi) ts) 8 /\
  cheapest_fit Bs ex_y (hierarchy 8 ex_phi ts) [[2]; [1]; [0; 0; 3]]%R /\
  (hierarchy 8 ex_phi ts [[2]; [1]; [0; 0; 3]] = 0)%R /\ misfit Bs ex_y [[1]; [1]; [1; 0; 3]]%R = 0%R /\ (hierarchy 8 ex_phi ts [[1]; [1]; [1; 0; 3]] = 1)%R.
Proof.
  cbv zeta. set (Bs := map (own_columns true ex_phi) [[0]; [1]; [0; 1]]).
  assert (M0 : misfit Bs ex_y [[2]; [1]; [0; 0; 3]]%R = 0%R) by (unfold misfit, explained, total, width, at3, at2, Rsum; simpl; lra).
  assert (NN : forall xs, (0 <= misfit Bs ex_y xs)%R) by (intros xs; apply total_nonneg; intros; apply pow2_ge_0).
  split; [simpl; lia|]. split; [|split; [|split; [|split]]].
  - intros g H z i Hz Hi. pose proof (H 0 ltac:(lia)) as H0. pose proof (H 1 ltac:(lia)) as H1. pose proof (H 2 ltac:(lia)) as H2.
    unfold total, width, at3, at2, Rsum in H0, H1, H2. simpl in H0, H1, H2. unfold width in Hi.
    destruct z as [|[|[|z]]]; simpl in Hz, Hi; try lia; (destruct i as [|i]; [|lia]); lra.
  - split; [split; auto; intros [|[|[|z]]] Hz; simpl in Hz; try lia; reflexivity|]. split; [intros es _; rewrite M0; apply NN|].
    intros es (L & S) ME NE. rewrite M0 in ME. assert (Z := total_sq_zero (length ex_y) (fun r => nth r ex_y 0 - explained Bs es r)%R ME). simpl in L.
    destruct es as [|e0 [|e1 [|e2 [|]]]]; try discriminate. pose proof (S 0 ltac:(simpl; lia)) as S0. pose proof (S 1 ltac:(simpl; lia)) as S1. pose proof (S 2 ltac:(simpl; lia)) as S2. unfold width in S0, S1, S2. simpl in S0, S1, S2.
    destruct e0 as [|a [|]]; try discriminate. destruct e1 as [|b [|]]; try discriminate. destruct e2 as [|u [|v [|w [|]]]]; try discriminate.
    pose proof (Z 0 ltac:(simpl; lia)) as Z0. pose proof (Z 1 ltac:(simpl; lia)) as Z1. pose proof (Z 2 ltac:(simpl; lia)) as Z2.
    unfold explained, total, width, at3, at2, Rsum in Z0, Z1, Z2. simpl in Z0, Z1, Z2.
    assert (EA : a = (2 - u)%R) by lra. assert (EB : b = (1 - v)%R) by lra. assert (EW : w = 3%R) by lra. subst a b w.
    assert (EH : hierarchy 8 ex_phi [[0]; [1]; [0; 1]] [[2 - u]; [1 - v]; [u; v; 3]]%R = (u ^ 2 + v ^ 2)%R) by (unfold hierarchy, total, combination, inner, mean, Rsum; simpl; field).
    assert (E0 : hierarchy 8 ex_phi [[0]; [1]; [0; 1]] [[2]; [1]; [0; 0; 3]]%R = 0%R) by (unfold hierarchy, total, combination, inner, mean, Rsum; simpl; field).
    rewrite EH, E0. destruct (Req_dec u 0) as [->|NU]; [destruct (Req_dec v 0) as [->|NV]; [exfalso; apply NE; repeat f_equal; lra|]|]; nra.
  - unfold hierarchy, total, combination, inner, mean, Rsum; simpl; field.
  - unfold misfit, explained, total, width, at3, at2, Rsum; simpl; lra.
  - unfold hierarchy, total, combination, inner, mean, Rsum; simpl; field.
Qed.
