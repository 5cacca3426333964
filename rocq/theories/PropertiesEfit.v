(** * How enhanced HDMR without the extended basis finds its coefficients: C105. *)
From Coq Require Import Reals String List Arith ZArith Bool Lia Lra Psatz Permutation.
From Verif Require Import Base Arrays Stats ModelScale ModelMorris ModelMorrisAnalyze ModelHdmr ModelEhdmr SpecRidge SpecEhdmr SpecEfit ProofsRidge ProofsRidge2 ProofsEfit ProofsEfit2 ProofsEfit3 ProofsEhdmr5.
Import ListNotations.
Local Open Scope nat_scope.

(** Every fit of an analysis: first-order coefficients backfitted to the centred output, second-order coefficients to what they leave. *)
Theorem C105_run : forall solve, solves solve -> forall d_morph crit quantile argsorts pb X Y maxorder poly K sub maxiter l2 alpha h, 0 < cols X ->
  fst (enhanced_analyze solve d_morph crit quantile argsorts pb X Y maxorder poly K sub maxiter l2 alpha false) = Ok h ->
  (forall k, Permutation (argsorts k) (seq 0 (length (rows X)))) ->
  exists first, first_columns (Z.to_nat poly) X = Some first /\
  forall k f idx, nth_error (eo_fits h) k = Some f -> nth_error (eo_idx h) k = Some idx ->
    let own t := map (fun col => map (fun i => nth i col 0%R) idx) (own_columns false (fun a => nth a first []) t) in
    let B1 := map own (map (fun i => [i]) (seq 0 (cols X))) in
    let B2 := map own (combinations 2 (seq 0 (cols X))) in
    let Yi := map (fun i => nth i Y 0%R) idx in
    let y := map (fun v => v - mean Yi)%R Yi in
    exists x1 x2, ef_x f = concat x1 ++ concat x2 /\
      backfitted (Z.to_nat maxiter) l2 B1 y x1 /\
      backfitted (Z.to_nat maxiter) l2 B2 (map (fun r => nth r y 0 - explained B1 x1 r)%R (seq 0 (length idx))) x2 /\
      forall r, r < length idx -> Rsum (map (fun col => nth r col 0%R) (ef_Y_e f)) = (explained B1 x1 r + explained B2 x2 r)%R.
Proof. exact run_backfitted. Qed.
Print Assumptions C105_run.

(** A pass never fits worse, and coefficients a pass leaves alone are a joint least squares fit, whatever the penalty was. *)
Theorem C105_sweep : forall Bs y old new, shape Bs old -> sweep Bs y old new ->
  (misfit Bs y new <= misfit Bs y old)%R /\ (old = new -> forall es, (misfit Bs y new <= misfit Bs y es)%R).
Proof.
  intros Bs y old new SO SW. split; [exact (sweep_descends Bs y old new SO SW)|]. intros <-. exact (sweep_fixed Bs y old SW).
Qed.
Print Assumptions C105_sweep.

(** With independent columns, all the passes of a fit bring it towards the joint fit without penalty at a geometric rate. *)
Theorem C105_unpenalised : forall maxiter l2 Bs y xs, backfitted maxiter l2 Bs y xs ->
  forall mu, (0 < mu)%R -> (forall es, (mu * weight Bs es <= total (length y) (fun r => explained Bs es r ^ 2))%R) ->
  exists x0 p, shape Bs x0 /\ (forall z, z < length Bs -> ridge_alone (nth z Bs []) y l2 (nth z x0 [])) /\ 1 <= p <= S maxiter /\
    forall es, (misfit Bs y xs - misfit Bs y es <= (block_gram Bs (length y) / (block_gram Bs (length y) + mu ^ 2)) ^ p * (misfit Bs y x0 - misfit Bs y es))%R.
Proof.
  intros mi l2 Bs y xs (h & p & S0 & R0 & HP & <- & SW & _) mu MP MU. exists (h 0), p. split; auto. split; auto. split; auto. intros es. exact (sweeps_contract Bs y mu MP MU h p S0 SW es).
Qed.
Print Assumptions C105_unpenalised.

(** When the columns of different terms are orthogonal, neither the penalty nor the limit on the passes changes the result. *)
Theorem C105_penalty_ignored : forall solve n Bs y, (forall B b, In B Bs -> In b B -> length b = n) -> length y = n -> 0 < n -> orthogonal_blocks Bs n ->
  forall maxiter maxiter' l2 l2' r r', e_order solve n maxiter l2 Bs y = Ok r -> e_order solve n maxiter' l2' Bs y = Ok r' -> r = r'.
Proof. exact order_penalty. Qed.
Print Assumptions C105_penalty_ignored.

(** A solver of systems with one unknown. *)
Definition solve_one (A : list (list R)) (b : list R) : result (list R) :=
  match A, b with [[a]], [v] => if Req_EM_T a 0 then Err LinAlgError else Ok [v / a]%R | _, _ => Err ValueError end.
Lemma solve_one_solves : solves solve_one.
Proof.
  intros [|[|a [|]] [|]] [|v [|]] x E; try discriminate. cbn in E. destruct (Req_EM_T a 0); [discriminate|]. injection E as <-. split; auto. intros [|i] Hi; [|simpl in Hi; lia]. cbn. field. auto.
Qed.
Lemma solve_one_block : forall n l2 B y, (dot B B / INR n + l2 <> 0)%R -> solve_block solve_one n l2 [B] y = Ok [dot B y / INR n / (dot B B / INR n + l2)]%R.
Proof. intros n l2 B y H. unfold solve_block. cbn. destruct (Req_EM_T _ _); [contradiction|]. reflexivity. Qed.

(** Two orthogonal terms: the fit is (2, 1) although the penalised fit is (1, 1/2). *)
Lemma two_terms : forall maxiter l2, (0 <= l2)%R -> exists res, e_order solve_one 2 maxiter l2 [[[1; 1]]; [[1; -1]]]%R [3; 1]%R = Ok ([[2]; [1]]%R, res).
Proof.
  intros mi l2 L.
  assert (W : forall B b, In B [[[1; 1]]; [[1; -1]]]%R -> In b B -> length b = 2) by (intros B b [<-|[<-|[]]] [<-|[]]; reflexivity).
  assert (OB : orthogonal_blocks [[[1; 1]]; [[1; -1]]]%R 2).
  { intros [|[|z]] [|i] [|[|z']] [|i'] H1 H2 H3 H4 H5; unfold width in *; cbn in *; try lia; unfold at3, at2, total; cbn; lra. }
  unfold e_order. cbn [mapM].
  rewrite !solve_one_block by (unfold dot; cbn; lra). cbn [bind].
  match goal with |- context [e_backfit _ _ _ _ _ ?x] => set (x0 := x) end. assert (SX : shape [[[1; 1]]; [[1; -1]]]%R x0) by (split; auto; intros [|[|z]] Hz; try reflexivity; simpl in Hz; lia).
  rewrite (loop_same solve_one 2 _ [3; 1]%R W eq_refl ltac:(lia) OB mi x0 SX). unfold e_pass. cbn [length seq foldM nth].
  rewrite solve_one_block by (unfold dot; cbn; lra). cbn [bind]. rewrite solve_one_block by (unfold dot; cbn; lra). cbn [bind].
  match goal with |- context [update (update x0 0 [?a]) 1 [?b]] => assert (EA : a = 2%R); [|assert (EB : b = 1%R); [|rewrite EB, EA; eexists; reflexivity]] end.
  - unfold dot. cbn. lra.
  - unfold dot. cbn. lra.
Qed.

(** So the coefficients are not those of a fit with the penalty. *)
Theorem C105_penalty_refuted : exists solve Bs y l2 xs res, solves solve /\ (0 < l2)%R /\ (forall maxiter, e_order solve 2 maxiter l2 Bs y = Ok (xs, res maxiter)) /\
  exists es, shape Bs es /\ (misfit Bs y es / 2 + l2 * weight Bs es < misfit Bs y xs / 2 + l2 * weight Bs xs)%R.
Proof.
  assert (Q : forall m, e_order solve_one 2 m 1 [[[1; 1]]; [[1; -1]]]%R [3; 1]%R =
     Ok ([[2]; [1]]%R, match e_order solve_one 2 m 1 [[[1; 1]]; [[1; -1]]]%R [3; 1]%R with Ok (_, r) => r | Err _ => [] end)).
  { intros m. destruct (two_terms m 1 ltac:(lra)) as (r & ->). reflexivity. }
  exists solve_one, [[[1; 1]]; [[1; -1]]]%R, [3; 1]%R, 1%R, [[2]; [1]]%R. eexists. split; [exact solve_one_solves|]. split; [lra|]. split; [exact Q|].
  exists [[1]; [1 / 2]]%R. split; [split; auto; intros [|[|z]] Hz; try reflexivity; simpl in Hz; lia|].
  unfold misfit, weight, explained, total, width, at3, at2. cbn. lra.
Qed.
Print Assumptions C105_penalty_refuted.

(** The example runs for every penalty and every limit. *)
Example C105_example : forall maxiter l2, (0 <= l2)%R -> exists xs res, e_order solve_one 2 maxiter l2 [[[1; 1]]; [[1; -1]]]%R [3; 1]%R = Ok (xs, res) /\
  backfitted maxiter l2 [[[1; 1]]; [[1; -1]]]%R [3; 1]%R xs /\ misfit [[[1; 1]]; [[1; -1]]]%R [3; 1]%R xs = 0%R.
Proof.
  intros mi l2 L. destruct (two_terms mi l2 L) as (res & E). exists [[2]; [1]]%R, res. split; auto. split.
  - eapply (order_backfitted solve_one solve_one_solves 2); eauto. intros B b [<-|[<-|[]]] [<-|[]]; reflexivity.
  - unfold misfit, explained, total, width, at3, at2. cbn. ring.
Qed.
