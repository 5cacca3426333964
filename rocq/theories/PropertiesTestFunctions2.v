(** * Properties of the linear models and of the lake problem. *)
From Coq Require Import Reals String List Arith Lra Lia Bool.
From Verif Require Import Base Arrays ModelScale ProofsScale Stats Sums ModelTestFunctions SpecIntegral ProofsIntegral ProofsTestFunctions
  ProofsTestFunctions2 ProofsTestFunctions4.
Import ListNotations.
Local Open Scope R_scope.

(** C77.  On every box, both linear models have equal first-order and total effects, c^2 (hi - lo)^2 / 12 per coordinate, and these add up to
    the variance. [variances] restates c^2 (hi - lo)^2 / 12. *)
Definition variances (cs : list R) (b : box) : list R := map2 (fun c i => c ^ 2 * (snd i - fst i) ^ 2 / 12) cs b.

Lemma variances_share : forall cs b, variances cs b = map (fun p => share (fst p) (snd p)) (combine b cs).
Proof. induction cs as [|c cs IH]; intros [|i b]; try reflexivity. unfold variances in *. cbn. rewrite IH. reflexivity. Qed.

Lemma linear_theorem : forall b cs, proper b -> length cs = length b ->
  variance b (linear cs) (Rsum (variances cs b)) /\
  (forall i, (i < length b)%nat -> first_effect b (linear cs) i (nth i (variances cs b) 0) /\ total_effect b (linear cs) i (nth i (variances cs b) 0)).
Proof.
  intros b cs P L. rewrite variances_share. split; [apply linear_variance; assumption|].
  intros i I. destruct (nth_error b i) as [bi|] eqn:B; [|apply nth_error_None in B; lia].
  destruct (nth_error cs i) as [c|] eqn:C; [|apply nth_error_None in C; lia].
  rewrite (nth_error_nth (map (fun p => share (fst p) (snd p)) (combine b cs)) i 0 (x := share bi c)).
  - apply linear_effects; assumption.
  - rewrite nth_error_map, (combine_nth_some _ _ b cs i bi c B C). reflexivity.
Qed.

Theorem C77_linear_1 : forall b, proper b -> exists f,
  (forall xs, Forall (inside b) xs -> linear_1 (mkMat (length b) xs) = map f xs)
  /\ variance b f (Rsum (variances (repeat 1 (length b)) b))
  /\ (forall i, (i < length b)%nat -> first_effect b f i (nth i (variances (repeat 1 (length b)) b) 0)
                                  /\ total_effect b f i (nth i (variances (repeat 1 (length b)) b) 0)).
Proof.
  intros b P. exists (linear (repeat 1 (length b))). split.
  - intros xs F. unfold linear_1. cbn [rows]. apply map_ext_in. intros x I. rewrite Forall_forall in F.
    rewrite <- (inside_length _ _ (F x I)). symmetry. apply linear_ones.
  - apply linear_theorem; [assumption|apply repeat_length].
Qed.
Print Assumptions C77_linear_1.

Theorem C77_linear_2 : forall b, proper b -> length b = 5%nat -> exists f,
  (forall xs, Forall (inside b) xs -> linear_2 (mkMat 5 xs) = Ok (map f xs))
  /\ variance b f (Rsum (variances [5; 4; 3; 2; 1] b))
  /\ (forall i, (i < 5)%nat -> first_effect b f i (nth i (variances [5; 4; 3; 2; 1] b) 0) /\ total_effect b f i (nth i (variances [5; 4; 3; 2; 1] b) 0)).
Proof.
  intros b P L. exists (linear [5; 4; 3; 2; 1]). split.
  - intros xs F. unfold linear_2. cbn [rows cols Nat.ltb Nat.leb]. apply f_equal. apply map_ext_in. intros x I. rewrite Forall_forall in F.
    assert (E := inside_length _ _ (F x I)). rewrite L in E. destruct x as [|x0 [|x1 [|x2 [|x3 [|x4 [|? ?]]]]]]; try discriminate. cbn. ring.
  - rewrite <- L. apply linear_theorem; [assumption|]. rewrite L. reflexivity.
Qed.
Print Assumptions C77_linear_2.

(** On the unit box the first-order indices of linear model 2 are 25/55, 16/55, 9/55, 4/55 and 1/55. *)
Example ex_linear : map (fun v => v / Rsum (variances [5; 4; 3; 2; 1] (repeat (0, 1) 5))) (variances [5; 4; 3; 2; 1] (repeat (0, 1) 5))
  = [25 / 55; 16 / 55; 9 / 55; 4 / 55; 1 / 55].
Proof. unfold variances. cbn. repeat (f_equal; try field). Qed.

(** ** Lake problem *)

(** C76.  Every returned row consists of the largest of 25 simulated values, the discounted utility, and two counts divided by [nvars]: how many
    of one decision are below 0.02, and how many of the 25 values are below the critical value. With a discount other than 1 the utility is the
    closed geometric sum, and pollution never gets negative. *)
Theorem C76_outputs : forall inflows critical nvars values out, (forall m s n, length (inflows m s n) = n) ->
  lake_evaluate inflows critical values nvars = Ok out ->
  Forall2 (fun row o => exists a q b mn sd delta alpha p sim, row = [a; q; b; mn; sd; delta; alpha] /\ critical q b = Ok p /\ (0 < nvars)%nat
    /\ length sim = 25%nat
    /\ (0 <= a -> b <= 1 -> Forall (fun e => 0 <= e) (inflows mn sd 5%nat) -> Forall (fun x => 0 <= x) sim)
    /\ exists top utility inertia reliability, o = [top; utility; inertia; reliability]
       /\ In top sim /\ Forall (fun x => x <= top) sim
       /\ (delta <> 1 -> utility = alpha * a * ((1 - delta ^ nvars) / (1 - delta)))
       /\ inertia * INR nvars = (if Rltb a (2 / 100) then 1 else 0)
       /\ reliability * INR nvars = INR (length (filter (fun x => Rltb x p) sim))) values out.
Proof.
  intros inflows critical nvars values out HL E. unfold lake_evaluate in E. revert out E.
  induction values as [|row values IH]; intros out E; [injection E as <-; constructor|].
  cbn [mapM] in E. destruct (lake_row inflows critical nvars row) as [o|] eqn:H; [|discriminate]. cbn [bind] in E.
  destruct (mapM (lake_row inflows critical nvars) values) as [out'|] eqn:E'; [|discriminate]. injection E as <-.
  constructor; [|apply IH; reflexivity]. clear IH E'.
  unfold lake_row in H. destruct row as [|a [|q [|b [|mn [|sd [|delta [|alpha [|? ?]]]]]]]]; try discriminate.
  destruct (critical q b) as [p|] eqn:C; [|discriminate]. cbn [bind] in H. destruct (nvars =? 0)%nat eqn:Z; [discriminate|].
  apply Nat.eqb_neq in Z. injection H as <-.
  set (sim := concat (evaluate_lake inflows a q b mn sd)).
  exists a, q, b, mn, sd, delta, alpha, p, sim. split; [reflexivity|]. split; [assumption|]. split; [lia|].
  assert (N : INR nvars <> 0) by (apply not_0_INR; assumption).
  destruct (lake_rows_shape a q b (inflows mn sd 5%nat) 5 (repeat 0 5)) as (S1 & S2); [rewrite HL; reflexivity|].
  assert (L : length sim = 25%nat).
  { unfold sim, evaluate_lake. rewrite (concat_length_const _ _ _ S2), S1. reflexivity. }
  split; [assumption|]. split.
  - intros A B F. unfold sim. apply Forall_concat. unfold evaluate_lake. apply lake_rows_inv.
    + rewrite Forall_forall in *. intros e I x X. apply lake_nonneg; auto.
    + rewrite HL. reflexivity.
    + repeat constructor; lra.
  - exists (maxl sim), (Rsum (map (fun t => alpha * a * delta ^ t) (seq 0 nvars))),
      (INR (if Rltb a (2 / 100) then 1 else 0) / INR nvars), (INR (length (filter (fun x => Rltb x p) sim)) / INR nvars).
    split; [reflexivity|]. assert (NE : sim <> []) by (intros Z'; rewrite Z' in L; discriminate). destruct (maxl_spec sim NE) as (M1 & M2).
    split; [assumption|]. split; [apply Forall_forall; assumption|]. split; [intros D; apply geometric; assumption|]. split.
    + destruct (Rltb a (2 / 100)); cbn; field; assumption.
    + field. assumption.
Qed.
Print Assumptions C76_outputs.

(** C76 fails: with the default 100 decision variables the reported reliability is never above 1/4, and it is 1/4 for a lake that stays below its
    critical value at every simulated step (critical value 1/2, which solves x^2 / (1 + x^2) = 0.4 x). *)
Theorem C76_reliability_refuted :
  (forall inflows critical values out o, (forall m s n, length (inflows m s n) = n) -> lake_evaluate inflows critical values 100 = Ok out ->
     In o out -> nth 3 o 0 <= 1 / 4 /\ nth 2 o 0 <= 1 / 100)
  /\ exists top utility,
     lake_evaluate (fun _ _ n => repeat (1 / 100) n) (fun _ _ => Ok (1 / 2)) [[0; 2; 2 / 5; 2 / 100; 1 / 1000; 98 / 100; 4 / 10]] 100
       = Ok [[top; utility; 1 / 100; 1 / 4]]
     /\ top <= 1 / 10 /\ (1 / 2) ^ 2 / (1 + (1 / 2) ^ 2) = 2 / 5 * (1 / 2).
Proof.
  split.
  - intros inflows critical values out o HL E I. assert (F := C76_outputs inflows critical 100 values out HL E).
    revert I. clear E. induction F as [|row o' values out H F IH]; [intros []|]. intros [<-|I]; [|auto].
    destruct H as (a & q & b & mn & sd & delta & alpha & p & sim & _ & _ & _ & L & _ & top & u & inertia & rel & -> & _ & _ & _ & E1 & E2).
    cbn [nth]. assert (K := filter_len _ (fun x => Rltb x p) sim). rewrite L in K. apply le_INR in K.
    replace (INR 25) with 25 in K by (cbn; lra). replace (INR 100) with 100 in * by (rewrite INR_IZR_INZ; reflexivity).
    rewrite <- E2 in K. split; [lra|]. destruct (Rltb a (2 / 100)); lra.
  - set (inf := fun (_ _ : R) n => repeat (1 / 100) n).
    set (sim := concat (evaluate_lake inf 0 2 (2 / 5) (2 / 100) (1 / 1000))).
    assert (HL : forall m s n, length (inf m s n) = n) by (intros; unfold inf; apply repeat_length).
    assert (B : Forall (fun x => 0 <= x <= 1 / 10) sim).
    { unfold sim. apply Forall_concat. unfold evaluate_lake. apply lake_rows_inv; [|reflexivity|repeat constructor; lra].
      unfold inf. apply Forall_forall. intros e I. apply repeat_spec in I. subst e. intros x (X1 & X2). split; [apply lake_nonneg; lra|].
      unfold lake_problem. assert (Q : rpow x 2 = x ^ 2).
      { destruct (Req_dec x 0) as [->|N]; [rewrite rpow_0 by lra; ring|]. rewrite rpow_pos by lra. replace 2 with (INR 2) at 1 by (cbn; ring). apply Rpower_pow. lra. }
      rewrite Q. assert (Hq : 0 <= x ^ 2) by apply pow2_ge_0.
      assert (x ^ 2 / (1 + x ^ 2) <= x ^ 2). { apply Rmult_le_reg_r with (1 + x ^ 2); [lra|]. unfold Rdiv. rewrite Rmult_assoc, Rinv_l by lra. nra. }
      nra. }
    destruct (lake_rows_shape 0 2 (2 / 5) (inf (2 / 100) (1 / 1000) 5%nat) 5 (repeat 0 5)) as (S1 & S2); [reflexivity|].
    assert (L : length sim = 25%nat). { unfold sim, evaluate_lake. rewrite (concat_length_const _ _ _ S2), S1. reflexivity. }
    exists (maxl sim), (Rsum (map (fun t => 4 / 10 * 0 * (98 / 100) ^ t) (seq 0 100))). split; [|split].
    + unfold lake_evaluate. cbn [mapM]. unfold lake_row. cbn [bind]. change (100 =? 0)%nat with false. cbn iota.
      fold inf. fold sim. cbv zeta. cbn [bind]. rewrite filter_full.
      * rewrite L. replace (Rltb 0 (2 / 100)) with true by (symmetry; apply Rltb_true; lra).
        replace (INR 100) with 100 by (rewrite INR_IZR_INZ; reflexivity). replace (INR 25) with 25 by (cbn; lra).
        cbn [INR]. repeat (f_equal; try field).
      * rewrite Forall_forall in *. intros x I. apply Rltb_true. specialize (B x I). lra.
    + assert (NE : sim <> []) by (intros Z'; rewrite Z' in L; discriminate). destruct (maxl_spec sim NE) as (M1 & _).
      rewrite Forall_forall in B. apply (B _ M1).
    + field.
Qed.
Print Assumptions C76_reliability_refuted.

(** C76.  Every simulated value is the one before it with the decision and the inflow added, the share [b] removed, and less than 1 recycled; from
    an unpolluted, clean lake. What is recycled passes 1/2 at a pollution of 1. *)
Theorem C76_recycling : forall inflows a q b mn sd, 0 <= a -> b <= 1 -> 0 < q -> length (inflows mn sd 5%nat) = 5%nat -> Forall (fun e => 0 <= e) (inflows mn sd 5%nat) ->
  let sim := evaluate_lake inflows a q b mn sd in
  length sim = 5%nat /\
  forall k r s j x y e, nth_error (repeat 0 5 :: sim) k = Some r -> nth_error sim k = Some s ->
    nth_error r j = Some x -> nth_error s j = Some y -> nth_error (inflows mn sd 5%nat) j = Some e ->
    exists g, y = x + a + e - b * x + g /\ 0 <= g < 1 /\ (x < 1 <-> g < 1 / 2) /\ (x = 0 -> g = 0).
Proof.
  intros inflows a q b mn sd A B Q L F sim. split; [apply lake_rows_shape; rewrite L; reflexivity|].
  intros k r s j x y e K1 K2 J1 J2 J3.
  assert (X : 0 <= x).
  { assert (G : Forall (Forall (fun x => 0 <= x)) (repeat 0 5 :: sim)).
    { constructor; [repeat constructor; lra|]. apply lake_rows_inv; [|rewrite L; reflexivity|repeat constructor; lra].
      apply Forall_forall. intros e' I z Z. rewrite Forall_forall in F. apply lake_nonneg; auto. }
    rewrite Forall_forall in G. assert (G1 := G r (nth_error_In _ _ K1)). cbn beta in G1. rewrite Forall_forall in G1. apply G1. apply (nth_error_In _ _ J1). }
  assert (E := lake_rows_step a q b _ _ _ _ _ _ K1 K2). subst s. rewrite nth_error_map2, J1, J3 in J2. injection J2 as <-.
  exists (rpow x q / (1 + rpow x q)). assert (P := rpow_nonneg x q X). destruct (rpow_side x q X Q) as [S1 S2].
  split; [unfold lake_problem; ring|].
  assert (M : rpow x q / (1 + rpow x q) = 1 - / (1 + rpow x q)) by (field; lra).
  assert (I1 : 0 < / (1 + rpow x q)) by (apply Rinv_0_lt_compat; lra).
  assert (I2 : (1 + rpow x q) * / (1 + rpow x q) = 1) by (apply Rinv_r; lra).
  split; [rewrite M; nra|]. split.
  - split; intros H.
    + specialize (S1 H). rewrite M. nra.
    + destruct (Rlt_le_dec x 1) as [|G]; [assumption|]. exfalso. rewrite M in H.
      assert (1 <= rpow x q) by (destruct (Req_dec x 1) as [->|]; [rewrite rpow_1 by assumption; lra|left; apply S2; lra]). nra.
  - intros ->. rewrite rpow_0 by assumption. field.
Qed.
Print Assumptions C76_recycling.

(** Two steps of a lake without decay: 1 after the first, 1 + 1 + 1/2 after the second. *)
Example lake_two_steps : exists rest, evaluate_lake (fun _ _ n => repeat 1 n) 0 2 0 0 0 = repeat 1 5 :: repeat (5 / 2) 5 :: rest.
Proof.
  assert (E0 : lake_problem 0 2 0 0 1 = 1) by (unfold lake_problem; rewrite rpow_0 by lra; field).
  assert (E1 : lake_problem 0 2 0 1 1 = 5 / 2) by (unfold lake_problem; rewrite rpow_1 by lra; field).
  eexists. unfold evaluate_lake. cbn [repeat lake_rows map2]. rewrite E0, E1. reflexivity.
Qed.
