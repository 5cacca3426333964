(** * HDMR when no regression is possible: the coefficients are read from uninitialised memory. *)
From Coq Require Import Reals String List Arith ZArith Bool Lia Lra.
From Verif Require Import Base Arrays ListFacts ModelScale Stats Sums ModelFast ModelMorrisAnalyze ProofsMorris7 ModelHdmr SpecHdmr SpecRidge ProofsHdmr2 ProofsHdmr3 ProofsHdmr5.
Import ListNotations.
Local Open Scope nat_scope.

Lemma dot_zero_l : forall k w, dot (repeat 0%R k) w = 0%R.
Proof.
  unfold dot, map2. induction k; intros [|a w]; simpl; auto. specialize (IHk w). simpl in IHk. rewrite IHk. lra.
Qed.
Lemma dot_zero_r : forall w k, dot w (repeat 0%R k) = 0%R.
Proof.
  unfold dot, map2. induction w; intros [|k]; simpl; auto. specialize (IHw k). simpl in IHw. rewrite IHw. lra.
Qed.
Lemma dot_unit : forall e i k w, i < length w -> dot (repeat 0%R i ++ e :: repeat 0%R k) w = (e * nth i w 0)%R.
Proof.
  intros e i k. induction i as [|i IH]; intros [|a w] H; try (simpl in H; lia).
  - pose proof (dot_zero_l k w) as Q. unfold dot in *. simpl in *. rewrite Q. lra.
  - specialize (IH w ltac:(simpl in H; lia)). unfold dot in *. simpl in *. rewrite IH. lra.
Qed.
Definition zeros (m n : nat) : list (list R) := repeat (repeat 0%R n) m.
Lemma matvec_zeros : forall m n w, matvec (zeros m n) w = repeat 0%R m.
Proof. intros m n w. unfold matvec, zeros. induction m; cbn; [auto|]. rewrite dot_zero_l. f_equal; auto. Qed.
Lemma matvec_zero_r : forall b m, matvec b (repeat 0%R m) = repeat 0%R (length b).
Proof. intros b m. unfold matvec. induction b; cbn; [auto|]. rewrite dot_zero_r. f_equal; auto. Qed.
Lemma vsub_zero : forall y, vsub y (repeat 0%R (length y)) = y.
Proof. unfold vsub. induction y; cbn; auto. f_equal; [lra|auto]. Qed.

Lemma nth_update : forall A (d : A) (l : list A) i v k, i < length l -> nth k (update l i v) d = if k =? i then v else nth k l d.
Proof.
  induction l as [|x l IH]; intros i v k Hi; [simpl in Hi; lia|]. destruct i, k; cbn; auto. apply IH. simpl in Hi. lia.
Qed.

Section None.
Variables (B : list (list (list R))) (y : list R) (m n : nat) (M : list (list R)).
Hypothesis HB : forall z, z < length B -> length (nth z B []) = length y.
Hypothesis NE : 0 < length B.
Definition left_over (j : nat) : list (list R) := match j with 0 => M | _ => zeros m n end.
Definition inv (C : list (list R)) : Prop :=
  length C = length B /\ nth 0 C [] = matvec M y /\ forall z, 0 < z < length B -> nth z C [] = repeat 0%R m.

Lemma others_zero : forall C, inv C -> without_others B y C 0 = y.
Proof.
  intros C (_ & _ & H). unfold without_others.
  assert (Q : forall l, (forall z, In z l -> z < length B) ->
    fold_left (fun y0 z => if 0 =? z then y0 else vsub y0 (matvec (nth z B []) (nth z C []))) l y = y).
  { induction l as [|z l IH]; intros L; [reflexivity|]. cbn [fold_left].
    assert (E : (if 0 =? z then y else vsub y (matvec (nth z B []) (nth z C []))) = y).
    { destruct (Nat.eqb_spec 0 z); [reflexivity|]. assert (z < length B) by (apply L; left; auto).
      rewrite H by lia. rewrite matvec_zero_r, HB by auto. apply vsub_zero. }
    rewrite E. apply IH. intros; apply L; right; auto. }
  apply Q. intros z Hz. apply in_seq in Hz. lia.
Qed.

Lemma pass_inv : forall C, inv C -> inv (backfit_pass B (map left_over (seq 0 (length B))) y C).
Proof.
  intros C HC. unfold backfit_pass. set (T := map _ _).
  assert (Q : forall l C, (forall z, In z l -> z < length B) -> inv C ->
    inv (fold_left (fun C j => update C j (matvec (nth j T []) (without_others B y C j))) l C)).
  { induction l as [|z l IH]; intros C' L I; [exact I|]. cbn [fold_left]. apply IH; [intros; apply L; right; auto|].
    assert (Hz : z < length B) by (apply L; left; auto).
    assert (TZ : nth z T [] = left_over z).
    { unfold T. rewrite (nth_indep _ [] (left_over 0)) by (rewrite map_length, seq_length; auto). rewrite map_nth, seq_nth; auto. }
    rewrite TZ. destruct I as (I1 & I2 & I3). split; [rewrite length_update; auto|].
    assert (NU : forall w k, nth k (update C' z w) [] = if k =? z then w else nth k C' []).
    { intros w k. apply nth_update. lia. }
    split.
    - rewrite NU. destruct (Nat.eqb_spec 0 z) as [<-|N]; auto. cbn [left_over]. rewrite others_zero; [reflexivity|repeat split; auto].
    - intros k Hk. rewrite NU. destruct (Nat.eqb_spec k z) as [->|N]; auto. destruct z; [lia|]. cbn [left_over]. apply matvec_zeros. }
  apply Q; auto. intros z Hz. apply in_seq in Hz. lia.
Qed.

Lemma loop_inv : forall k vm vo C, inv C -> inv (backfit B (map left_over (seq 0 (length B))) y k vm vo C).
Proof.
  induction k; intros vm vo C I; cbn [backfit]; [auto|]. destruct (Rltb _ _); auto. apply IHk, pass_inv, I.
Qed.
End None.

Lemma first_order_none : forall regress B y m n M mi la, (forall b l, regress b l = Ok None) -> (forall z, z < length B -> length (nth z B []) = length y) -> 0 < length B ->
  exists Y1 res C1, first_order regress B y (left_over m n M) mi la = Ok (Y1, res, C1) /\ nth 0 C1 [] = matvec M y.
Proof.
  intros regress B y m n M mi la HR HB NE. unfold first_order. destruct B as [|b0 B0] eqn:EB; [simpl in NE; lia|]. rewrite <- EB in *. clear b0 B0 EB.
  assert (ET : mapM (fun jB => do t <- regress (snd jB) la ;; Ok (match t with Some t => t | None => left_over m n M (fst jB) end)) (combine (seq 0 (length B)) B)
    = Ok (map (left_over m n M) (seq 0 (length B)))).
  { generalize 0 as s. clear HB NE. induction B as [|b B IH]; intros s; [reflexivity|]. cbn [length seq combine mapM map fst snd]. rewrite HR. cbn [bind]. rewrite IH. reflexivity. }
  rewrite ET. cbn [bind]. do 3 eexists. split; [reflexivity|].
  apply (loop_inv B y m n M HB NE). split; [rewrite !map_length, seq_length; auto|].
  rewrite map_map. split.
  - rewrite (nth_indep _ [] (matvec (left_over m n M 0) y)) by (rewrite map_length, seq_length; auto).
    rewrite (map_nth (fun x => matvec (left_over m n M x) y)), seq_nth by auto. reflexivity.
  - intros z Hz. rewrite (nth_indep _ [] (matvec (left_over m n M 0) y)) by (rewrite map_length, seq_length; lia).
    rewrite (map_nth (fun x => matvec (left_over m n M x) y)), seq_nth by lia. destruct z; [lia|]. cbn [left_over Nat.add]. apply matvec_zeros.
Qed.

(** The first coefficients of a run without bootstrap in which no regression is possible. *)
Lemma run_none : forall regress crit quantile argsorts names X y maxorder maxiter m Ro alpha lam n M, (forall b l, regress b l = Ok None) ->
  settings_ok (length (rows X)) (cols X) (Vector y) maxorder maxiter m 1 Ro alpha lam -> 0 < cols X -> cols X <= length names ->
  (forall j, j < cols X -> ptp (column (rows X) j) <> 0%R) ->
  exists h f, hdmr_analyze regress crit quantile argsorts (fun _ => left_over (Z.to_nat m + 3) n M) names X (Vector y) maxorder maxiter m 1 Ro alpha lam = Ok h /\
    h_Em h = [f] /\ nth 0 (fit_C1 f) [] = matvec M (map (fun v => v - Rsum y / INR (length y))%R y).
Proof.
  intros regress crit quantile argsorts names X y mo mi m Ro al la n M HR SO HD LN P.
  destruct (run_ok regress crit quantile argsorts (fun _ => left_over (Z.to_nat m + 3) n M) names X y mo mi m 1 Ro al la SO) as (h & E); auto.
  { intros b l. exists None. apply HR. }
  pose proof (run_fits _ _ _ _ _ _ _ _ _ _ _ _ _ _ _ _ E) as (LE & LI & RF). change (Z.to_nat 1) with 1 in *.
  destruct (h_Em h) as [|f [|? ?]] eqn:EE; try (simpl in LE; lia).
  assert (EI : h_idx h = [seq 0 (length (rows X))]).
  { apply run_inv in E. destruct E as (_ & y' & fits & _ & _ & F). apply finalize_inv in F. destruct F as (_ & _ & _ & _ & F5 & _). rewrite F5. reflexivity. }
  specialize (RF 0 f (seq 0 (length (rows X))) eq_refl ltac:(rewrite EI; reflexivity)).
  exists h, f. split; [exact E|]. split; [exact EE|].
  assert (LY : length y = length (rows X)) by (destruct SO as (_ & _ & Q & _); exact Q).
  set (st := settings_of (length (rows X)) mo mi m 1 Ro al la) in *.
  assert (SR : st_R st = length y) by (rewrite LY; reflexivity).
  unfold compute_one in RF. destruct (bases_some (st_m st) X P) as (Bs & A). rewrite A in RF.
  assert (LB : length Bs = cols X) by (apply all_some_inv in A; rewrite <- (map_length Some Bs), <- A; apply bases_length).
  assert (TY : take_rows 0%R (seq 0 (length (rows X))) y = y).
  { unfold take_rows. rewrite <- LY. clear. apply (nth_ext _ _ 0%R 0%R); rewrite map_length, seq_length; [reflexivity|]. intros i Hi.
    rewrite (nth_indep _ 0%R (nth 0 y 0%R)) by (rewrite map_length, seq_length; auto). rewrite (map_nth (fun i => nth i y 0%R)), seq_nth by auto. reflexivity. }
  rewrite TY, SR in RF. set (Bk := map (fun B => take_rows [] (seq 0 (length (rows X))) B) Bs) in *.
  destruct (first_order_none regress Bk (map (fun v => v - Rsum y / INR (length y))%R y) (Z.to_nat m + 3) n M (st_maxiter st) (st_lambda st) HR) as (Y1 & res & C1 & E1 & E2).
  - intros z Hz. unfold Bk in *. rewrite map_length in Hz. rewrite (nth_indep _ [] (take_rows [] (seq 0 (length (rows X))) [])) by (rewrite map_length; auto).
    rewrite (map_nth (fun B => take_rows [] (seq 0 (length (rows X))) B)). rewrite length_take_rows, seq_length, map_length. auto.
  - unfold Bk. rewrite map_length. lia.
  - rewrite E1 in RF. cbn [bind] in RF.
    destruct (higher_order _ _ _ _ _) as [((Y2, res2), C2)|] eqn:H2 in RF; [|discriminate]. cbn [bind] in RF.
    destruct (higher_order _ _ _ _ _) as [((Y3, res3), C3)|] eqn:H3 in RF; [|discriminate]. cbn [bind] in RF.
    destruct (ancova _ _ _) as ((s, sa), sb) in RF. injection RF as <-. exact E2.
Qed.

Lemma run_uninitialised : forall regress crit quantile argsorts names X y maxorder maxiter m Ro alpha lam, (forall b l, regress b l = Ok None) ->
  settings_ok (length (rows X)) (cols X) (Vector y) maxorder maxiter m 1 Ro alpha lam -> 0 < cols X -> cols X <= length names ->
  (forall j, j < cols X -> ptp (column (rows X) j) <> 0%R) -> forall i, i < length y -> nth i y 0%R <> (Rsum y / INR (length y))%R ->
  forall v, exists junk h f, hdmr_analyze regress crit quantile argsorts junk names X (Vector y) maxorder maxiter m 1 Ro alpha lam = Ok h /\
    h_Em h = [f] /\ at2 (fit_C1 f) 0 0 = v /\ forall k j, table (Z.to_nat m + 3) (length y) (junk k j).
Proof.
  intros regress crit quantile argsorts names X y mo mi m Ro al la HR SO HD LN P i Hi NE v.
  set (e := (v / (nth i y 0 - Rsum y / INR (length y)))%R).
  set (row := repeat 0%R i ++ e :: repeat 0%R (length y - i - 1)).
  set (M := row :: zeros (Z.to_nat m + 2) (length y)).
  destruct (run_none regress crit quantile argsorts names X y mo mi m Ro al la (length y) M HR SO HD LN P) as (h & f & E & EE & C).
  exists (fun _ => left_over (Z.to_nat m + 3) (length y) M), h, f. split; [exact E|]. split; [exact EE|]. split.
  - unfold at2. rewrite C. unfold M, matvec. cbn [map nth].
    set (w := map _ y). assert (LW : length w = length y) by apply map_length.
    unfold row. rewrite dot_unit by lia.
    unfold w. rewrite (nth_indep _ 0%R (0 - Rsum y / INR (length y))%R) by (rewrite map_length; auto). rewrite (map_nth (fun v => v - Rsum y / INR (length y))%R).
    unfold e. set (q := (Rsum y / INR (length y))%R) in *. field. lra.
  - intros k j. assert (TZ : table (Z.to_nat m + 3) (length y) (zeros (Z.to_nat m + 3) (length y))).
    { split; [apply repeat_length|]. intros r Hr. apply repeat_spec in Hr. subst r. apply repeat_length. }
    destruct j; cbn [left_over]; [|exact TZ]. split.
    + unfold M, zeros. cbn [length]. rewrite repeat_length. lia.
    + intros r [<-|Hr]; [unfold row; rewrite app_length; cbn [length]; rewrite !repeat_length; lia|]. apply repeat_spec in Hr. subst r. apply repeat_length.
Qed.
