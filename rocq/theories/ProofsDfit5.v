(** * Cheapest fits: functions of pairs orthogonal to those of their parameters; residuals orthogonal to every function. *)
From Coq Require Import Reals List Arith Bool Lia Lra Psatz.
From Verif Require Import Base Stats Sums ModelMorrisAnalyze ModelHdmr SpecRidge ProofsRidge ProofsRidge2 SpecEhdmr SpecEfit SpecDfit ProofsEfit ProofsEfit2 ProofsEfit3 ProofsDfit ProofsDfit3.
Import ListNotations.
Local Open Scope nat_scope.

Lemma linear_zero : forall A B : R, (forall t, (0 <= 2 * t * B + t ^ 2 * A)%R) -> B = 0%R.
Proof.
  intros A B H. destruct (Req_dec B 0) as [|NB]; auto. exfalso. set (c := (Rabs A + 1)%R). assert (CP : (0 < c)%R) by (unfold c; pose proof (Rabs_pos A); lra).
  pose proof (H (- B / c)%R) as Q. assert (E : (2 * (- B / c) * B + (- B / c) ^ 2 * A = B ^ 2 / c ^ 2 * (A - 2 * c))%R) by (field; lra). rewrite E in Q.
  assert (P1 : (0 < B ^ 2 / c ^ 2)%R) by (apply Rdiv_lt_0_compat; [|apply pow_lt; auto]; rewrite <- Rsqr_pow2; apply Rsqr_pos_lt; auto).
  assert (P2 : (A - 2 * c < 0)%R) by (unfold c; pose proof (Rle_abs A); pose proof (Rabs_pos A); lra). nra.
Qed.
Lemma explained_tab : forall Bs g r, explained Bs (tab Bs g) r = total (length Bs) (fun z => total (width Bs z) (fun i => at3 Bs z i r * g z i))%R.
Proof. intros Bs g r. apply total_ext. intros z Hz. apply total_ext. intros i Hi. rewrite tab_at by auto. reflexivity. Qed.

(** The residual of a least squares fit is orthogonal to the function of every term. *)
Lemma residual_orthogonal : forall Bs y xs, (forall es, shape Bs es -> (misfit Bs y xs <= misfit Bs y es)%R) -> forall z, z < length Bs ->
  total (length y) (fun r => total (width Bs z) (fun i => at3 Bs z i r * at2 xs z i) * (nth r y 0 - explained Bs xs r))%R = 0%R.
Proof.
  intros Bs y xs BEST z Hz. set (f := fun r => total (width Bs z) (fun i => at3 Bs z i r * at2 xs z i)%R). set (res := fun r => (nth r y 0 - explained Bs xs r)%R).
  change (total (length y) (fun r => f r * res r)%R = 0%R). assert (Q : (- total (length y) (fun r => f r * res r))%R = 0%R); [|lra].
  apply (linear_zero (total (length y) (fun r => f r ^ 2)%R)). intros t.
  pose proof (BEST _ (tab_shape Bs (fun z' i => at2 xs z' i + t * (if z =? z' then at2 xs z' i else 0))%R)) as H.
  assert (E : forall r, explained Bs (tab Bs (fun z' i => at2 xs z' i + t * (if z =? z' then at2 xs z' i else 0))%R) r = (explained Bs xs r + t * f r)%R).
  { intros r. rewrite explained_tab. unfold explained, f. rewrite <- (total_delta (length Bs) z (fun z => total (width Bs z) (fun i => at3 Bs z i r * at2 xs z i))%R) by auto. rewrite <- total_scal, <- total_plus. apply total_ext. intros z' Hz'.
    destruct (z =? z'); rewrite <- ?total_scal, ?Rmult_0_r, ?Rplus_0_r; rewrite <- ?total_plus; apply total_ext; intros; ring. }
  unfold misfit in H. rewrite (total_ext (length y) (fun r => (nth r y 0 - explained Bs (tab _ _) r) ^ 2)%R (fun r => (nth r y 0 - explained Bs xs r) ^ 2 + (- (2 * t) * (f r * res r) + t ^ 2 * (f r ^ 2)))%R) in H.
  - rewrite !total_plus, !total_scal in H. lra.
  - intros r Hr. rewrite E. unfold res. ring.
Qed.

Section Orthogonal.
Variables (d p n : nat) (phi : nat -> list (list R)) (prs : list (list nat)).
Hypothesis PL : forall a, a < d -> length (phi a) = p.
Hypothesis PN : forall a col, In col (phi a) -> length col = n.
Hypothesis PR : forall t, In t prs -> exists a b, t = [a; b] /\ a < d /\ b < d /\ a <> b.
Hypothesis NP : 0 < n.
Notation ts := (map (fun i => [i]) (seq 0 d) ++ prs).
Notation Bx := (map (own_columns true phi) ts).
Notation N := (length prs).
Notation fa := (fa prs).
Notation fb := (fb prs).
Notation F := (F phi).
Notation P := (P phi prs).
Notation values := (values d p phi prs).
Notation pairf := (pairf p phi prs).
Notation fpair := (fpair d p phi prs).
Notation pair_cost := (pair_cost p n phi prs).

Lemma pairf_plus : forall u v w u' v' w' i r, pairf (fun q => u q + u' q)%R (fun q => v q + v' q)%R (fun l => w l + w' l)%R i r = (pairf u v w i r + pairf u' v' w' i r)%R.
Proof.
  intros. unfold ProofsDfit3.pairf. rewrite (total_ext p (fun q => F (fa i) q r * (u q + u' q))%R (fun q => F (fa i) q r * u q + F (fa i) q r * u' q)%R) by (intros; ring).
  rewrite (total_ext p (fun q => F (fb i) q r * (v q + v' q))%R (fun q => F (fb i) q r * v q + F (fb i) q r * v' q)%R) by (intros; ring).
  rewrite (total_ext (p * p) (fun l => P i l r * (w l + w' l))%R (fun l => P i l r * w l + P i l r * w' l)%R) by (intros; ring). rewrite !total_plus. ring.
Qed.
Lemma pairf_ext : forall u v w u' v' w' i r, (forall q, q < p -> u q = u' q) -> (forall q, q < p -> v q = v' q) -> (forall l, l < p * p -> w l = w' l) -> pairf u v w i r = pairf u' v' w' i r.
Proof. intros u v w u' v' w' i r U V W. unfold ProofsDfit3.pairf. f_equal; [f_equal|]; apply total_ext; intros q Hq; rewrite ?U, ?V, ?W by auto; auto. Qed.
Lemma values_plus : forall g g' r, values (fun z l => g z l + g' z l)%R r = (values g r + values g' r)%R.
Proof.
  intros g g' r. unfold ProofsDfit3.values. rewrite (total_ext d _ (fun a => total p (fun q => F a q r * g a q) + total p (fun q => F a q r * g' a q))%R) by (intros; rewrite <- total_plus; apply total_ext; intros; ring).
  rewrite (total_ext N _ (fun i => pairf (g (d + i)%nat) (fun q => g (d + i)%nat (p + q)%nat) (fun l => g (d + i)%nat (2 * p + l)%nat) i r + pairf (g' (d + i)%nat) (fun q => g' (d + i)%nat (p + q)%nat) (fun l => g' (d + i)%nat (2 * p + l)%nat) i r)%R) by (intros; apply pairf_plus).
  rewrite !total_plus. ring.
Qed.
Lemma explained_tab_values : forall g r, explained Bx (tab Bx g) r = values g r.
Proof. intros g r. rewrite explained_tab. apply values_spec; auto. Qed.
Lemma fpair_tab : forall g i r, i < N -> fpair (tab Bx g) i r = pairf (g (d + i)) (fun q => g (d + i) (p + q)) (fun l => g (d + i) (2 * p + l)) i r.
Proof.
  intros g i r Hi. assert (LB : d + i < length Bx) by (rewrite map_length, ts_length; lia). unfold ProofsDfit3.fpair. apply pairf_ext; intros q Hq; apply tab_at; auto; rewrite (width_pair d p) by auto; lia.
Qed.

(** Moving a part of a pair's function into the functions of its parameters. *)
Definition shift (i : nat) (u v : nat -> R) (z l : nat) : R :=
  (if z <? d then - ((if fa i =? z then u l else 0) + (if fb i =? z then v l else 0))
   else if z =? d + i then (if l <? p then u l else if l <? 2 * p then v (l - p)%nat else 0) else 0)%R.
Lemma shift_values : forall i u v r, i < N -> values (shift i u v) r = 0%R.
Proof.
  intros i u v r Hi. rewrite (values_collect d p) by auto. rewrite (total_ext _ _ (fun _ => 0%R)); [apply total_zero|]. intros z Hz. rewrite map_length, ts_length in Hz.
  rewrite (total_ext _ _ (fun _ => 0%R)); [apply total_zero|]. intros l Hl.
  match goal with |- (_ * ?c)%R = _ => assert (E : c = 0%R); [|rewrite E; ring] end.
  unfold collect. destruct (Nat.ltb_spec z d) as [Hd|Hd].
  - rewrite (width_single d p) in Hl by auto. rewrite total_plus.
    rewrite (total_ext N (fun j => if fa j =? z then shift i u v (d + j) l else 0%R) (fun j => if i =? j then (if fa j =? z then u l else 0)%R else 0%R)).
    + rewrite (total_ext N (fun j => if fb j =? z then shift i u v (d + j) (p + l) else 0%R) (fun j => if i =? j then (if fb j =? z then v l else 0)%R else 0%R)).
      * rewrite !(total_delta N i) by auto. unfold shift. destruct (Nat.ltb_spec z d); [|lia]. ring.
      * intros j Hj. unfold shift. destruct (Nat.ltb_spec (d + j) d); [lia|]. destruct (Nat.eqb_spec (d + j) (d + i)), (Nat.eqb_spec i j); try lia.
        -- destruct (fb j =? z); auto. destruct (Nat.ltb_spec (p + l) p); [lia|]. destruct (Nat.ltb_spec (p + l) (2 * p)); [|lia]. f_equal. lia.
        -- destruct (fb j =? z); auto.
    + intros j Hj. unfold shift. destruct (Nat.ltb_spec (d + j) d); [lia|]. destruct (Nat.eqb_spec (d + j) (d + i)), (Nat.eqb_spec i j); try lia.
      * destruct (fa j =? z); auto. destruct (Nat.ltb_spec l p); [auto|lia].
      * destruct (fa j =? z); auto.
  - unfold shift. destruct (Nat.ltb_spec z d); [lia|]. destruct (z =? d + i); auto. destruct (Nat.ltb_spec (2 * p + l) p); [lia|]. destruct (Nat.ltb_spec (2 * p + l) (2 * p)); [lia|]. auto.
Qed.
Definition two (u v : nat -> R) (i r : nat) : R := (total p (fun q => F (fa i) q r * u q) + total p (fun q => F (fb i) q r * v q))%R.
Lemma shift_pair : forall i u v j r, i < N -> j < N -> pairf (shift i u v (d + j)) (fun q => shift i u v (d + j) (p + q)) (fun l => shift i u v (d + j) (2 * p + l)) j r = if i =? j then two u v i r else 0%R.
Proof.
  intros i u v j r Hi Hj. destruct (Nat.eqb_spec i j) as [<-|NE].
  - rewrite (pairf_ext _ _ _ u v (fun _ => 0%R)).
    + unfold ProofsDfit3.pairf, two. rewrite (total_ext (p * p) _ (fun _ => 0%R)) by (intros; ring). rewrite total_zero. ring.
    + intros q Hq. unfold shift. destruct (Nat.ltb_spec (d + i) d); [lia|]. rewrite Nat.eqb_refl. destruct (Nat.ltb_spec q p); [auto|lia].
    + intros q Hq. unfold shift. destruct (Nat.ltb_spec (d + i) d); [lia|]. rewrite Nat.eqb_refl. destruct (Nat.ltb_spec (p + q) p); [lia|]. destruct (Nat.ltb_spec (p + q) (2 * p)); [|lia]. f_equal. lia.
    + intros q Hq. unfold shift. destruct (Nat.ltb_spec (d + i) d); [lia|]. rewrite Nat.eqb_refl. destruct (Nat.ltb_spec (2 * p + q) p); [lia|]. destruct (Nat.ltb_spec (2 * p + q) (2 * p)); [lia|]. auto.
  - assert (Z : forall l, shift i u v (d + j) l = 0%R). { intros l. unfold shift. destruct (Nat.ltb_spec (d + j) d); [lia|]. destruct (Nat.eqb_spec (d + j) (d + i)); [lia|auto]. }
    rewrite (pairf_ext _ _ _ (fun _ => 0%R) (fun _ => 0%R) (fun _ => 0%R)) by (intros; apply Z). unfold ProofsDfit3.pairf.
    assert (Z0 : forall k h, total k (fun q => h q * 0)%R = 0%R) by (intros k h; rewrite (total_ext k _ (fun _ => 0%R)) by (intros; ring); apply total_zero). rewrite !Z0. ring.
Qed.

Variable y : list R.
Hypothesis LY : length y = n.
Variable xs : list (list R).
Hypothesis CH : cheapest_fit Bx y (hierarchy n phi ts) xs.

Lemma shift_dearer : forall i u v, i < N -> (pair_cost (fpair xs i) i <= pair_cost (fun r => fpair xs i r + two u v i r)%R i)%R.
Proof.
  intros i u v Hi. destruct CH as (SX & BEST & CHEAP). set (g := fun z l => (at2 xs z l + shift i u v z l)%R). set (es := tab Bx g). pose proof (tab_shape Bx g) as SE. fold es in SE.
  assert (EV : forall r, explained Bx es r = explained Bx xs r).
  { intros r. unfold es. rewrite explained_tab_values. unfold g. rewrite values_plus, shift_values by auto. rewrite (explained_values d p) by auto. ring. }
  assert (MF : misfit Bx y es = misfit Bx y xs) by (unfold misfit; apply total_ext; intros; rewrite EV; auto).
  assert (LE : (hierarchy n phi ts xs <= hierarchy n phi ts es)%R).
  { destruct (list_eq_dec (list_eq_dec Req_EM_T) es xs) as [->|NE]; [lra|]. left. apply CHEAP; auto. }
  rewrite !(hierarchy_spec d p) in LE by auto.
  rewrite (total_split N i (fun j => pair_cost (fpair xs j) j)), (total_split N i (fun j => pair_cost (fpair es j) j)) in LE by auto.
  assert (FE : forall j r, j < N -> fpair es j r = (fpair xs j r + (if i =? j then two u v i r else 0))%R).
  { intros j r Hj. unfold es. rewrite fpair_tab by auto. unfold g. rewrite pairf_plus, shift_pair by auto. reflexivity. }
  assert (CE : forall f f' j, (forall r, f r = f' r) -> pair_cost f j = pair_cost f' j).
  { intros f f' j H. unfold ProofsDfit3.pair_cost. rewrite (total_ext n f f') by auto. f_equal; f_equal; apply total_ext; intros q Hq; f_equal; f_equal; apply total_ext; intros; rewrite H; auto. }
  rewrite (total_ext N (fun z => if i =? z then 0%R else pair_cost (fpair es z) z) (fun z => if i =? z then 0%R else pair_cost (fpair xs z) z)) in LE.
  - rewrite (CE (fpair es i) (fun r => fpair xs i r + two u v i r)%R i) in LE; [lra|]. intros r. rewrite FE, Nat.eqb_refl by auto. reflexivity.
  - intros j Hj. destruct (Nat.eqb_spec i j) as [|NE]; auto. apply CE. intros r. rewrite FE by auto. destruct (Nat.eqb_spec i j); [lia|]. ring.
Qed.

Hypothesis MZ : forall a q, a < d -> q < p -> total n (F a q) = 0%R.
Definition ip (f g : nat -> R) : R := (total n (fun r => f r * g r) / INR n)%R.
Lemma ip_plus : forall f g h t, ip f (fun r => g r + t * h r)%R = (ip f g + t * ip f h)%R.
Proof.
  intros f g h t. unfold ip. rewrite (total_ext n _ (fun r => f r * g r + t * (f r * h r))%R) by (intros; ring). rewrite total_plus, total_scal. unfold Rdiv. ring.
Qed.
Lemma pair_cost_plus : forall f h i t, pair_cost (fun r => f r + t * h r)%R i = (pair_cost f i + (2 * t * (total n f / INR n * (total n h / INR n) +
  (total p (fun q => ip (F (fa i) q) f * ip (F (fa i) q) h) + total p (fun q => ip (F (fb i) q) f * ip (F (fb i) q) h))) + t ^ 2 * pair_cost h i))%R.
Proof.
  intros f h i t. unfold ProofsDfit3.pair_cost. rewrite total_plus, total_scal.
  assert (E : forall e, total p (fun q => (total n (fun r => F e q r * (f r + t * h r)) / INR n) ^ 2)%R =
    (total p (fun q => (total n (fun r => F e q r * f r) / INR n) ^ 2) + (2 * t * total p (fun q => ip (F e q) f * ip (F e q) h) + t ^ 2 * total p (fun q => (total n (fun r => F e q r * h r) / INR n) ^ 2)))%R).
  { intros e. rewrite <- !total_scal, <- !total_plus. apply total_ext. intros q Hq. change (total n (fun r => F e q r * (f r + t * h r)) / INR n)%R with (ip (F e q) (fun r => f r + t * h r))%R. rewrite ip_plus. unfold ip. ring. }
  rewrite !E. unfold Rdiv. ring.
Qed.

Lemma pair_orthogonal : forall i q, i < N -> q < p -> total n (fun r => F (fa i) q r * fpair xs i r)%R = 0%R /\ total n (fun r => F (fb i) q r * fpair xs i r)%R = 0%R.
Proof.
  intros i q Hi Hq. set (f := fpair xs i). set (u := fun q => ip (F (fa i) q) f). set (v := fun q => ip (F (fb i) q) f). set (h := two u v i).
  destruct (pair_ends d prs PR i Hi) as (_ & HA & HB & _). assert (IN : (INR n <> 0)%R) by (apply not_0_INR; lia).
  assert (HH : forall g, total n (fun r => h r * g r)%R = (total p (fun q => total n (fun r => F (fa i) q r * g r) * u q) + total p (fun q => total n (fun r => F (fb i) q r * g r) * v q))%R).
  { intros g. unfold h, two. rewrite (total_ext n _ (fun r => total p (fun q => u q * (F (fa i) q r * g r)) + total p (fun q => v q * (F (fb i) q r * g r)))%R).
    - rewrite total_plus, !(total_swap n p). f_equal; apply total_ext; intros; rewrite total_scal; ring.
    - intros r Hr. rewrite Rmult_plus_distr_r, !(Rmult_comm (total p _) (g r)), <- !total_scal. f_equal; apply total_ext; intros; ring. }
  assert (B0 : (total n f / INR n * (total n h / INR n) + (total p (fun q => ip (F (fa i) q) f * ip (F (fa i) q) h) + total p (fun q => ip (F (fb i) q) f * ip (F (fb i) q) h)))%R = 0%R).
  { apply (linear_zero (pair_cost h i)). intros t. pose proof (shift_dearer i (fun q => t * u q)%R (fun q => t * v q)%R Hi) as Q. fold f in Q.
    assert (E : forall r, two (fun q => t * u q)%R (fun q => t * v q)%R i r = (t * h r)%R).
    { intros r. unfold h, two. rewrite Rmult_plus_distr_l, <- !total_scal. f_equal; apply total_ext; intros; ring. }
    assert (CE : pair_cost (fun r => f r + two (fun q => t * u q) (fun q => t * v q) i r)%R i = pair_cost (fun r => f r + t * h r)%R i).
    { unfold ProofsDfit3.pair_cost. rewrite (total_ext n (fun r => f r + two _ _ i r)%R (fun r => f r + t * h r)%R) by (intros; rewrite E; auto). f_equal; f_equal; apply total_ext; intros; f_equal; f_equal; apply total_ext; intros; rewrite E; auto. }
    rewrite CE, pair_cost_plus in Q. lra. }
  assert (M0 : total n h = 0%R).
  { rewrite (total_ext n h (fun r => h r * 1)%R) by (intros; ring). rewrite HH.
    assert (Z0 : forall e w, e < d -> total p (fun q => total n (fun r => F e q r * 1) * w q)%R = 0%R).
    { intros e w He. rewrite (total_ext p _ (fun _ => 0%R)); [apply total_zero|]. intros q' Hq'. rewrite (total_ext n _ (F e q')) by (intros; ring). rewrite MZ by auto. ring. }
    rewrite !Z0 by auto. ring. }
  rewrite M0 in B0. assert (HZ : total n (fun r => h r ^ 2)%R = 0%R).
  { rewrite (total_ext n _ (fun r => h r * h r)%R) by (intros; ring). rewrite HH.
    assert (Q : forall e w, total p (fun q => total n (fun r => F e q r * h r) * w q)%R = (INR n * total p (fun q => w q * ip (F e q) h))%R).
    { intros e w. rewrite <- total_scal. apply total_ext. intros q' _. unfold ip. field. auto. }
    rewrite !Q. fold (u) in B0. change (fun q => ip (F (fa i) q) f * ip (F (fa i) q) h)%R with (fun q => u q * ip (F (fa i) q) h)%R in B0. change (fun q => ip (F (fb i) q) f * ip (F (fb i) q) h)%R with (fun q => v q * ip (F (fb i) q) h)%R in B0.
    rewrite <- Rmult_plus_distr_l. replace (total p (fun q => u q * ip (F (fa i) q) h) + total p (fun q => v q * ip (F (fb i) q) h))%R with 0%R by (unfold Rdiv in B0; lra). ring. }
  assert (H0 := total_sq_zero n h HZ).
  assert (SQ : (total p (fun q => u q ^ 2) + total p (fun q => v q ^ 2))%R = 0%R).
  { assert (T0 : total n (fun r => h r * f r)%R = 0%R) by (rewrite (total_ext n _ (fun _ => 0%R)) by (intros; rewrite H0 by auto; ring); apply total_zero).
    rewrite HH in T0. assert (Q : forall e, total p (fun q => total n (fun r => F e q r * f r) * ip (F e q) f)%R = (INR n * total p (fun q => ip (F e q) f ^ 2))%R).
    { intros e. rewrite <- total_scal. apply total_ext. intros q' _. unfold ip. field. auto. }
    unfold u at 1, v at 1 in T0. rewrite !Q in T0. rewrite <- Rmult_plus_distr_l in T0. apply Rmult_integral in T0 as [T0|T0]; [contradiction|exact T0]. }
  assert (U : (0 <= total p (fun q => u q ^ 2))%R) by (apply total_nonneg; intros; apply pow2_ge_0). assert (V : (0 <= total p (fun q => v q ^ 2))%R) by (apply total_nonneg; intros; apply pow2_ge_0).
  assert (G : forall e, ip (F e q) f = 0%R -> total n (fun r => F e q r * f r)%R = 0%R).
  { intros e Z. unfold ip in Z. apply (f_equal (fun t => t * INR n)%R) in Z. unfold Rdiv in Z. rewrite Rmult_assoc, Rinv_l, Rmult_1_r, Rmult_0_l in Z by auto. exact Z. }
  split; apply G; [apply (total_sq_zero p u ltac:(lra) q Hq)|apply (total_sq_zero p v ltac:(lra) q Hq)].
Qed.
End Orthogonal.
