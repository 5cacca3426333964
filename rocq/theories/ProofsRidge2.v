(** * Backfitting descends to the penalised least squares fit. *)
From Coq Require Import Reals List Arith Bool Lia Lra Psatz.
From Verif Require Import Base Arrays ListFacts ModelScale Stats Sums ModelHdmr SpecRidge ProofsHdmr3 ProofsRidge.
Import ListNotations.
Local Open Scope nat_scope.

Lemma Rsum_cons : forall x l, Rsum (x :: l) = (x + Rsum l)%R.
Proof. reflexivity. Qed.
Lemma Rsum_prod : forall A B (f : A * B -> R) l m, Rsum (map f (list_prod l m)) = Rsum (map (fun a => Rsum (map (fun b => f (a, b)) m)) l).
Proof.
  induction l as [|a l IH]; intros m; simpl; auto. rewrite map_app, Rsum_app, IH, map_map. reflexivity.
Qed.
Lemma total_ext : forall n f g, (forall i, i < n -> f i = g i) -> total n f = total n g.
Proof. intros n f g H. apply Rsum_ext. intros i Hi. apply in_seq in Hi. apply H. lia. Qed.
Lemma total_swap : forall n k f, total n (fun i => total k (f i)) = total k (fun j => total n (fun i => f i j)).
Proof. intros. apply Rsum_exchange. Qed.
Lemma total_scal : forall n c f, total n (fun i => c * f i)%R = (c * total n f)%R.
Proof. intros. apply Rsum_map_scal. Qed.
Lemma total_plus : forall n f g, total n (fun i => f i + g i)%R = (total n f + total n g)%R.
Proof. intros. apply Rsum_map_plus. Qed.
Lemma total_split : forall n j g, j < n -> total n g = (g j + total n (fun z => if j =? z then 0 else g z))%R.
Proof.
  intros n j g. unfold total. intros H.
  assert (X : forall k a, (a <= j < a + k -> (Rsum (map g (seq a k)) = g j + Rsum (map (fun z => if j =? z then 0 else g z) (seq a k)))%R) /\
                          (j < a \/ a + k <= j -> (Rsum (map g (seq a k)) = Rsum (map (fun z => if j =? z then 0 else g z) (seq a k)))%R)).
  { induction k as [|k IH]; intros a; simpl; split; intros Ha; try lia; auto.
    - destruct (Nat.eqb_spec j a) as [->|NE].
      + rewrite (proj2 (IH (S a))) by lia. lra.
      + rewrite (proj1 (IH (S a))) by lia. lra.
    - destruct (Nat.eqb_spec j a) as [->|NE]; [lia|]. rewrite (proj2 (IH (S a))) by lia. reflexivity. }
  apply X. lia.
Qed.
Lemma total_delta : forall n j v, j < n -> total n (fun l => (if j =? l then v l else 0))%R = v j.
Proof.
  intros n j v H. rewrite (total_split n j) by auto. rewrite Nat.eqb_refl. rewrite (total_ext _ _ (fun _ => 0 * 0)%R).
  - unfold total. rewrite (Rsum_map_scal _ (fun _ => 0%R)). lra.
  - intros i _. destruct (j =? i); lra.
Qed.

Lemma dot_total : forall a b, length a = length b -> dot a b = total (length a) (fun i => nth i a 0 * nth i b 0)%R.
Proof.
  unfold dot, total. induction a as [|x a IH]; intros [|z b] L; try discriminate; [reflexivity|]. injection L as L.
  cbn [map2 length seq map nth]. rewrite <- seq_shift, map_map. simpl. f_equal. apply IH; auto.
Qed.
Lemma nth_matvec : forall n m M v i, table n m M -> length v = m -> i < n -> nth i (matvec M v) 0%R = total m (fun l => at2 M i l * nth l v 0)%R.
Proof.
  intros n m M v i (L & H) LV Hi. unfold matvec. rewrite (nth_indep _ 0%R (dot [] v)) by (rewrite map_length; lia). rewrite (map_nth (fun r => dot r v)).
  assert (R1 : length (nth i M []) = m) by (apply H, nth_In; lia). rewrite dot_total by lia. rewrite R1. reflexivity.
Qed.
Lemma nth_vsub : forall a b i, i < length a -> i < length b -> nth i (vsub a b) 0%R = (nth i a 0 - nth i b 0)%R.
Proof.
  induction a as [|x a IH]; intros [|z b] [|i] H1 H2; cbn in *; try lia; auto. apply IH; lia.
Qed.
Lemma nth_updated : forall A (l : list A) j v d z, j < length l -> nth z (update l j v) d = if j =? z then v else nth z l d.
Proof.
  induction l as [|x l IH]; intros [|j] v d [|z] H; cbn in *; try lia; auto. apply IH. lia.
Qed.

Section Fit.
Variables (n m : nat) (B1 T1 : list (list (list R))) (y : list R) (lam : R).
Notation D := (length B1).
Hypothesis HB : forall z, z < D -> table n m (nth z B1 []).
Hypothesis HT : forall z, z < D -> ridge_solution n m (nth z B1 []) lam (nth z T1 []).
Hypothesis HY : length y = n.

Definition ks := list_prod (seq 0 D) (seq 0 m).
Definition rs := seq 0 n.
Definition bb (r : nat) (k : nat * nat) : R := at3 B1 (fst k) r (snd k).
Definition yy (r : nat) : R := nth r y 0%R.
Definition co (C : list (list R)) (k : nat * nat) : R := at2 C (fst k) (snd k).
Definition term (C : list (list R)) (r z : nat) : R := total m (fun i => at3 B1 z r i * at2 C z i)%R.

Lemma predicted_fit : forall C r, predicted m B1 C r = fitK _ _ ks bb (co C) r.
Proof. intros. unfold fitK, ks. rewrite Rsum_prod. reflexivity. Qed.
Lemma objective_obj : forall C, objective m B1 y lam C = objK _ _ rs ks bb yy lam (co C).
Proof.
  intros. unfold objective, objK. rewrite HY. f_equal.
  - unfold total, rs. apply Rsum_ext. intros. rewrite predicted_fit. reflexivity.
  - f_equal. unfold ks. rewrite Rsum_prod. reflexivity.
Qed.
Lemma gram_gram : gram_squares m n B1 = gramK _ _ rs ks bb.
Proof.
  unfold gramK, ks. rewrite Rsum_prod. unfold gram_squares, total. apply Rsum_ext. intros z _. apply Rsum_ext. intros i _.
  rewrite Rsum_prod. reflexivity.
Qed.

Lemma without_nth : forall zs C j r y0, (forall z, In z zs -> z < D) -> length C = D -> (forall z, z < D -> length (nth z C []) = m) -> length y0 = n -> r < n ->
  length (fold_left (fun y z => if j =? z then y else vsub y (matvec (nth z B1 []) (nth z C []))) zs y0) = n /\
  (nth r (fold_left (fun y z => if j =? z then y else vsub y (matvec (nth z B1 []) (nth z C []))) zs y0) 0
   = nth r y0 0 - Rsum (map (fun z => if j =? z then 0 else term C r z) zs))%R.
Proof.
  induction zs as [|z zs IH]; intros C j r y0 Hz LC HC L0 Hr; cbn [fold_left].
  - split; auto. simpl. lra.
  - assert (Z : z < D) by (apply Hz; left; auto). destruct (HB z Z) as (LB & RB).
    destruct (Nat.eqb_spec j z) as [E|E].
    + destruct (IH C j r y0) as (I1 & I2); auto; [intros; apply Hz; right; auto|]. split; auto. rewrite I2. cbn [map]. rewrite Rsum_cons. destruct (Nat.eqb_spec j z); [|congruence]. lra.
    + assert (LM : length (matvec (nth z B1 []) (nth z C [])) = n) by (rewrite length_matvec; auto).
      assert (LV : length (vsub y0 (matvec (nth z B1 []) (nth z C []))) = n) by (unfold vsub; rewrite length_map2, LM, L0; lia).
      destruct (IH C j r (vsub y0 (matvec (nth z B1 []) (nth z C [])))) as (I1 & I2); auto; [intros; apply Hz; right; auto|]. split; auto. rewrite I2.
      rewrite nth_vsub by lia. rewrite (nth_matvec n m) by (auto; split; auto). cbn [map]. rewrite Rsum_cons. destruct (Nat.eqb_spec j z); [congruence|]. change (term C r z) with (total m (fun l => at2 (nth z B1 []) r l * nth l (nth z C []) 0)%R). lra.
Qed.

Lemma without_length : forall zs C j y0, (forall z, In z zs -> z < D) -> length y0 = n ->
  length (fold_left (fun y z => if j =? z then y else vsub y (matvec (nth z B1 []) (nth z C []))) zs y0) = n.
Proof.
  induction zs as [|z zs IH]; intros C j y0 Hz L0; auto. cbn [fold_left]. apply IH; [intros; apply Hz; right; auto|]. destruct (j =? z); auto.
  unfold vsub. rewrite length_map2, length_matvec. rewrite (proj1 (HB z (Hz z (or_introl eq_refl)))). lia.
Qed.

(** Coefficients of the right shape. *)
Definition shaped (C : list (list R)) : Prop := length C = D /\ forall z, z < D -> length (nth z C []) = m.

Definition new_block (C : list (list R)) (j : nat) : list R := matvec (nth j T1 []) (without_others B1 y C j).

Lemma step_shaped : forall C j, shaped C -> j < D -> shaped (update C j (new_block C j)).
Proof.
  intros C j (LC & HC) Hj. split; [rewrite length_update; auto|]. intros z Hz. rewrite nth_updated by lia. destruct (Nat.eqb_spec j z); auto.
  unfold new_block. rewrite length_matvec. apply (HT j Hj).
Qed.

(** The update solves the normal equations of its block. *)
Lemma step_half : forall C j i, shaped C -> j < D -> i < m -> half _ _ rs ks bb yy lam (co (update C j (new_block C j))) (j, i) = 0%R.
Proof.
  intros C j i (LC & HC) Hj Hi. set (v := new_block C j). set (C' := update C j v). destruct (HT j Hj) as (HTt & HTe). destruct (HB j Hj) as (LB & RB).
  set (w := fun r => (yy r - total D (fun z => if j =? z then 0 else term C r z))%R).
  assert (W : forall r, r < n -> nth r (without_others B1 y C j) 0%R = w r).
  { intros r Hr. unfold without_others. apply (without_nth (seq 0 D) C j r y); auto. intros z Hz. apply in_seq in Hz. lia. }
  assert (LW : length (without_others B1 y C j) = n).
  { unfold without_others. apply without_length; auto. intros z Hz. apply in_seq in Hz. lia. }
  assert (V : forall l, l < m -> nth l v 0%R = total n (fun r => at2 (nth j T1 []) l r * w r)%R).
  { intros l Hl. unfold v, new_block. rewrite (nth_matvec m n) by auto. apply total_ext. intros r Hr. rewrite W; auto. }
  assert (CO : forall z l, at2 C' z l = if j =? z then nth l v 0%R else at2 C z l).
  { intros z l. unfold at2, C'. rewrite nth_updated by lia. destruct (j =? z); auto. }
  assert (FT : forall r, r < n -> (yy r - fitK _ _ ks bb (co C') r = w r - total m (fun l => at3 B1 j r l * nth l v 0))%R).
  { intros r Hr. rewrite <- predicted_fit. unfold predicted. rewrite (total_split D j) by auto. unfold w.
    rewrite (total_ext m (fun i0 => at3 B1 j r i0 * at2 C' j i0)%R (fun l => at3 B1 j r l * nth l v 0)%R) by (intros; rewrite CO, Nat.eqb_refl; auto).
    rewrite (total_ext D (fun z => if j =? z then 0%R else total m (fun i0 => at3 B1 z r i0 * at2 C' z i0)%R) (fun z => if j =? z then 0%R else term C r z)).
    - ring.
    - intros z Hz. destruct (Nat.eqb_spec j z); auto. apply total_ext. intros l Hl. rewrite CO. destruct (Nat.eqb_spec j z); congruence. }
  unfold half. rewrite (Rsum_ext _ (fun r => bb r (j, i) * (yy r - fitK _ _ ks bb (co C') r))%R
    (fun r => at3 B1 j r i * w r + (-1) * (at3 B1 j r i * total m (fun l => at3 B1 j r l * nth l v 0)))%R).
  2: { intros r Hr. apply in_seq in Hr. rewrite FT by lia. unfold bb. cbn [fst snd]. ring. }
  change (Rsum (map ?f rs)) with (total n f). rewrite total_plus, total_scal.
  unfold co. cbn [fst snd]. rewrite CO, Nat.eqb_refl.
  assert (N1 : total n (fun r => at3 B1 j r i * w r)%R = (total n (fun r => at3 B1 j r i * total m (fun l => at3 B1 j r l * nth l v 0)) + lam * nth i v 0)%R).
  { rewrite (total_ext n (fun r => at3 B1 j r i * w r)%R
      (fun r => total m (fun l => (total n (fun s => at3 B1 j s i * at3 B1 j s l) + (if i =? l then lam else 0)) * at2 (nth j T1 []) l r * w r))%R).
    2: { intros r Hr. unfold at3 at 1. rewrite <- (HTe i r Hi Hr). rewrite Rmult_comm, <- total_scal. apply total_ext. intros l Hl. unfold at3. ring. }
    rewrite total_swap.
    rewrite (total_ext m _ (fun l => total n (fun s => at3 B1 j s i * (at3 B1 j s l * nth l v 0)) + (if i =? l then lam * nth l v 0 else 0))%R).
    2: { intros l Hl. rewrite (total_ext n _ (fun r => (total n (fun s => at3 B1 j s i * at3 B1 j s l) + (if i =? l then lam else 0)) * (at2 (nth j T1 []) l r * w r))%R) by (intros; ring).
         rewrite total_scal, <- V by auto. rewrite Rmult_plus_distr_r. f_equal.
         - rewrite Rmult_comm, <- total_scal. apply total_ext. intros; ring.
         - destruct (i =? l); ring. }
    rewrite total_plus, (total_delta m i (fun l => lam * nth l v 0)%R) by auto. f_equal. rewrite <- total_swap. apply total_ext. intros s Hs. rewrite total_scal. reflexivity. }
  rewrite N1. ring.
Qed.

(** ** A pass *)
Definition steps (js : list nat) (C : list (list R)) : list (list R) := fold_left (fun C j => update C j (new_block C j)) js C.
Lemma pass_steps : forall C, backfit_pass B1 T1 y C = steps (seq 0 D) C.
Proof. reflexivity. Qed.

Lemma steps_shaped : forall js C, shaped C -> (forall j, In j js -> j < D) -> shaped (steps js C).
Proof.
  induction js as [|j js IH]; intros C H Hj; auto. cbn. apply IH; [apply step_shaped; auto; apply Hj; left; auto|intros; apply Hj; right; auto].
Qed.
Lemma steps_other : forall js C z, shaped C -> (forall j, In j js -> j < D) -> ~ In z js -> nth z (steps js C) [] = nth z C [].
Proof.
  induction js as [|j js IH]; intros C z H Hj NI; auto. cbn. rewrite IH.
  - rewrite nth_updated by (rewrite (proj1 H); apply Hj; left; auto). destruct (Nat.eqb_spec j z) as [->|]; auto. destruct NI; left; auto.
  - apply step_shaped; auto. apply Hj; left; auto.
  - intros; apply Hj; right; auto.
  - intros X; apply NI; right; auto.
Qed.

Lemma in_ks : forall z i, In (z, i) ks <-> z < D /\ i < m.
Proof.
  clear HB HT HY. intros. unfold ks. rewrite in_prod_iff, !in_seq. lia.
Qed.

Lemma step_descends : forall C j, shaped C -> j < D ->
  (lam * normK _ ks (fun k => co C k - co (update C j (new_block C j)) k) <= objective m B1 y lam C - objective m B1 y lam (update C j (new_block C j)))%R.
Proof.
  intros C j H Hj. rewrite !objective_obj. rewrite (step_gain _ _ rs ks bb yy lam (co C) (co (update C j (new_block C j)))).
  - pose proof (sq_nonneg _ (fitK _ _ ks bb (fun k => co C k - co (update C j (new_block C j)) k)%R) rs). lra.
  - intros (z, i) Hk. apply in_ks in Hk. unfold co at 1 2. unfold at2. cbn [fst snd]. rewrite nth_updated by (rewrite (proj1 H); auto).
    destruct (Nat.eqb_spec j z) as [->|]; [right|left; auto]. apply step_half; tauto.
Qed.

(** The change of the whole pass is the sum of the changes of its steps. *)
Lemma steps_descend : forall js C, NoDup js -> shaped C -> (forall j, In j js -> j < D) ->
  (lam * normK _ ks (fun k => co C k - co (steps js C) k) <= objective m B1 y lam C - objective m B1 y lam (steps js C))%R.
Proof.
  induction js as [|j js IH]; intros C ND H Hj.
  - change (steps [] C) with C. unfold normK. rewrite (Rsum_ext _ _ (fun _ => 0 * 0)%R) by (intros; ring). rewrite (Rsum_map_scal _ (fun _ => 0%R)). lra.
  - apply NoDup_cons_iff in ND as (NI & ND'). assert (J : j < D) by (apply Hj; left; auto). set (C2 := update C j (new_block C j)).
    assert (H2 : shaped C2) by (apply step_shaped; auto).
    pose proof (step_descends C j H J) as S1. fold C2 in S1.
    pose proof (IH C2 ND' H2 (fun i Hi => Hj i (or_intror Hi))) as S2. change (steps (j :: js) C) with (steps js C2).
    assert (E : normK _ ks (fun k => co C k - co (steps js C2) k)%R = (normK _ ks (fun k => co C k - co C2 k) + normK _ ks (fun k => co C2 k - co (steps js C2) k))%R).
    { unfold normK. rewrite <- Rsum_map_plus. apply Rsum_ext. intros (z, i) _. unfold co, at2. cbn [fst snd]. destruct (Nat.eq_dec j z) as [<-|NE].
      - rewrite (steps_other js C2 j) by (auto; intros; apply Hj; right; auto). ring.
      - assert (X : nth z C2 [] = nth z C []). { unfold C2. rewrite nth_updated by (rewrite (proj1 H); auto). destruct (Nat.eqb_spec j z); congruence. }
        rewrite X. ring. }
    rewrite E. lra.
Qed.

Lemma steps_app : forall a b C, steps (a ++ b) C = steps b (steps a C).
Proof. intros. unfold steps. apply fold_left_app. Qed.

(** When coefficient block [j] was updated, the blocks before it were new and those after it old. *)
Lemma pass_states : forall C z i, shaped C -> z < D -> i < m -> let C' := backfit_pass B1 T1 y C in
  exists S, shaped S /\ nth z S [] = nth z C' [] /\ half _ _ rs ks bb yy lam (co S) (z, i) = 0%R /\
    forall l, l < D -> nth l S [] = nth l C' [] \/ nth l S [] = nth l C [].
Proof.
  intros C z i H Hz Hi C'. unfold C'. rewrite pass_steps.
  assert (SP : seq 0 D = seq 0 z ++ z :: seq (S z) (D - S z)).
  { replace D with (z + S (D - S z)) at 1 by lia. rewrite seq_app. reflexivity. }
  rewrite SP, steps_app. set (C1 := steps (seq 0 z) C). assert (H1 : shaped C1).
  { apply steps_shaped; auto. intros j Hj. apply in_seq in Hj. lia. }
  change (steps (z :: seq (S z) (D - S z)) C1) with (steps (seq (S z) (D - S z)) (update C1 z (new_block C1 z))).
  set (C2 := update C1 z (new_block C1 z)). assert (H2 : shaped C2) by (apply step_shaped; auto).
  assert (R2 : forall j, In j (seq (S z) (D - S z)) -> j < D) by (intros j Hj; apply in_seq in Hj; lia).
  exists C2. split; [auto|]. split; [|split].
  - symmetry. apply steps_other; auto. intros X. apply in_seq in X. lia.
  - apply step_half; auto.
  - intros l Hl. destruct (Nat.le_gt_cases l z).
    + left. symmetry. apply steps_other; auto. intros X. apply in_seq in X. lia.
    + right. unfold C2. rewrite nth_updated by (rewrite (proj1 H1); auto). destruct (Nat.eqb_spec z l); [lia|]. apply steps_other; auto.
      * intros j Hj. apply in_seq in Hj. lia.
      * intros X. apply in_seq in X. lia.
Qed.

(** A pass never increases the objective; it contracts the distance to any competitor. *)
Lemma pass_shaped : forall C, shaped C -> shaped (backfit_pass B1 T1 y C).
Proof. intros. rewrite pass_steps. apply steps_shaped; auto. intros j Hj. apply in_seq in Hj. lia. Qed.
Lemma pass_descends : forall C, (0 <= lam)%R -> shaped C -> (objective m B1 y lam (backfit_pass B1 T1 y C) <= objective m B1 y lam C)%R.
Proof.
  intros C L H. rewrite pass_steps. pose proof (steps_descend (seq 0 D) C (seq_NoDup _ _) H) as S1.
  pose proof (normK_nonneg _ ks (fun k => co C k - co (steps (seq 0 D) C) k)%R).
  assert (forall j, In j (seq 0 D) -> j < D) by (intros j Hj; apply in_seq in Hj; lia). specialize (S1 H1). nra.
Qed.
Lemma pass_contracts : forall C E, (0 < lam)%R -> shaped C ->
  (objective m B1 y lam (backfit_pass B1 T1 y C) - objective m B1 y lam E
   <= gram_squares m n B1 / (gram_squares m n B1 + lam ^ 2) * (objective m B1 y lam C - objective m B1 y lam E))%R.
Proof.
  intros C E L H. rewrite gram_gram, !objective_obj. apply sweep_gap; auto.
  - intros (z, i) Hk. apply in_ks in Hk as (Hz & Hi). destruct (pass_states C z i H Hz Hi) as (S & _ & E1 & E2 & E3). exists (co S).
    split; [unfold co, at2; cbn [fst snd]; rewrite E1; auto|]. split; [exact E2|]. intros (l, i') Hl. apply in_ks in Hl as (Hl & _).
    unfold co, at2. cbn [fst snd]. destruct (E3 l Hl) as [-> | ->]; auto.
  - rewrite <- !objective_obj, pass_steps. apply steps_descend; auto; [apply seq_NoDup|]. intros j Hj. apply in_seq in Hj. lia.
Qed.
(** A fixed point is a joint minimiser. *)
Lemma fixed_minimal : forall C, (0 <= lam)%R -> shaped C -> backfit_pass B1 T1 y C = C -> forall E, (objective m B1 y lam C <= objective m B1 y lam E)%R.
Proof.
  intros C L H F E. rewrite !objective_obj. apply stationary_minimal; auto. intros (z, i) Hk. apply in_ks in Hk as (Hz & Hi).
  destruct (pass_states C z i H Hz Hi) as (S & HS & E1 & E2 & E3). rewrite F in E3. rewrite <- E2. apply half_ext; [apply in_ks; auto|].
  intros (l, i') Hl. apply in_ks in Hl as (Hl & _). unfold co, at2. cbn [fst snd]. destruct (E3 l Hl) as [-> | ->]; auto.
Qed.

(** ** The loop *)
Definition passes (k : nat) (C : list (list R)) : list (list R) := Nat.iter k (backfit_pass B1 T1 y) C.
Lemma passes_shaped : forall k C, shaped C -> shaped (passes k C).
Proof. induction k; intros; auto. cbn. apply pass_shaped, IHk; auto. Qed.
Lemma passes_contract : forall k C E, (0 < lam)%R -> shaped C ->
  (objective m B1 y lam (passes k C) - objective m B1 y lam E
   <= (gram_squares m n B1 / (gram_squares m n B1 + lam ^ 2)) ^ k * (objective m B1 y lam C - objective m B1 y lam E))%R.
Proof.
  intros k C E L H. induction k as [|k IH]; [cbn; lra|]. change (passes (S k) C) with (backfit_pass B1 T1 y (passes k C)).
  eapply Rle_trans; [apply pass_contracts; auto; apply passes_shaped; auto|]. cbn [pow]. rewrite Rmult_assoc. apply Rmult_le_compat_l; auto.
  assert (G : (0 <= gram_squares m n B1)%R). { rewrite gram_gram. apply Rsum_nonneg. intros x Hx. apply in_map_iff in Hx as (a & <- & _). apply sq_nonneg. }
  assert (0 < lam ^ 2)%R by nra. apply Rmult_le_pos; [auto|]. left. apply Rinv_0_lt_compat. lra.
Qed.
Lemma passes_descend : forall k C, (0 <= lam)%R -> shaped C -> (objective m B1 y lam (passes k C) <= objective m B1 y lam C)%R.
Proof.
  intros k C L H. induction k as [|k IH]; [cbn; lra|]. change (passes (S k) C) with (backfit_pass B1 T1 y (passes k C)).
  eapply Rle_trans; [apply pass_descends; auto; apply passes_shaped; auto|]. auto.
Qed.

Lemma iter_swap : forall A (f : A -> A) k x, Nat.iter (S k) f x = Nat.iter k f (f x).
Proof. intros. induction k; auto. cbn in *. rewrite IHk. auto. Qed.

(** The loop makes some number of passes; it stops at the given number or when the sums of squares have settled. *)
Lemma loop_passes : forall N vm C, exists k, k <= N /\ backfit B1 T1 y N vm (map sumsq C) C = passes k C /\
  (k < N -> (k = 0 /\ (vm <= 1 / 1000)%R) \/
            (0 < k /\ (maxl (map Rabs (vsub (map sumsq (passes k C)) (map sumsq (passes (k - 1) C)))) <= 1 / 1000)%R)).
Proof.
  induction N as [|N IH]; intros vm C; [exists 0; split; [lia|]; split; [reflexivity|lia]|]. cbn [backfit]. unfold Rltb.
  destruct (Rlt_dec (1 / 1000) vm) as [H|H].
  - set (C2 := backfit_pass B1 T1 y C). destruct (IH (maxl (map Rabs (vsub (map sumsq C2) (map sumsq C)))) C2) as (k & K1 & K2 & K3).
    exists (S k). split; [lia|]. unfold passes in *. rewrite iter_swap. fold C2. split; [exact K2|]. intros K. right. split; [lia|].
    destruct K3 as [(-> & V)|(KP & V)]; [lia| |].
    + exact V.
    + replace (S k - 1) with (S (k - 1)) by lia. rewrite iter_swap. fold C2. exact V.
  - exists 0. split; [lia|]. split; [reflexivity|]. intros _. left. split; auto. lra.
Qed.
End Fit.
