(** * The Oakley-O'Hagan function as a form, and its indices. *)
From Coq Require Import Reals List Arith Lia Lra Psatz.
From Coquelicot Require Import Coquelicot.
From Verif Require Import Base Stats ModelOakley SpecOakley ProofsOakley ProofsOakley2 ProofsOakley3.
Import ListNotations.
Local Open Scope R_scope.

Definition dotR (a b : list R) : R := Rsum (map2 Rmult a b).
Definition rect (n : nat) (M : list (list R)) : Prop := length M = n /\ List.Forall (fun r => length r = n) M.

Fixpoint oform (a1 a2 a3 : list R) (M : list (list R)) : form :=
  match a1, a2, a3, M with
  | p :: a1', q :: a2', r :: a3', (m :: row) :: M' =>
      (hpart p q r m, map2 Rplus row (map (hd 0) M')) :: oform a1' a2' a3' (map (@tl R) M')
  | _, _, _, _ => []
  end.

Lemma matvec_ok : forall a b, length a = length b -> matvec a b = Ok (dotR a b).
Proof. intros a b H. unfold matvec. rewrite H, Nat.eqb_refl. reflexivity. Qed.

Lemma row_dots : forall n a1 a2 a3 M x, length a1 = n -> length a2 = n -> length a3 = n -> rect n M -> length x = n ->
  oakley_row a1 a2 a3 M x = Ok (dotR a1 x + dotR a2 (map sin x) + dotR a3 (map cos x) + dotR x (map (fun m => dotR m x) M)).
Proof.
  intros n a1 a2 a3 M x H1 H2 H3 [HM HF] HX. unfold oakley_row.
  rewrite !matvec_ok by (rewrite ?map_length; congruence). cbn [bind].
  assert (E : mapM (fun m => matvec m x) M = Ok (map (fun m => dotR m x) M)).
  { clear HM. induction HF as [|r M HR HF IH]; [reflexivity|]. cbn [mapM map]. rewrite matvec_ok by congruence. cbn [bind]. rewrite IH. reflexivity. }
  rewrite E. cbn [bind]. rewrite matvec_ok by (rewrite map_length; congruence). reflexivity.
Qed.

Lemma rect_tail : forall n m row M, rect (S n) ((m :: row) :: M) -> rect n (map (@tl R) M) /\ length row = n /\ length M = n.
Proof.
  intros n m row M [H F]. inversion F as [|? ? HR HF]; subst. simpl in *. injection H as H. injection HR as HR. split; [|auto]. split; [rewrite map_length; auto|].
  clear - HF. induction HF as [|r M Hr HF IH]; constructor; auto. destruct r; simpl in *; lia.
Qed.

Lemma dot_plus : forall a b x, length a = length x -> length b = length x -> dotR (map2 Rplus a b) x = dotR a x + dotR b x.
Proof. unfold dotR. induction a as [|u a IH]; intros [|v b] [|y x]; simpl; intros; try discriminate; [ring|]. rewrite IH by lia. ring. Qed.

Lemma dot_columns : forall y x n M v, List.Forall (fun r => length r = S n) M -> length v = length M ->
  dotR v (map (fun r => dotR r (y :: x)) M) = y * dotR (map (hd 0) M) v + dotR v (map (fun r => dotR r x) (map (@tl R) M)).
Proof.
  unfold dotR. intros y x n M v F. revert v. induction F as [|r M HR F IH]; intros [|u v]; simpl; intros; try discriminate; [ring|].
  rewrite IH by lia. destruct r as [|h r]; [discriminate|]. simpl. ring.
Qed.

Lemma feval_oform : forall n a1 a2 a3 M x, length a1 = n -> length a2 = n -> length a3 = n -> rect n M -> length x = n ->
  dotR a1 x + dotR a2 (map sin x) + dotR a3 (map cos x) + dotR x (map (fun m => dotR m x) M) = feval (oform a1 a2 a3 M) x.
Proof.
  induction n as [|n IH]; intros [|p a1] [|q a2] [|r a3] M [|y x] H1 H2 H3 HM HX; try discriminate.
  - destruct HM as [HM _]. destruct M; [|discriminate]. unfold dotR. simpl. ring.
  - destruct M as [|[|m row] M]; [destruct HM; discriminate|destruct HM as [_ F]; inversion F; discriminate|].
    destruct (rect_tail n m row M HM) as (HT & HR & HL). destruct HM as [_ F]. inversion F as [|? ? _ HF]; subst.
    simpl in *. injection H1 as H1. injection H2 as H2. injection H3 as H3. injection HX as HX.
    rewrite <- (IH a1 a2 a3 (map (@tl R) M) x) by auto.
    change (Rsum (map2 Rmult (map2 Rplus row (map (hd 0) M)) x)) with (dotR (map2 Rplus row (map (hd 0) M)) x).
    rewrite dot_plus by (rewrite ?map_length; congruence).
    unfold dotR at 1 2 3 4. cbn [map2 map]. rewrite !rsum_cons. fold (dotR a1 x) (dotR a2 (map sin x)) (dotR a3 (map cos x)).
    change (Rsum (map2 Rmult x (map (fun m => dotR m (y :: x)) M))) with (dotR x (map (fun m => dotR m (y :: x)) M)).
    rewrite (dot_columns y x (length row) M x) by (auto; congruence).
    unfold dotR at 4. cbn [map2]. rewrite rsum_cons. fold (dotR row x). unfold hpart. ring.
Qed.

Lemma oform_wf : forall n a1 a2 a3 M, length a1 = n -> length a2 = n -> length a3 = n -> rect n M ->
  wf (oform a1 a2 a3 M) /\ length (oform a1 a2 a3 M) = n.
Proof.
  induction n as [|n IH]; intros [|p a1] [|q a2] [|r a3] M H1 H2 H3 HM; try discriminate; [simpl; auto|].
  destruct M as [|[|m row] M]; [destruct HM; discriminate|destruct HM as [_ F]; inversion F; discriminate|].
  destruct (rect_tail n m row M HM) as (HT & HR & HL). simpl in *.
  destruct (IH a1 a2 a3 (map (@tl R) M)) as [W L]; auto. rewrite L. split; auto. split; [apply hpart_cont|]. split; auto.
  rewrite length_map2, map_length. lia.
Qed.

Lemma entry_tl : forall n M i j, List.Forall (fun r => length r = S n) M -> (i < length M)%nat -> entry (map (@tl R) M) i j = entry M i (S j).
Proof.
  unfold entry. intros n M i j F. revert i. induction F as [|r M HR F IH]; intros [|i] L; simpl in *; try lia.
  - destruct r; [discriminate|]. reflexivity.
  - apply IH. lia.
Qed.

Lemma oform_nth : forall n a1 a2 a3 M i, length a1 = n -> length a2 = n -> length a3 = n -> rect n M -> (i < n)%nat ->
  exists bs, nth_error (oform a1 a2 a3 M) i = Some (hpart (nth i a1 0) (nth i a2 0) (nth i a3 0) (entry M i i), bs).
Proof.
  induction n as [|n IH]; intros [|p a1] [|q a2] [|r a3] M i H1 H2 H3 HM L; try discriminate; try lia.
  destruct M as [|[|m row] M]; [destruct HM; discriminate|destruct HM as [_ F]; inversion F; discriminate|].
  destruct (rect_tail n m row M HM) as (HT & HR & HL). destruct HM as [_ F]. inversion F as [|? ? _ HF]; subst. simpl in *.
  destruct i as [|i]; [eexists; reflexivity|].
  destruct (IH a1 a2 a3 (map (@tl R) M) i) as [bs B]; auto; try lia. exists bs. cbn [nth_error]. rewrite B. rewrite (entry_tl (length row)) by (auto; lia). reflexivity.
Qed.

Lemma over_shift : forall n f, over (S n) f = f 0%nat + over n (fun i => f (S i)).
Proof. intros. unfold over. simpl. rewrite <- seq_shift, map_map. reflexivity. Qed.
Lemma over_ext : forall n f g, (forall i, (i < n)%nat -> f i = g i) -> over n f = over n g.
Proof. intros n f g H. unfold over. f_equal. apply map_ext_in. intros i Hi. apply in_seq in Hi. apply H. lia. Qed.
Lemma over_plus : forall n f g, over n (fun i => f i + g i) = over n f + over n g.
Proof. induction n as [|n IH]; intros; [unfold over; simpl; ring|]. rewrite !over_shift, IH. ring. Qed.
Lemma over_pairs_shift : forall n f, over_pairs (S n) f = over n (fun j => f 0%nat (S j)) + over_pairs n (fun i j => f (S i) (S j)).
Proof.
  intros. unfold over_pairs. rewrite over_shift. rewrite (over_ext n _ (fun j => f 0%nat (S j) + over j (fun i => f (S i) (S j)))) by (intros; apply over_shift).
  rewrite over_plus. unfold over at 1. simpl. ring.
Qed.
Lemma over_pairs_ext : forall n f g, (forall i j, (i < j < n)%nat -> f i j = g i j) -> over_pairs n f = over_pairs n g.
Proof. intros n f g H. unfold over_pairs. apply over_ext. intros j Hj. apply over_ext. intros i Hi. apply H. lia. Qed.

Lemma rsum_over : forall l g n, length l = n -> (forall i, (i < n)%nat -> nth i l 0 = g i) -> Rsum l = over n g.
Proof.
  induction l as [|x l IH]; intros g n L H; subst n; [reflexivity|]. cbn [length]. rewrite over_shift, rsum_cons.
  rewrite <- (H 0%nat) by (simpl; lia). simpl. f_equal. apply (IH (fun i => g (S i))); auto. intros i Hi. rewrite <- H by (simpl; lia). reflexivity.
Qed.

Lemma oform_vars : forall E n a1 a2 a3 M, length a1 = n -> length a2 = n -> length a3 = n -> rect n M ->
  vars E (oform a1 a2 a3 M) = over n (fun i => avar E (hpart (nth i a1 0) (nth i a2 0) (nth i a3 0) (entry M i i))).
Proof.
  intros E n a1 a2 a3 M H1 H2 H3 HM. unfold vars. destruct (oform_wf n a1 a2 a3 M) as [_ L]; auto.
  apply rsum_over; [rewrite map_length; auto|]. intros i Hi. destruct (oform_nth n a1 a2 a3 M i) as [bs B]; auto.
  apply nth_error_nth. rewrite nth_error_map, B. reflexivity.
Qed.

Lemma nth_columns : forall row M i, length row = length M -> nth i (map2 Rplus row (map (hd 0) M)) 0 = nth i row 0 + entry M i 0.
Proof.
  unfold entry. induction row as [|x row IH]; intros [|r M] [|i] H; simpl in *; try discriminate; try ring.
  - destruct r; reflexivity.
  - apply IH. lia.
Qed.

Lemma squares_over : forall n row M, length row = n -> length M = n ->
  squares (map2 Rplus row (map (hd 0) M)) = over n (fun j => (nth j row 0 + entry M j 0) ^ 2).
Proof.
  intros n row M HR HL. unfold squares. apply rsum_over; [rewrite map_length, length_map2, map_length; lia|]. intros i Hi.
  rewrite (nth_indep _ 0 ((fun b => b ^ 2) 0)) by (rewrite map_length, length_map2, map_length; lia).
  rewrite (map_nth (fun b => b ^ 2)), nth_columns by congruence. reflexivity.
Qed.

Lemma oform_couplings : forall n a1 a2 a3 M, length a1 = n -> length a2 = n -> length a3 = n -> rect n M ->
  couplings (oform a1 a2 a3 M) = over_pairs n (fun i j => (entry M i j + entry M j i) ^ 2).
Proof.
  induction n as [|n IH]; intros [|p a1] [|q a2] [|r a3] M H1 H2 H3 HM; try discriminate; [reflexivity|].
  destruct M as [|[|m row] M]; [destruct HM; discriminate|destruct HM as [_ F]; inversion F; discriminate|].
  destruct (rect_tail n m row M HM) as (HT & HR & HL). destruct HM as [_ F]. inversion F as [|? ? _ HF]; subst. simpl in *.
  unfold couplings. cbn [map snd]. rewrite rsum_cons. fold (couplings (oform a1 a2 a3 (map (@tl R) M))).
  rewrite (IH a1 a2 a3 (map (@tl R) M)) by auto. rewrite over_pairs_shift. f_equal.
  - rewrite (squares_over (length row)) by auto. apply over_ext. intros j Hj. reflexivity.
  - apply over_pairs_ext. intros i j Hij. rewrite !(entry_tl (length row)) by (auto; lia). reflexivity.
Qed.

Definition oakley_value (a1 a2 a3 : list R) (M : list (list R)) (x : list R) : R :=
  match oakley_row a1 a2 a3 M x with Ok v => v | Err _ => 0 end.

Section Index.
Variable E : (R -> R) -> R.
Hypothesis E_ext : forall f g, (forall x, f x = g x) -> E f = E g.

Lemma first_order_ext : forall n f g i, (forall v, length v = n -> f v = g v) -> first_order E n f i = first_order E n g i.
Proof.
  intros n f g i H. unfold first_order, nvar, avar.
  assert (M : navg E n f = navg E n g) by (apply navg_ext; auto).
  assert (C : forall t, navg E n (fun v => f (update v i t)) = navg E n (fun v => g (update v i t))) by (intros t; apply navg_ext; auto; intros v Hv; apply H; rewrite length_update; auto).
  f_equal.
  - rewrite (E_ext (fun t => navg E n (fun v => f (update v i t))) _ C). apply E_ext. intros x. rewrite C. reflexivity.
  - rewrite M. apply navg_ext; auto. intros v Hv. rewrite H by auto. reflexivity.
Qed.

Hypothesis E_plus : forall f g, cont f -> cont g -> E (fun x => f x + g x) = E f + E g.
Hypothesis E_scal : forall c f, cont f -> E (fun x => c * f x) = c * E f.
Hypothesis E_one : E (fun _ => 1) = 1.
Hypothesis E_id : E (fun x => x) = 0.

Lemma oakley_index : forall n a1 a2 a3 M i f, length a1 = n -> length a2 = n -> length a3 = n -> rect n M -> (i < n)%nat ->
  (forall v, length v = n -> oakley_row a1 a2 a3 M v = Ok (f v)) ->
  first_order E n f i =
  avar E (hpart (nth i a1 0) (nth i a2 0) (nth i a3 0) (entry M i i))
  / (over n (fun i => avar E (hpart (nth i a1 0) (nth i a2 0) (nth i a3 0) (entry M i i))) + E (fun y => y ^ 2) ^ 2 * over_pairs n (fun i j => (entry M i j + entry M j i) ^ 2)).
Proof.
  intros n a1 a2 a3 M i f H1 H2 H3 HM Hi Hf. destruct (oform_wf n a1 a2 a3 M) as [W L]; auto. destruct (oform_nth n a1 a2 a3 M i) as [bs B]; auto.
  rewrite (first_order_ext n _ (feval (oform a1 a2 a3 M))).
  2:{ intros v Hv. specialize (Hf v Hv). rewrite (row_dots n) in Hf by auto. rewrite (feval_oform n) in Hf by auto. congruence. }
  rewrite <- L at 1. rewrite (first_order_form E E_ext E_plus E_scal E_one E_id (oform a1 a2 a3 M) i _ bs W B).
  rewrite (oform_vars E n), (oform_couplings n) by auto. f_equal. ring.
Qed.
End Index.

Lemma tends_over : forall n (f : nat -> R -> R) l, (forall i, (i < n)%nat -> tends (f i) (l i)) -> tends (fun a => over n (fun i => f i a)) (over n l).
Proof.
  induction n as [|n IH]; intros f l H; [apply tends_const|]. apply (tends_ext (fun a => f 0%nat a + over n (fun i => f (S i) a))).
  { intros a _. symmetry. apply (over_shift n (fun i => f i a)). }
  rewrite over_shift. apply tends_plus; [apply H; lia|]. apply IH. intros i Hi. apply H. lia.
Qed.

Lemma hvar_part : forall s p1 p2 p3 m, hvar s p1 p2 p3 m = normal_part s p1 p2 p3 m.
Proof.
  intros. unfold hvar, normal_part. replace (exp (- (s * s / 2)) ^ 2) with (exp (- s ^ 2)).
  - replace (s * s) with (s ^ 2) by ring. ring.
  - replace (exp (- (s * s / 2)) ^ 2) with (exp (- (s * s / 2)) * exp (- (s * s / 2))) by ring. rewrite <- exp_plus. f_equal. field.
Qed.

Lemma oakley_limit : forall s n a1 a2 a3 M i f, 0 < s -> length a1 = n -> length a2 = n -> length a3 = n -> rect n M -> (i < n)%nat ->
  (forall v, length v = n -> oakley_row a1 a2 a3 M v = Ok (f v)) ->
  over n (fun i => normal_part s (nth i a1 0) (nth i a2 0) (nth i a3 0) (entry M i i)) + s ^ 4 * over_pairs n (fun i j => (entry M i j + entry M j i) ^ 2) <> 0 ->
  normal_first_order s n f i
   (normal_part s (nth i a1 0) (nth i a2 0) (nth i a3 0) (entry M i i)
    / (over n (fun i => normal_part s (nth i a1 0) (nth i a2 0) (nth i a3 0) (entry M i i)) + s ^ 4 * over_pairs n (fun i j => (entry M i j + entry M j i) ^ 2))).
Proof.
  intros s n a1 a2 a3 M i f S H1 H2 H3 HM Hi Hf NZ. unfold normal_first_order.
  apply (tends_ext (fun a => avar (normal_avg s a) (hpart (nth i a1 0) (nth i a2 0) (nth i a3 0) (entry M i i))
    * / (over n (fun i => avar (normal_avg s a) (hpart (nth i a1 0) (nth i a2 0) (nth i a3 0) (entry M i i)))
         + (normal_avg s a (fun y => y ^ 2) * normal_avg s a (fun y => y ^ 2)) * over_pairs n (fun i j => (entry M i j + entry M j i) ^ 2)))).
  { intros a A. assert (AP : 0 < a) by lra.
    rewrite (oakley_index (normal_avg s a) (avg_ext s a) (avg_plus s S a AP) (avg_scal s S a AP) (avg_one s S a AP) (avg_id s S a AP) n a1 a2 a3 M i f) by auto.
    unfold Rdiv. f_equal. f_equal. f_equal. simpl. rewrite Rmult_1_r. reflexivity. }
  apply tends_mult.
  - rewrite <- hvar_part. apply tends_hvar; auto.
  - apply tends_inv; auto. apply tends_plus.
    + apply (tends_over n (fun i a => avar (normal_avg s a) (hpart (nth i a1 0) (nth i a2 0) (nth i a3 0) (entry M i i)))).
      intros j Hj. rewrite <- hvar_part. apply tends_hvar; auto.
    + apply tends_mult; [|apply tends_const]. replace (s ^ 4) with ((s * s) * (s * s)) by ring. apply tends_mult; apply tends_sq; auto.
Qed.

Lemma dot_over : forall a x n, length a = n -> length x = n -> dotR a x = over n (fun i => nth i a 0 * nth i x 0).
Proof.
  unfold dotR. intros a x n L1 L2. apply rsum_over; [rewrite length_map2; lia|]. intros i Hi. revert x n i L1 L2 Hi.
  induction a as [|u a IH]; intros [|y x] n i L1 L2 Hi; simpl in *; try lia. destruct i; simpl; auto. apply (IH x (pred n)); lia.
Qed.
Lemma over_factor : forall n f c, over n (fun i => c * f i) = c * over n f.
Proof. induction n as [|n IH]; intros; [unfold over; simpl; ring|]. rewrite !over_shift, IH. ring. Qed.

(** The value of the function, in sums over inputs and pairs. *)
Lemma oakley_sums : forall n a1 a2 a3 M x, length a1 = n -> length a2 = n -> length a3 = n -> rect n M -> length x = n ->
  oakley_row a1 a2 a3 M x =
  Ok (over n (fun i => nth i a1 0 * nth i x 0 + nth i a2 0 * sin (nth i x 0) + nth i a3 0 * cos (nth i x 0))
      + over n (fun i => over n (fun j => entry M i j * nth i x 0 * nth j x 0))).
Proof.
  intros n a1 a2 a3 M x H1 H2 H3 HM HX. rewrite (row_dots n) by auto. f_equal. destruct HM as [HL HF].
  rewrite (dot_over a1 x n), (dot_over a2 (map sin x) n), (dot_over a3 (map cos x) n), (dot_over x (map (fun m => dotR m x) M) n) by (rewrite ?map_length; auto).
  rewrite <- !over_plus. apply over_ext. intros i Hi. f_equal.
  - rewrite (nth_indep (map sin x) 0 (sin 0)), (nth_indep (map cos x) 0 (cos 0)), !map_nth by (rewrite map_length; lia). ring.
  - rewrite (nth_indep (map (fun m => dotR m x) M) 0 ((fun m => dotR m x) [])), (map_nth (fun m => dotR m x)) by (rewrite map_length; lia).
    rewrite (dot_over (nth i M []) x n); auto.
    + rewrite <- over_factor. apply over_ext. intros j Hj. unfold entry. ring.
    + rewrite Forall_forall in HF. apply HF. apply nth_In. lia.
Qed.

Lemma evaluate_rows : forall X a1 a2 a3 M, oakley_evaluate X [a1; a2; a3] M = mapM (oakley_row a1 a2 a3 M) X.
Proof. reflexivity. Qed.
