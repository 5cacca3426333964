(** * Forward errors of the Sobol' estimators in double precision. *)
From Coq Require Import Reals String List Arith ZArith Bool Lia Lra Psatz Permutation.
From Flocq Require Import Core.
From Verif Require Import Base Arrays ListFacts ModelScale Stats ModelSobol ModelDouble ModelDouble4 SpecError.
From Verif Require Import ProofsScale ProofsDouble ProofsDouble5 ProofsDouble10 ProofsDelta2 ProofsDouble13 ProofsError.
Import ListNotations.
Local Open Scope R_scope.

Lemma map2_positions : forall (f : R -> R -> R) X Y, length Y = length X ->
  map2 f X Y = map (fun i => f (nth i X 0) (nth i Y 0)) (seq 0 (length X)).
Proof.
  intros f X. induction X as [|x X IH]; intros [|y Y] L; try discriminate; auto.
  cbn [map2 length seq map nth]. f_equal. rewrite <- seq_shift, map_map. apply IH. simpl in L. lia.
Qed.
Lemma map_positions : forall X : list R, X = map (fun i => nth i X 0) (seq 0 (length X)).
Proof. induction X as [|x X IH]; auto. cbn [length seq map nth]. f_equal. rewrite <- seq_shift, map_map. auto. Qed.
Lemma map2_length' : forall (f : R -> R -> R) X Y, length Y = length X -> length (map2 f X Y) = length X.
Proof. intros. rewrite map2_positions by auto. rewrite map_length, seq_length. auto. Qed.
Lemma nth_positions : forall (f : nat -> R) n i, (i < n)%nat -> nth i (map f (seq 0 n)) 0 = f i.
Proof. intros f n i H. apply nth_error_nth. rewrite nth_error_map', nth_error_seq, (proj2 (Nat.ltb_lt _ _) H). auto. Qed.
Lemma nth_double : forall l i, List.Forall double l -> double (nth i l 0).
Proof. intros l i D. destruct (nth_in_or_default i l 0) as [H| ->]; [rewrite Forall_forall in D; auto|apply double_0]. Qed.
Lemma seq_ne : forall T (l : list T), l <> [] -> seq 0 (length l) <> [].
Proof. intros T [|x l] H; [congruence|discriminate]. Qed.

Lemma ptp_differs : forall l, List.Forall double l -> (exists x y, In x l /\ In y l /\ x <> y) -> Reqb (ptp_fl l) 0 = false.
Proof.
  intros l D (x & y & X & Y & N). destruct (Reqb (ptp_fl l) 0) eqn:E; auto. exfalso. apply Reqb_true in E.
  assert (NE : l <> []) by (intros ->; destruct X). unfold ptp_fl in E.
  destruct (minl_spec l NE) as (M1 & N1). destruct (maxl_spec l NE) as (M2 & N2). rewrite Forall_forall in D.
  pose proof (plus_err (maxl l) (- minl l) (D _ M2) (double_opp _ (D _ M1))) as F. change (maxl l + - minl l) with (maxl l - minl l) in F. rewrite E in F.
  pose proof u_small. pose proof (Rabs_pos (maxl l - minl l)). rewrite Rminus_0_l, Rabs_Ropp in F.
  assert (Z : maxl l - minl l = 0). { destruct (Req_dec (maxl l - minl l) 0) as [|K]; auto. apply Rabs_pos_lt in K. nra. }
  pose proof (N1 x X). pose proof (N1 y Y). pose proof (N2 x X). pose proof (N2 y Y). lra.
Qed.

Section Estimators.
Variable arr : nat -> tree.
Hypothesis A_ : arrangement arr.

Lemma fdiv_some : forall x l v, fdiv_fl x (var_fl arr l) = Some v -> 0 < var_fl arr l /\ v = fl (x / var_fl arr l).
Proof.
  intros x l v. unfold fdiv_fl. destruct (Reqb (var_fl arr l) 0) eqn:E; [discriminate|]. intros H. injection H as <-. split; auto.
  pose proof (var_pos arr l). apply Reqb_false in E. lra.
Qed.

Variables (A B : list R).
Hypothesis DA : List.Forall double A.
Hypothesis DB : List.Forall double B.
Hypothesis L : length B = length A.
Hypothesis differ : exists x y, In x (A ++ B) /\ In y (A ++ B) /\ x <> y.
Let V := var_fl arr (A ++ B).

Lemma not_flat : Reqb (ptp_fl (A ++ B)) 0 = false.
Proof using DA DB differ. apply ptp_differs; auto. apply Forall_app. auto. Qed.
Lemma not_empty : A <> [].
Proof using L differ. intros E. pose proof L as L'. rewrite E in L'. apply length_zero_iff_nil in L'. destruct differ as (x & _ & H & _). rewrite E, L' in H. destruct H. Qed.

Lemma total_off : forall AB t, List.Forall double AB -> length AB = length A -> total_fl arr A AB B = Some t ->
  let h := / 2 * mean (map2 (fun a ab => (a - ab) ^ 2) A AB) in
  0 < V /\ off (length A + 5) ((h + tiny) / V + tiny) (h / V) t.
Proof using A_ DA DB L differ.
  intros AB t D LA H h. unfold total_fl in H. rewrite not_flat in H. unfold total_col_fl in H. apply fdiv_some in H. fold V in H. destruct H as (PV & ->). split; auto.
  replace (length A + 5)%nat with (S (S (3 + length A))) by lia. pose proof tiny_pos as PT.
  assert (H0 : 0 <= h). { apply Rmult_le_pos; [lra|]. unfold mean, Rdiv. apply Rmult_le_pos; [|apply Rlt_le, Rinv_0_lt_compat; rewrite map2_length' by auto; apply INR_length_pos, not_empty].
    rewrite map2_positions by auto. generalize (seq 0 (length A)). unfold Rsum. induction l as [|i l IH]; cbn [map fold_right]; [lra|]. pose proof (pow2_ge_0 (nth i A 0 - nth i AB 0)). lra. }
  apply div_off; auto. { rewrite Rabs_pos_eq; lra. }
  apply off_fl. { rewrite Rabs_pos_eq; lra. }
  pose proof (mean_off arr A_ nat (fun i => (nth i A 0 - nth i AB 0) ^ 2) (fun i => fl (fl (nth i A 0 - nth i AB 0) * fl (nth i A 0 - nth i AB 0)))
    (fun i => (nth i A 0 - nth i AB 0) ^ 2 + tiny) 3 (seq 0 (length A)) (seq_ne _ A not_empty)) as M.
  assert (M' : off (3 + length A) (2 * h + tiny) (2 * h) (mean_fl arr (map (fun d => mul_fl d d) (map2 sub_fl A AB)))).
  { rewrite mean_plus, seq_length in M by (apply seq_ne, not_empty). unfold h. rewrite !map2_positions by auto. rewrite map_map, <- Rmult_assoc, Rinv_r, Rmult_1_l by lra. apply M.
    intros i _. split; [apply double_fl|]. split; [rewrite Rabs_pos_eq by apply pow2_ge_0; lra|]. apply square_off; apply nth_double; auto. }
  apply (off_scale _ _ _ _ (/ 2)) in M'. rewrite Rabs_pos_eq in M' by lra. replace (/ 2 * (2 * h)) with h in M' by field.
  eapply off_weaken; [| | |exact M']; [lia|lra|lra].
Qed.

Lemma first_off : forall AB s, List.Forall double AB -> length AB = length A -> first_fl arr A AB B = Some s ->
  let P := map2 (fun b d => b * d) B (map2 (fun ab a => ab - a) AB A) in
  0 < V /\ Rabs (mean P / V) <= (mean (map Rabs P) + tiny) / V + tiny /\ double s /\ off (length A + 3) ((mean (map Rabs P) + tiny) / V + tiny) (mean P / V) s.
Proof using A_ DA DB L differ.
  intros AB s D LA H P. unfold first_fl in H. rewrite not_flat in H. unfold first_col_fl in H. apply fdiv_some in H. fold V in H. destruct H as (PV & ->). split; auto.
  pose proof tiny_pos as PT. pose proof (Rinv_0_lt_compat _ PV) as PI. pose proof not_empty as NE.
  assert (LS : length (map2 sub_fl AB A) = length B) by (rewrite map2_length'; lia).
  assert (EP : P = map (fun i => nth i B 0 * (nth i AB 0 - nth i A 0)) (seq 0 (length A))).
  { unfold P. rewrite map2_positions by (rewrite map2_length'; lia). rewrite L. apply map_ext_in. intros i Hi. apply in_seq in Hi. f_equal.
    rewrite map2_positions by auto. apply (nth_positions (fun i => nth i AB 0 - nth i A 0)). lia. }
  assert (EG : map2 mul_fl B (map2 sub_fl AB A) = map (fun i => fl (nth i B 0 * fl (nth i AB 0 - nth i A 0))) (seq 0 (length A))).
  { rewrite map2_positions by auto. rewrite L. apply map_ext_in. intros i Hi. apply in_seq in Hi. unfold mul_fl. do 2 f_equal.
    rewrite map2_positions by auto. apply (nth_positions (fun i => sub_fl (nth i AB 0) (nth i A 0))). lia. }
  assert (B1 : Rabs (mean P) <= mean (map Rabs P)).
  { unfold mean. rewrite map_length. unfold Rdiv. assert (PP : 0 < INR (length P)) by (rewrite EP, map_length, seq_length; apply INR_length_pos; auto).
    rewrite Rabs_mult, (Rabs_pos_eq (/ _)) by (apply Rlt_le, Rinv_0_lt_compat; auto). apply Rmult_le_compat_r; [apply Rlt_le, Rinv_0_lt_compat; auto|].
    clear. unfold Rsum. induction P as [|x l IH]; cbn [map fold_right]; [rewrite Rabs_R0; lra|]. pose proof (Rabs_triang x (fold_right Rplus 0 l)). lra. }
  assert (B2 : Rabs (mean P / V) <= (mean (map Rabs P) + tiny) / V + tiny).
  { unfold Rdiv. rewrite Rabs_mult, (Rabs_pos_eq (/ V)) by lra. nra. }
  split; [exact B2|]. split; [apply double_fl|]. replace (length A + 3)%nat with (S (2 + length A)) by lia. apply div_off; auto; [lra|].
  pose proof (mean_off arr A_ nat (fun i => nth i B 0 * (nth i AB 0 - nth i A 0)) (fun i => fl (nth i B 0 * fl (nth i AB 0 - nth i A 0)))
    (fun i => Rabs (nth i B 0 * (nth i AB 0 - nth i A 0)) + tiny) 2 (seq 0 (length A)) (seq_ne _ A NE)) as M.
  rewrite mean_plus, seq_length in M by (apply seq_ne; auto). rewrite EG, EP, map_map. apply M.
  intros i _. split; [apply double_fl|]. split; [lra|]. apply off_fl; [lra|].
  assert (W : off 1 (Rabs (nth i B 0 * (nth i AB 0 - nth i A 0))) (nth i B 0 * (nth i AB 0 - nth i A 0)) (nth i B 0 * fl (nth i AB 0 - nth i A 0))).
  { rewrite Rabs_mult. apply off_scale, minus_err; apply nth_double; auto. }
  eapply off_weaken; [| | |exact W]; [lia|apply Rabs_pos|lra].
Qed.

Lemma off_minus : forall n a b x y z t, double z -> double t -> Rabs x <= a -> Rabs y <= b -> off n a x z -> off n b y t -> off (S n) (a + b) (x - y) (fl (z - t)).
Proof.
  intros n a b x y z t Z T X Y H K. apply (off_plus n a b x (- y) z (- t)); auto; [apply double_opp; auto|rewrite Rabs_Ropp; auto|].
  unfold off in *. replace (- t - - y) with (- (t - y)) by ring. rewrite Rabs_Ropp. auto.
Qed.

Lemma second_off : forall ABj ABk BAj s, List.Forall double ABj -> List.Forall double ABk -> List.Forall double BAj ->
  length ABj = length A -> length ABk = length A -> length BAj = length A -> second_fl arr A ABj ABk BAj B = Some s ->
  let P := fun AB => map2 (fun b d => b * d) B (map2 (fun ab a => ab - a) AB A) in
  let Q := map2 (fun x y => x * y) BAj ABk in
  let U := map2 (fun x y => x * y) A B in
  0 < V /\
  off (length A + 5) ((mean (map Rabs Q) + mean (map Rabs U) + mean (map Rabs (P ABj)) + mean (map Rabs (P ABk)) + 4 * tiny) / V + 3 * tiny)
    ((mean Q - mean U - mean (P ABj) - mean (P ABk)) / V) s.
Proof using A_ DA DB L differ.
  intros ABj ABk BAj s Dj Dk Db Lj Lk Lb H P Q U. unfold second_fl in H. rewrite not_flat in H. unfold second_col_fl in H.
  pose proof tiny_pos as PT. pose proof not_empty as NE.
  assert (FF : forall AB, first_fl arr A AB B = first_col_fl arr A AB B) by (intros; unfold first_fl; rewrite not_flat; auto). rewrite <- !FF in H.
  destruct (fdiv_fl (mean_fl arr (map2 sub_fl (map2 mul_fl BAj ABk) (map2 mul_fl A B))) (var_fl arr (A ++ B))) as [q|] eqn:Eq; [|discriminate].
  destruct (first_fl arr A ABj B) as [sj|] eqn:Ej; [|discriminate]. destruct (first_fl arr A ABk B) as [sk|] eqn:Ek; [|discriminate]. cbn [fsub_fl] in H. injection H as <-.
  apply first_off in Ej; auto. apply first_off in Ek; auto. fold (P ABj) in Ej. fold (P ABk) in Ek. destruct Ej as (PV & Bj & Djj & Oj). destruct Ek as (_ & Bk & Dkk & Ok_).
  apply fdiv_some in Eq. fold V in Eq. destruct Eq as (_ & ->). split; auto. pose proof (Rinv_0_lt_compat _ PV) as PI.
  set (n := length A) in *.
  assert (EQ : Q = map (fun i => nth i BAj 0 * nth i ABk 0) (seq 0 n)) by (unfold Q; rewrite map2_positions by lia; rewrite Lb; auto).
  assert (ER : U = map (fun i => nth i A 0 * nth i B 0) (seq 0 n)) by (unfold U; rewrite map2_positions by lia; auto).
  assert (EG : map2 sub_fl (map2 mul_fl BAj ABk) (map2 mul_fl A B) = map (fun i => fl (fl (nth i BAj 0 * nth i ABk 0) - fl (nth i A 0 * nth i B 0))) (seq 0 n)).
  { rewrite map2_positions by (rewrite !map2_length'; lia). rewrite map2_length' by lia. rewrite Lb. apply map_ext_in. intros i Hi. apply in_seq in Hi. unfold sub_fl. f_equal.
    rewrite !map2_positions by lia. rewrite (nth_positions (fun i => mul_fl (nth i BAj 0) (nth i ABk 0))) by lia. rewrite (nth_positions (fun i => mul_fl (nth i A 0) (nth i B 0))) by lia. auto. }
  pose proof (mean_off arr A_ nat (fun i => nth i BAj 0 * nth i ABk 0 - nth i A 0 * nth i B 0) (fun i => fl (fl (nth i BAj 0 * nth i ABk 0) - fl (nth i A 0 * nth i B 0)))
    (fun i => (Rabs (nth i BAj 0 * nth i ABk 0) + tiny) + (Rabs (nth i A 0 * nth i B 0) + tiny)) 2 (seq 0 n) (seq_ne _ A NE)) as M.
  assert (N0 : forall x, off 0 (Rabs x + tiny) x x) by (intros x; unfold off; rewrite err_0, Rminus_diag_eq, Rabs_R0 by auto; lra).
  assert (MM : forall f g : nat -> R, mean (map (fun i => f i + g i) (seq 0 n)) = mean (map f (seq 0 n)) + mean (map g (seq 0 n))).
  { intros f g. unfold mean. rewrite !map_length. unfold Rdiv. rewrite <- Rmult_plus_distr_r. f_equal. generalize (seq 0 n). unfold Rsum. induction l as [|i l IH]; cbn [map fold_right]; [ring|]. rewrite IH. ring. }
  assert (MD : mean (map (fun i => nth i BAj 0 * nth i ABk 0 - nth i A 0 * nth i B 0) (seq 0 n)) = mean Q - mean U).
  { rewrite EQ, ER. rewrite (map_ext _ (fun i => nth i BAj 0 * nth i ABk 0 + (-1) * (nth i A 0 * nth i B 0))) by (intros; ring). rewrite MM. unfold Rminus. f_equal.
    unfold mean. rewrite !map_length. unfold Rdiv. rewrite Ropp_mult_distr_l. f_equal. generalize (seq 0 n). unfold Rsum. induction l as [|i l IH]; cbn [map fold_right]; [ring|]. rewrite IH. ring. }
  assert (MA : forall l : list R, l <> [] -> Rabs (mean l) <= mean (map Rabs l)).
  { intros l Hl. unfold mean. rewrite map_length. pose proof (Rinv_0_lt_compat _ (INR_length_pos _ l Hl)) as PP. unfold Rdiv. rewrite Rabs_mult, (Rabs_pos_eq (/ _)) by lra.
    apply Rmult_le_compat_r; [lra|]. clear. unfold Rsum. induction l as [|x l IH]; cbn [map fold_right]; [rewrite Rabs_R0; lra|]. pose proof (Rabs_triang x (fold_right Rplus 0 l)). lra. }
  assert (QN : Q <> []) by (rewrite EQ; destruct A; [congruence|discriminate]). assert (RN : U <> []) by (rewrite ER; destruct A; [congruence|discriminate]).
  pose proof (MA Q QN) as AQ. pose proof (MA U RN) as AR.
  rewrite (MM (fun i => Rabs (nth i BAj 0 * nth i ABk 0) + tiny) (fun i => Rabs (nth i A 0 * nth i B 0) + tiny)), !mean_plus, seq_length, MD, <- EG in M by (apply seq_ne; auto).
  rewrite <- (map_map (fun i => nth i BAj 0 * nth i ABk 0) Rabs), <- EQ, <- (map_map (fun i => nth i A 0 * nth i B 0) Rabs), <- ER in M.
  assert (M' : off (2 + n) (mean (map Rabs Q) + tiny + (mean (map Rabs U) + tiny)) (mean Q - mean U) (mean_fl arr (map2 sub_fl (map2 mul_fl BAj ABk) (map2 mul_fl A B)))).
  { apply M. intros i _. split; [apply double_fl|]. split.
    - pose proof (Rabs_triang (nth i BAj 0 * nth i ABk 0) (- (nth i A 0 * nth i B 0))) as T. rewrite Rabs_Ropp in T. unfold Rminus. lra.
    - apply off_minus; try apply double_fl; try lra; apply off_fl; auto; lra. }
  assert (B0 : Rabs (mean Q - mean U) <= mean (map Rabs Q) + tiny + (mean (map Rabs U) + tiny)).
  { pose proof (Rabs_triang (mean Q) (- mean U)) as T. rewrite Rabs_Ropp in T. unfold Rminus. lra. }
  pose proof (div_off _ _ _ _ V PV B0 M') as M2. set (W := mean (map Rabs Q) + tiny + (mean (map Rabs U) + tiny)) in *.
  set (wj := (mean (map Rabs (P ABj)) + tiny) / V + tiny) in *. set (wk := (mean (map Rabs (P ABk)) + tiny) / V + tiny) in *.
  assert (B3 : Rabs ((mean Q - mean U) / V) <= W / V + tiny). { unfold Rdiv. rewrite Rabs_mult, (Rabs_pos_eq (/ V)) by lra. pose proof (Rabs_pos (mean Q - mean U)). nra. }
  replace ((mean Q - mean U - mean (P ABj) - mean (P ABk)) / V) with ((mean Q - mean U) / V - mean (P ABj) / V - mean (P ABk) / V) by (field; lra).
  replace ((mean (map Rabs Q) + mean (map Rabs U) + mean (map Rabs (P ABj)) + mean (map Rabs (P ABk)) + 4 * tiny) / V + 3 * tiny) with ((W / V + tiny) + wj + wk) by (unfold W, wj, wk; field; lra).
  replace (n + 5)%nat with (S (S (n + 3))) by lia. assert (wk0 : 0 <= wk) by (eapply Rle_trans; [apply Rabs_pos|exact Bk]). assert (wj0 : 0 <= wj) by (eapply Rle_trans; [apply Rabs_pos|exact Bj]).
  apply off_minus; try apply double_fl; auto.
  - pose proof (Rabs_triang ((mean Q - mean U) / V) (- (mean (P ABj) / V))) as T. rewrite Rabs_Ropp in T. unfold Rminus at 1. lra.
  - apply off_minus; try apply double_fl; auto. replace (n + 3)%nat with (S (2 + n)) by lia. exact M2.
  - eapply off_weaken; [| | |exact Ok_]; [lia|auto|lra].
Qed.
End Estimators.
