(** * Signs, zeros and scales of estimators in double precision. *)
From Coq Require Import Reals String List Arith ZArith Bool Lia Lra Permutation.
From Flocq Require Import Core.
From Verif Require Import Base Arrays ListFacts ModelGroups ModelScale ProofsScale Stats ModelSobol SpecSobol ProofsSobol ProofsSobol2 ProofsSobol4 ProofsMorris3 ModelDouble ModelDouble3 ModelDouble4
  ProofsDouble ProofsDouble5 ProofsDouble6 ProofsDouble8.
Import ListNotations.
Local Open Scope R_scope.

Section Sums.
Variable arr : nat -> tree.

(** ** Zeros *)
Lemma tsum_zero : forall t l, (forall x, In x l -> x = 0) -> tsum t l = 0.
Proof.
  induction t; intros l H; cbn [tsum].
  - destruct (nth_in_or_default i l 0); auto.
  - rewrite IHt1, IHt2 by auto. rewrite Rplus_0_r. apply fl_double, double_0.
Qed.
Lemma fl_0 : fl 0 = 0.
Proof. apply fl_double, double_0. Qed.
Lemma mean_zero : forall l, (forall x, In x l -> x = 0) -> mean_fl arr l = 0.
Proof. intros l H. unfold mean_fl, sum_fl. rewrite tsum_zero by auto. unfold Rdiv. rewrite Rmult_0_l. apply fl_0. Qed.

Lemma map2_same_sub : forall A, map2 sub_fl A A = repeat 0 (length A).
Proof. induction A; auto. cbn. f_equal; auto. unfold sub_fl. replace (a - a) with 0 by ring. apply fl_0. Qed.
Lemma map2_mul_zero : forall B n, map2 mul_fl B (repeat 0 n) = repeat 0 (Nat.min (length B) n).
Proof. induction B as [|b B IH]; intros [|n]; auto. cbn. f_equal; auto. unfold mul_fl. rewrite Rmult_0_r. apply fl_0. Qed.
Lemma map2_mul_comm : forall A B, map2 mul_fl A B = map2 mul_fl B A.
Proof. induction A as [|a A IH]; intros [|b B]; auto. cbn. f_equal; auto. unfold mul_fl. rewrite Rmult_comm. reflexivity. Qed.

Lemma fdiv_zero : forall y v, fdiv_fl 0 y = Some v -> v = 0.
Proof. intros y v. unfold fdiv_fl. destruct (Reqb y 0); [discriminate|]. intros E. injection E as <-. unfold Rdiv. rewrite Rmult_0_l. apply fl_0. Qed.

Lemma first_col_zero : forall A B v, first_col_fl arr A A B = Some v -> v = 0.
Proof.
  intros A B v. unfold first_col_fl. rewrite map2_same_sub, map2_mul_zero, mean_zero; [apply fdiv_zero|]. intros x Hx. apply repeat_spec in Hx. auto.
Qed.
Lemma total_col_zero : forall A B v, total_col_fl arr A A B = Some v -> v = 0.
Proof.
  intros A B v. unfold total_col_fl. rewrite map2_same_sub, mean_zero.
  - rewrite Rmult_0_r, fl_0. apply fdiv_zero.
  - intros x Hx. apply in_map_iff in Hx. destruct Hx as (d & <- & Hd). apply repeat_spec in Hd. subst. unfold mul_fl. rewrite Rmult_0_r. apply fl_0.
Qed.
Lemma second_col_zero : forall A B v, second_col_fl arr A A A B B = Some v -> v = 0.
Proof.
  intros A B v. unfold second_col_fl. rewrite (map2_mul_comm B A), map2_same_sub, mean_zero by (intros x Hx; apply repeat_spec in Hx; auto).
  destruct (fdiv_fl 0 _) as [x|] eqn:E; [|discriminate]. apply fdiv_zero in E. subst x.
  destruct (first_col_fl arr A A B) as [y|] eqn:E; [|discriminate]. apply first_col_zero in E. subst y. cbn [fsub_fl].
  intros H. injection H as <-. replace (0 - 0) with 0 by ring. rewrite fl_0. replace (0 - 0) with 0 by ring. apply fl_0.
Qed.

(** ** Signs *)
Lemma tsum_pos : forall t l, (forall x, In x l -> 0 <= x) -> 0 <= tsum t l.
Proof.
  induction t; intros l H; cbn [tsum].
  - destruct (nth_in_or_default i l 0) as [I|E]; [auto|rewrite E; lra].
  - specialize (IHt1 l H). specialize (IHt2 l H). apply fl_pos. lra.
Qed.
Lemma div_pos : forall s n, 0 <= s -> 0 <= fl (s / INR n).
Proof.
  intros s n H. apply fl_pos. unfold Rdiv. apply Rmult_le_pos; auto. destruct n as [|n]; [simpl; rewrite Rinv_0; lra|].
  left. apply Rinv_0_lt_compat, lt_0_INR. lia.
Qed.
Lemma mean_pos : forall l, (forall x, In x l -> 0 <= x) -> 0 <= mean_fl arr l.
Proof. intros l H. apply div_pos, tsum_pos. auto. Qed.
Lemma square_pos : forall x, 0 <= fl (x * x).
Proof. intros x. apply fl_pos. nra. Qed.
Lemma squares_pos : forall m l x, In x (squares_fl m l) -> 0 <= x.
Proof. intros m l x H. apply in_map_iff in H. destruct H as (y & <- & _). apply square_pos. Qed.
Lemma var_pos : forall l, 0 <= var_fl arr l.
Proof. intros l. apply div_pos, tsum_pos. apply squares_pos. Qed.
Lemma std1_pos : forall l v, std1_fl arr l = Some v -> 0 <= v.
Proof. intros l v. unfold std1_fl. destruct (length l <? 2)%nat; [discriminate|]. intros E. injection E as <-. apply fl_pos, sqrt_pos. Qed.
Lemma fdiv_pos : forall x y v, 0 <= x -> 0 <= y -> fdiv_fl x y = Some v -> 0 <= v.
Proof.
  intros x y v Hx Hy. unfold fdiv_fl. destruct (Reqb y 0) eqn:E; [discriminate|]. apply Reqb_false in E. intros H. injection H as <-. apply fl_pos.
  unfold Rdiv. apply Rmult_le_pos; auto. left. apply Rinv_0_lt_compat. lra.
Qed.
Lemma total_col_pos : forall A AB B v, total_col_fl arr A AB B = Some v -> 0 <= v.
Proof.
  intros A AB B v. apply fdiv_pos; [|apply var_pos]. apply fl_pos. apply Rmult_le_pos; [lra|]. apply mean_pos. intros x Hx. apply in_map_iff in Hx.
  destruct Hx as (d & <- & _). apply square_pos.
Qed.
Lemma total_pos : forall A AB B v, total_fl arr A AB B = Some v -> 0 <= v.
Proof. intros A AB B v. unfold total_fl. destruct (Reqb _ 0); [intros E; injection E as <-; lra|apply total_col_pos]. Qed.
Lemma first_zero : forall A B v, first_fl arr A A B = Some v -> v = 0.
Proof. intros A B v. unfold first_fl. destruct (Reqb _ 0); [intros E; injection E as <-; auto|apply first_col_zero]. Qed.
Lemma total_zero : forall A B v, total_fl arr A A B = Some v -> v = 0.
Proof. intros A B v. unfold total_fl. destruct (Reqb _ 0); [intros E; injection E as <-; auto|apply total_col_zero]. Qed.
Lemma second_zero : forall A B v, second_fl arr A A A B B = Some v -> v = 0.
Proof. intros A B v. unfold second_fl. destruct (Reqb _ 0); [intros E; injection E as <-; auto|apply second_col_zero]. Qed.

(** ** nan comes from the division alone *)
Lemma fdiv_none : forall x x' y, fdiv_fl x y = None -> fdiv_fl x' y = None.
Proof. intros x x' y. unfold fdiv_fl. destruct (Reqb y 0); auto; discriminate. Qed.
Lemma first_none : forall A AB AB' B, first_fl arr A AB B = None -> first_fl arr A AB' B = None.
Proof. intros A AB AB' B. unfold first_fl. destruct (Reqb _ 0); [discriminate|]. apply fdiv_none. Qed.
Lemma first_total_none : forall A AB AB' B, first_fl arr A AB B = None -> total_fl arr A AB' B = None.
Proof. intros A AB AB' B. unfold first_fl, total_fl. destruct (Reqb _ 0); [discriminate|]. apply fdiv_none. Qed.

Lemma std1_zero : forall l v, (forall x, In x l -> x = 0) -> std1_fl arr l = Some v -> v = 0.
Proof.
  intros l v H. unfold std1_fl. destruct (length l <? 2)%nat; [discriminate|]. intros E. injection E as <-. rewrite mean_zero by auto. unfold sum_fl.
  rewrite tsum_zero; [unfold Rdiv; rewrite Rmult_0_l, fl_0, sqrt_0; apply fl_0|].
  intros x Hx. apply in_map_iff in Hx. destruct Hx as (y & <- & Hy). rewrite (H y Hy). replace (0 - 0) with 0 by ring. rewrite fl_0, Rmult_0_r. apply fl_0.
Qed.
End Sums.

Lemma all_some_In : forall l xs, all_some l = Some xs -> forall x, In x xs -> In (Some x) l.
Proof.
  induction l as [|[y|] l IH]; intros xs H x Hx; cbn in H; [injection H as <-; destruct Hx| |discriminate].
  destruct (all_some l) as [ys|] eqn:E; [|discriminate]. injection H as <-. destruct Hx as [<-|Hx]; [left; auto|right; eauto].
Qed.

Lemma map3_same : forall (f : list R -> list R -> list R -> fval) A B v, In v (map3 f A A B) -> exists a b, v = f a a b.
Proof. induction A as [|a A IH]; intros [|b B] v H; try destruct H as [H|H]; try contradiction; eauto. Qed.
Lemma map5_same : forall (f : list R -> list R -> list R -> list R -> list R -> fval) A B v, In v (map5 f A A A B B) -> exists a b, v = f a a a b b.
Proof. induction A as [|a A IH]; intros [|b B] v H; try destruct H as [H|H]; try contradiction; eauto. Qed.

Lemma confidence_zero : forall arr z e v, (forall l x, e = Columns l -> In (Some x) l -> x = 0) -> confidence_fl arr z e = Some v -> v = 0.
Proof.
  intros arr z [q|l] v H; [discriminate|]. cbn [confidence_fl]. destruct (all_some l) as [xs|] eqn:E; [|discriminate].
  destruct (std1_fl arr xs) as [s|] eqn:S; [|discriminate]. cbn [option_map]. intros V. injection V as <-.
  apply std1_zero in S; [subst s; rewrite Rmult_0_r; apply fl_0|]. intros x Hx. apply (H l x); auto. eapply all_some_In; eauto.
Qed.
Lemma confidence_pos : forall arr z e v, 0 <= z -> confidence_fl arr z e = Some v -> 0 <= v.
Proof.
  intros arr z [q|l] v Z; [discriminate|]. cbn [confidence_fl]. destruct (all_some l) as [xs|]; [|discriminate].
  destruct (std1_fl arr xs) as [s|] eqn:S; [|discriminate]. cbn [option_map]. intros V. injection V as <-. apply std1_pos in S. apply fl_pos. nra.
Qed.

(** ** An arrangement is one of the sums of [ModelDouble3]. *)
Lemma tsum_sums : forall t l, (forall i, In i (leaves t) -> (i < length l)%nat) -> sums_to (map (fun i => nth i l 0) (leaves t)) (tsum t l).
Proof.
  induction t; intros l H; cbn [leaves map tsum]; [constructor|]. rewrite map_app.
  eapply sums_two; [apply Permutation_refl|apply IHt1|apply IHt2]; intros i Hi; apply H; cbn; apply in_or_app; auto.
Qed.
Lemma sums_perm : forall l l' s, Permutation l l' -> sums_to l s -> sums_to l' s.
Proof.
  intros l l' s P H. revert l' P. induction H; intros l' P.
  - apply Permutation_length_1_inv in P. subst. constructor.
  - eapply sums_two; eauto. eapply Permutation_trans; [apply Permutation_sym; exact P|exact H].
Qed.
Lemma sum_fl_sums : forall arr l, arrangement arr -> l <> [] -> sums_to l (sum_fl arr l).
Proof.
  intros arr l A N. assert (L : (0 < length l)%nat) by (destruct l; [congruence|simpl; lia]). specialize (A _ L). unfold sum_fl.
  eapply sums_perm; [|apply tsum_sums; intros i Hi; apply (Permutation_in _ A) in Hi; apply in_seq in Hi; lia].
  eapply Permutation_trans; [apply Permutation_map; exact A|]. clear. rewrite <- list_nth_seq. apply Permutation_refl.
Qed.
Lemma left_arrangement : arrangement left_to_right.
Proof.
  intros n H. unfold left_to_right. destruct n as [|n]; [lia|]. replace (S n - 1)%nat with n by lia. clear H.
  induction n; cbn [comb leaves]; [apply Permutation_refl|]. rewrite (seq_S (S n) 0). apply Permutation_app; auto.
Qed.
