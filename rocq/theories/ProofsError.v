(** * Forward errors of sums, means and variances in double precision. *)
From Coq Require Import Reals String List Arith ZArith Bool Lia Lra Psatz Permutation.
From Flocq Require Import Core Relative Plus_error.
From Verif Require Import Base Arrays ListFacts ModelScale Stats ModelSobol ModelDouble ModelDouble4 SpecError.
From Verif Require Import ProofsScale ProofsDouble ProofsDouble5 ProofsDouble10 ProofsSingle3.
Import ListNotations.
Local Open Scope R_scope.

Definition u : R := bpow radix2 (-53).
Lemma u_pos : 0 < u. Proof. apply bpow_gt_0. Qed.
Lemma u_small : u <= / 2. Proof. unfold u. change (/ 2) with (bpow radix2 (-1)). apply bpow_le. lia. Qed.
Lemma tiny_pos : 0 < tiny. Proof. apply bpow_gt_0. Qed.
Lemma u_ro_is : u_ro radix2 53 = u.
Proof. unfold u_ro, u. change (/ 2) with (bpow radix2 (-1)). rewrite <- bpow_plus. reflexivity. Qed.

Lemma err_0 : err 0 = 0. Proof. unfold err. simpl. ring. Qed.
Lemma err_S : forall n, err (S n) = u * (1 + err n) + err n.
Proof. intros n. unfold err. fold u. cbn [pow]. ring. Qed.
Lemma err_pos : forall n, 0 <= err n.
Proof. induction n as [|n IH]; [rewrite err_0; lra|]. rewrite err_S. pose proof u_pos. nra. Qed.
Lemma err_le : forall m n, (m <= n)%nat -> err m <= err n.
Proof. intros m n H. induction H as [|n H IH]; [lra|]. rewrite err_S. pose proof (err_pos n). pose proof u_pos. nra. Qed.
Lemma err_add : forall m n, (1 + err m) * (1 + err n) = 1 + err (m + n).
Proof. intros m n. unfold err. rewrite pow_add. ring. Qed.

(** A few roundings count once each; many count at most twice. *)
Lemma err_linear : forall n, (Z.of_nat n <= 2 ^ 52)%Z -> INR n * u <= err n <= 2 * (INR n * u).
Proof.
  intros n H. pose proof u_pos as P. pose proof u_small as US. split.
  - clear H. induction n as [|n IH]; [rewrite err_0; simpl; lra|]. rewrite err_S, S_INR. pose proof (err_pos n). nra.
  - assert (N : INR n * u <= / 2).
    { rewrite INR_IZR_INZ. apply IZR_le in H. replace (/ 2) with (IZR (2 ^ 52) * u); [apply Rmult_le_compat_r; lra|].
      unfold u. replace (IZR (2 ^ 52)) with (bpow radix2 52) by reflexivity. rewrite <- bpow_plus. reflexivity. }
    pose proof (bernoulli u n ltac:(lra)) as B. pose proof (pos_INR n) as PN.
    assert (Q : (1 + u) ^ n * (1 - u) ^ n <= 1).
    { rewrite <- Rpow_mult_distr. apply Rle_trans with (1 ^ n); [apply pow_incr; nra|rewrite pow1; lra]. }
    unfold err. fold u. set (a := (1 + u) ^ n) in *. assert (A1 : 1 <= a) by (apply pow_R1_Rle; lra).
    set (b := (1 - u) ^ n) in *. set (x := INR n * u) in *. assert (X : 0 <= x) by (apply Rmult_le_pos; lra).
    assert (a * (1 - x) <= 1) by nra. nra.
Qed.

Lemma fl_err : forall x, Rabs (fl x - x) <= u * (Rabs x + tiny).
Proof.
  intros x. destruct (relative_error_N_FLT'_ex radix2 (-1074) 53 ltac:(reflexivity) (fun t => negb (Z.even t)) x) as (e & h & E1 & E2 & _ & E).
  rewrite u_ro_is in E1. pose proof u_pos as P. assert (E1' : Rabs e <= u).
  { eapply Rle_trans; [exact E1|]. apply Rmult_le_reg_r with (1 + u); [lra|]. unfold Rdiv. rewrite Rmult_assoc, Rinv_l by lra. nra. }
  unfold fl. rewrite E. replace (x * (1 + e) + h - x) with (x * e + h) by ring. eapply Rle_trans; [apply Rabs_triang|]. rewrite Rabs_mult.
  assert (ET : u * tiny = / 2 * bpow radix2 (-1074)). { unfold u, tiny. change (/ 2) with (bpow radix2 (-1)). rewrite <- !bpow_plus. reflexivity. }
  rewrite Rmult_plus_distr_l, ET. apply Rplus_le_compat; auto. rewrite Rmult_comm. apply Rmult_le_compat_r; auto. apply Rabs_pos.
Qed.
Lemma plus_err : forall x y, double x -> double y -> Rabs (fl (x + y) - (x + y)) <= u * Rabs (x + y).
Proof.
  intros x y X Y. destruct (FLT_plus_error_N_ex radix2 (-1074) 53 (fun t => negb (Z.even t)) x y X Y) as (e & E1 & E).
  rewrite u_ro_is in E1. pose proof u_pos as P. assert (E1' : Rabs e <= u).
  { eapply Rle_trans; [exact E1|]. apply Rmult_le_reg_r with (1 + u); [lra|]. unfold Rdiv. rewrite Rmult_assoc, Rinv_l by lra. nra. }
  unfold fl. rewrite E. replace ((x + y) * (1 + e) - (x + y)) with (e * (x + y)) by ring. rewrite Rabs_mult. apply Rmult_le_compat_r; auto. apply Rabs_pos.
Qed.
Lemma minus_err : forall x y, double x -> double y -> off 1 (Rabs (x - y)) (x - y) (fl (x - y)).
Proof. intros x y X Y. unfold off. rewrite err_S, err_0. replace (u * (1 + 0) + 0) with u by ring. apply (plus_err x (- y)); auto. apply double_opp; auto. Qed.

(** One more rounding. *)
Lemma off_fl : forall n w x z, Rabs x + tiny <= w -> off n w x z -> off (S n) w x (fl z).
Proof.
  intros n w x z W H. unfold off in *. rewrite err_S. pose proof (fl_err z) as F. pose proof (err_pos n). pose proof u_pos.
  assert (Z : Rabs z <= Rabs x + err n * w). { replace z with (x + (z - x)) by ring. eapply Rle_trans; [apply Rabs_triang|]. lra. }
  replace (fl z - x) with ((fl z - z) + (z - x)) by ring. eapply Rle_trans; [apply Rabs_triang|]. nra.
Qed.
Lemma off_plus : forall n a b x y z t, double z -> double t -> Rabs x <= a -> Rabs y <= b -> off n a x z -> off n b y t -> off (S n) (a + b) (x + y) (fl (z + t)).
Proof.
  intros n a b x y z t Z T A B H K. unfold off in *. rewrite err_S. pose proof (plus_err z t Z T) as F. pose proof (err_pos n). pose proof u_pos.
  assert (S1 : Rabs (z + t - (x + y)) <= err n * (a + b)).
  { replace (z + t - (x + y)) with ((z - x) + (t - y)) by ring. eapply Rle_trans; [apply Rabs_triang|]. lra. }
  assert (S2 : Rabs (z + t) <= (a + b) + err n * (a + b)).
  { replace (z + t) with ((x + y) + (z + t - (x + y))) by ring. eapply Rle_trans; [apply Rabs_triang|]. pose proof (Rabs_triang x y). lra. }
  replace (fl (z + t) - (x + y)) with ((fl (z + t) - (z + t)) + (z + t - (x + y))) by ring. eapply Rle_trans; [apply Rabs_triang|]. nra.
Qed.
Lemma off_weaken : forall m n w w' x y, (m <= n)%nat -> 0 <= w -> w <= w' -> off m w x y -> off n w' x y.
Proof.
  intros m n w w' x y L W W' H. unfold off in *. eapply Rle_trans; [exact H|]. pose proof (err_le m n L). pose proof (err_pos m). nra.
Qed.
Lemma off_scale : forall n w x y c, off n w x y -> off n (Rabs c * w) (c * x) (c * y).
Proof.
  intros n w x y c H. unfold off in *. rewrite <- Rmult_minus_distr_l, Rabs_mult. pose proof (Rabs_pos c). nra.
Qed.

(** ** Sums *)
Lemma tsum_off : forall t k xs ys ws,
  (forall i, In i (leaves t) -> double (nth i ys 0) /\ Rabs (nth i xs 0) <= nth i ws 0 /\ off k (nth i ws 0) (nth i xs 0) (nth i ys 0)) ->
  double (tsum t ys) /\ Rabs (Rsum (map (fun i => nth i xs 0) (leaves t))) <= Rsum (map (fun i => nth i ws 0) (leaves t)) /\
  off (k + (length (leaves t) - 1)) (Rsum (map (fun i => nth i ws 0) (leaves t))) (Rsum (map (fun i => nth i xs 0) (leaves t))) (tsum t ys).
Proof.
  intros t k xs ys ws. induction t as [i|a IHa b IHb]; intros H.
  - cbn [leaves map length Nat.sub tsum]. unfold Rsum. cbn [fold_right]. rewrite !Rplus_0_r, Nat.add_0_r. apply H. left. auto.
  - cbn [leaves tsum] in *. destruct IHa as (A1 & A2 & A3); [intros; apply H, in_or_app; auto|].
    destruct IHb as (B1 & B2 & B3); [intros; apply H, in_or_app; auto|].
    rewrite !map_app, !Rsum_app. split; [apply double_fl|]. split; [eapply Rle_trans; [apply Rabs_triang|lra]|].
    assert (La : (0 < length (leaves a))%nat). { clear. induction a; simpl; [lia|]. rewrite app_length. lia. }
    assert (Lb : (0 < length (leaves b))%nat). { clear. induction b; simpl; [lia|]. rewrite app_length. lia. }
    rewrite app_length. set (m := (k + (length (leaves a) + length (leaves b) - 2))%nat).
    replace (k + (length (leaves a) + length (leaves b) - 1))%nat with (S m) by lia.
    apply off_plus; auto.
    + apply off_weaken with (3 := Rle_refl _) (4 := A3); [lia|]. eapply Rle_trans; [apply Rabs_pos|exact A2].
    + apply off_weaken with (3 := Rle_refl _) (4 := B3); [lia|]. eapply Rle_trans; [apply Rabs_pos|exact B2].
Qed.

Lemma sum_positions : forall xs, Rsum (map (fun i => nth i xs 0) (seq 0 (length xs))) = Rsum xs.
Proof.
  intros xs. f_equal. induction xs as [|x xs IH]; auto. cbn [length seq map]. f_equal; auto. rewrite <- seq_shift, map_map. exact IH.
Qed.

Section Sums.
Variable arr : nat -> tree.
Hypothesis A : arrangement arr.

(** Lists of exact terms [f], computed ones [g] and weights [w]. *)
Lemma sum_off : forall T (f g w : T -> R) k l, l <> [] ->
  (forall x, In x l -> double (g x) /\ Rabs (f x) <= w x /\ off k (w x) (f x) (g x)) ->
  double (sum_fl arr (map g l)) /\ off (k + (length l - 1)) (Rsum (map w l)) (Rsum (map f l)) (sum_fl arr (map g l)).
Proof using A.
  intros T f g w k l NE H. unfold sum_fl. rewrite map_length. assert (L : (0 < length l)%nat) by (destruct l; [congruence|simpl; lia]).
  specialize (A (length l) L).
  assert (P : forall h : T -> R, Rsum (map (fun i => nth i (map h l) 0) (leaves (arr (length l)))) = Rsum (map h l)).
  { intros h. rewrite (Rsum_perm _ _ (Permutation_map _ A)). rewrite <- (map_length h l) at 1. apply sum_positions. }
  destruct (tsum_off (arr (length l)) k (map f l) (map g l) (map w l)) as (D & _ & O).
  - intros i Hi. apply (Permutation_in _ A), in_seq in Hi. destruct (nth_error l i) as [x|] eqn:E; [|apply nth_error_None in E; lia].
    assert (N : forall h : T -> R, nth i (map h l) 0 = h x). { intros h. apply nth_error_nth. rewrite nth_error_map', E. auto. }
    rewrite !N. apply H. eapply nth_error_In; eauto.
  - rewrite !P, (Permutation_length A), seq_length in O. auto.
Qed.

Lemma mean_off : forall T (f g w : T -> R) k l, l <> [] ->
  (forall x, In x l -> double (g x) /\ Rabs (f x) + tiny <= w x /\ off k (w x) (f x) (g x)) ->
  off (k + length l) (mean (map w l)) (mean (map f l)) (mean_fl arr (map g l)).
Proof using A.
  intros T f g w k l NE H. unfold mean_fl, mean. rewrite !map_length. pose proof (INR_length_pos T l NE) as PN. pose proof tiny_pos as PT.
  destruct (sum_off T f g w k l NE) as (_ & O). { intros x Hx. destruct (H x Hx) as (D & B & C). split; auto. split; auto. lra. }
  assert (L : (0 < length l)%nat) by (destruct l; [congruence|simpl; lia]). replace (k + length l)%nat with (S (k + (length l - 1))) by lia.
  pose proof (Rinv_0_lt_compat _ PN) as PI. apply off_fl.
  - assert (S : Rabs (Rsum (map f l)) + INR (length l) * tiny <= Rsum (map w l)).
    { clear -H. induction l as [|x l IH]; unfold Rsum in *; cbn [map fold_right length]; [rewrite Rabs_R0; simpl; lra|].
      rewrite S_INR. destruct (H x (or_introl eq_refl)) as (_ & B & _). specialize (IH ltac:(intros; apply H; right; auto)).
      pose proof (Rabs_triang (f x) (fold_right Rplus 0 (map f l))). lra. }
    unfold Rdiv. rewrite Rabs_mult, (Rabs_pos_eq (/ _)) by lra. apply Rmult_le_compat_r with (r := / INR (length l)) in S; [|lra].
    rewrite Rmult_plus_distr_r in S. replace (INR (length l) * tiny * / INR (length l)) with tiny in S by (field; lra). exact S.
  - unfold Rdiv. rewrite (Rmult_comm _ (/ _)), (Rmult_comm (Rsum (map f l))), (Rmult_comm (sum_fl _ _)). rewrite <- (Rabs_pos_eq (/ INR (length l))) at 1 by lra. apply off_scale. exact O.
Qed.

(** np.sum and np.mean. *)
Lemma sum_error : forall l, l <> [] -> List.Forall double l -> off (length l - 1) (Rsum (map Rabs l)) (Rsum l) (sum_fl arr l).
Proof using A.
  intros l NE D. rewrite <- (map_id l) at 3 4. apply (sum_off R (fun x => x) (fun x => x) Rabs 0 l NE). intros x Hx. rewrite Forall_forall in D.
  split; [auto|]. split; [apply Rle_refl|]. unfold off. rewrite err_0, Rminus_diag_eq, Rabs_R0 by auto. lra.
Qed.
Lemma mean_plus : forall T (f : T -> R) c l, l <> [] -> mean (map (fun x => f x + c) l) = mean (map f l) + c.
Proof.
  intros T f c l NE. unfold mean. rewrite !map_length. pose proof (INR_length_pos T l NE) as PN.
  assert (S : Rsum (map (fun x => f x + c) l) = Rsum (map f l) + INR (length l) * c).
  { clear. unfold Rsum. induction l as [|x l IH]; cbn [map fold_right length]; [simpl; lra|]. rewrite IH, S_INR. ring. }
  rewrite S. field. lra.
Qed.
Lemma mean_error : forall l, l <> [] -> List.Forall double l -> off (length l) (mean (map Rabs l) + tiny) (mean l) (mean_fl arr l).
Proof using A.
  intros l NE D. pose proof (mean_off R (fun x => x) (fun x => x) (fun x => Rabs x + tiny) 0 l NE) as M. rewrite mean_plus, map_id in M by auto. apply M.
  intros x Hx. rewrite Forall_forall in D. split; [auto|]. split; [lra|]. unfold off. rewrite err_0, Rminus_diag_eq, Rabs_R0 by auto. lra.
Qed.

(** The square of a computed difference. *)
Lemma square_off : forall x y, double x -> double y -> off 3 ((x - y) ^ 2 + tiny) ((x - y) ^ 2) (fl (fl (x - y) * fl (x - y))).
Proof.
  intros x y X Y. apply off_fl. { rewrite Rabs_pos_eq by apply pow2_ge_0. lra. }
  pose proof (minus_err x y X Y) as H. unfold off in *. set (d := x - y) in *. set (z := fl d) in *. replace (z * z - d ^ 2) with ((z - d) * (z + d)) by ring.
  rewrite Rabs_mult. assert (Z : Rabs (z + d) <= (2 + err 1) * Rabs d).
  { replace (z + d) with ((z - d) + 2 * d) by ring. eapply Rle_trans; [apply Rabs_triang|]. rewrite Rabs_mult, (Rabs_pos_eq 2) by lra. lra. }
  assert (E : err 2 = err 1 * (2 + err 1)). { pose proof (err_add 1 1) as E. change (1 + 1)%nat with 2%nat in E. lra. }
  apply Rle_trans with (err 1 * Rabs d * ((2 + err 1) * Rabs d)); [apply Rmult_le_compat; auto; apply Rabs_pos|].
  rewrite E. pose proof (err_pos 1). replace (err 1 * Rabs d * ((2 + err 1) * Rabs d)) with (err 1 * (2 + err 1) * (Rabs d * Rabs d)) by ring.
  apply Rmult_le_compat_l; [nra|]. rewrite <- Rabs_mult. replace (d ^ 2) with (d * d) by ring. rewrite Rabs_pos_eq by nra. pose proof tiny_pos. lra.
Qed.

(** np.var: the deviations are taken from the computed mean. *)
Lemma var_about : forall l m, l <> [] -> mean (map (fun x => (x - m) ^ 2) l) = var l + (m - mean l) ^ 2.
Proof.
  intros l m NE. unfold var, mean. rewrite !map_length. pose proof (INR_length_pos R l NE) as PN. set (c := Rsum l / INR (length l)).
  assert (S : forall l, Rsum (map (fun x => (x - m) ^ 2) l) = Rsum (map (fun x => (x - c) ^ 2) l) + 2 * (c - m) * (Rsum l - INR (length l) * c) + INR (length l) * (m - c) ^ 2).
  { clearbody c. clear. unfold Rsum. induction l as [|x l IH]; cbn [map fold_right length]; [simpl; ring|]. rewrite IH, S_INR. ring. }
  rewrite S. replace (Rsum l - INR (length l) * c) with 0 by (unfold c; field; lra). field. lra.
Qed.
Lemma var_error : forall l, l <> [] -> List.Forall double l ->
  exists b, Rabs b <= err (length l) * (mean (map Rabs l) + tiny) /\ off (length l + 3) (var l + b ^ 2 + tiny) (var l + b ^ 2) (var_fl arr l).
Proof using A.
  intros l NE D. exists (mean_fl arr l - mean l). split; [exact (mean_error l NE D)|]. rewrite <- var_about by auto.
  assert (E : var_fl arr l = mean_fl arr (squares_fl (mean_fl arr l) l)) by (unfold var_fl, squares_fl; unfold mean_fl at 3; rewrite map_length; auto).
  rewrite E. unfold squares_fl.
  pose proof (mean_off R (fun x => (x - mean_fl arr l) ^ 2) (fun x => fl (fl (x - mean_fl arr l) * fl (x - mean_fl arr l))) (fun x => (x - mean_fl arr l) ^ 2 + tiny) 3 l NE) as M.
  rewrite mean_plus, Nat.add_comm in M by auto. apply M.
  intros x Hx. rewrite Forall_forall in D. split; [apply double_fl|]. split; [rewrite Rabs_pos_eq by apply pow2_ge_0; lra|]. apply square_off; [auto|apply double_fl].
Qed.

(** ** Sobol' estimators *)
Lemma div_off : forall n w x z V, 0 < V -> Rabs x <= w -> off n w x z -> off (S n) (w / V + tiny) (x / V) (fl (z / V)).
Proof.
  intros n w x z V HV W H. pose proof (Rinv_0_lt_compat _ HV) as PI. pose proof tiny_pos. assert (W0 : 0 <= w) by (pose proof (Rabs_pos x); lra). apply off_fl.
  - unfold Rdiv. rewrite Rabs_mult, (Rabs_pos_eq (/ V)) by lra. nra.
  - apply off_weaken with n (w / V); auto; [unfold Rdiv; nra|lra|]. unfold Rdiv. rewrite !(Rmult_comm _ (/ V)). rewrite <- (Rabs_pos_eq (/ V)) at 1 by lra. apply off_scale. auto.
Qed.

End Sums.
