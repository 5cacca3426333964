(** * Enclosures of exponentials and the numbers of the Oakley-O'Hagan example. *)
From Coq Require Import Reals List Arith ZArith Lia Lra Psatz.
From Coquelicot Require Import Coquelicot.
From Verif Require Import Base Stats ModelOakley SpecOakley ProofsOakley ProofsOakley2 ProofsOakley3 ProofsOakley4.
Import ListNotations.
Local Open Scope R_scope.

(** Partial sums of the series of exp (-x). *)
Fixpoint eterm (n : nat) (x : R) : R := match n with O => 1 | S m => eterm m x * (- x) / IZR (Z.of_nat (S m)) end.
Fixpoint esum (n : nat) (x : R) : R := match n with O => 1 | S m => esum m x + eterm (S m) x end.

Lemma neg_over : forall k x : R, is_derive (fun x : R => - x / k) x (- / k).
Proof. intros k x. auto_derive; auto. ring. Qed.

Lemma eterm_derive : forall n (x : R), is_derive (eterm (S n)) x (- eterm n x).
Proof.
  induction n as [|n IH]; intros x.
  - simpl. auto_derive; auto. field.
  - assert (P : 0 < IZR (Z.of_nat (S n))) by (apply IZR_lt; lia). assert (P2 : 0 < IZR (Z.of_nat (S (S n)))) by (apply IZR_lt; lia).
    apply (is_derive_ext (fun x => eterm (S n) x * ((- x) / IZR (Z.of_nat (S (S n)))))).
    { intros t. change (eterm (S (S n)) t) with (eterm (S n) t * (- t) / IZR (Z.of_nat (S (S n)))). unfold Rdiv. symmetry. apply Rmult_assoc. }
    evar_last. { apply (is_derive_mult (eterm (S n)) (fun x => - x / IZR (Z.of_nat (S (S n)))) x (- eterm n x) (- / IZR (Z.of_nat (S (S n))))).
      - apply IH. - apply neg_over. - intros; apply Rmult_comm. }
    change (- eterm n x * (- x / IZR (Z.of_nat (S (S n)))) + eterm (S n) x * (- / IZR (Z.of_nat (S (S n)))) = - eterm (S n) x).
    change (eterm (S n) x) with (eterm n x * (- x) / IZR (Z.of_nat (S n))).
    replace (IZR (Z.of_nat (S (S n)))) with (IZR (Z.of_nat (S n)) + 1) in * by (rewrite <- plus_IZR; f_equal; lia).
    generalize dependent (IZR (Z.of_nat (S n))). intros k K1 K2. generalize (eterm n x). intros e. simpl in e, x. field. lra.
Qed.

Lemma esum_derive : forall n (x : R), is_derive (esum (S n)) x (- esum n x).
Proof.
  induction n as [|n IH]; intros x.
  - simpl. auto_derive; auto. field.
  - apply (is_derive_ext (fun x => esum (S n) x + eterm (S (S n)) x)); [reflexivity|].
    evar_last. { apply (is_derive_plus (esum (S n)) (eterm (S (S n))) x (- esum n x) (- eterm (S n) x)); [apply IH|apply eterm_derive]. }
    change (- esum n x + - eterm (S n) x = - (esum n x + eterm (S n) x)). ring.
Qed.

Lemma esum_0 : forall n, esum n 0 = 1.
Proof. induction n as [|n IH]; [reflexivity|]. cbn [esum]. rewrite IH. cbn [eterm]. rewrite Ropp_0. unfold Rdiv. ring. Qed.

Lemma esum_sign : forall n x, 0 <= x -> 0 <= (-1) ^ n * (esum n x - exp (- x)).
Proof.
  induction n as [|n IH]; intros x X.
  - simpl. assert (exp (- x) <= 1). { rewrite <- exp_0. destruct X as [X|X]; [left; apply exp_increasing; lra|subst; rewrite Ropp_0; lra]. } lra.
  - set (D := fun x => (-1) ^ (S n) * (esum (S n) x - exp (- x))).
    assert (DD : forall t, is_derive D t ((-1) ^ n * (esum n t - exp (- t)))).
    { intros t. unfold D. evar_last. { apply (is_derive_scal (fun x => esum (S n) x - exp (- x)) t ((-1) ^ S n)).
        apply (is_derive_minus (esum (S n)) (fun x => exp (- x)) t (- esum n t) (- exp (- t))); [apply esum_derive|]. auto_derive; auto. ring. }
      unfold minus, plus, opp; simpl. ring. }
    destruct (MVT_gen D 0 x (fun t => (-1) ^ n * (esum n t - exp (- t)))) as (c & Hc & HM).
    { intros; apply DD. } { intros t _. apply continuity_pt_filterlim. apply (ex_derive_continuous D). eexists. apply DD. }
    rewrite Rmin_left, Rmax_right in Hc by auto.
    assert (D0 : D 0 = 0) by (unfold D; rewrite esum_0, Ropp_0, exp_0; ring).
    change (0 <= D x). rewrite D0 in HM. pose proof (IH c (proj1 Hc)) as P. rewrite !Rminus_0_r in HM. rewrite HM. apply Rmult_le_pos; lra.
Qed.

Lemma exp_below : forall n x, Nat.even n = true -> 0 <= x -> exp (- x) <= esum n x.
Proof. intros n x Ev X. pose proof (esum_sign n x X) as H. apply Nat.even_spec in Ev. destruct Ev as [k ->]. rewrite pow_1_even in H. lra. Qed.
Lemma exp_above : forall n x, Nat.even n = false -> 0 <= x -> esum n x <= exp (- x).
Proof.
  intros n x Ev X. pose proof (esum_sign n x X) as H. rewrite <- Nat.negb_odd in Ev. apply Bool.negb_false_iff in Ev. apply Nat.odd_spec in Ev. destruct Ev as [k ->].
  rewrite Nat.add_1_r in *. rewrite pow_1_odd in H. lra.
Qed.

Lemma exp_half : 606530659711 / 1000000000000 <= exp (- (1 / 2)) <= 606530659714 / 1000000000000.
Proof.
  split.
  - eapply Rle_trans; [|apply (exp_above 13); [reflexivity|lra]]. unfold esum, eterm. simpl Z.of_nat. lra.
  - eapply Rle_trans; [apply (exp_below 12); [reflexivity|lra]|]. unfold esum, eterm. simpl Z.of_nat. lra.
Qed.
Lemma exp_quarter : 705665 / 1000000 <= exp (- (27889 / 80000)) <= 705668 / 1000000.
Proof.
  split.
  - eapply Rle_trans; [|apply (exp_above 7); [reflexivity|lra]]. unfold esum, eterm. simpl Z.of_nat. lra.
  - eapply Rle_trans; [apply (exp_below 8); [reflexivity|lra]|]. unfold esum, eterm. simpl Z.of_nat. lra.
Qed.
