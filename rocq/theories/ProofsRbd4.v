(** * RBD-FAST: outputs that are a single harmonic along the reordering. *)
From Coq Require Import Reals String List Arith ZArith Bool Lia Lra Permutation.
From Verif Require Import Base Arrays ListFacts ModelGroups ModelScale ProofsScale Stats Sums ModelFast SpecFast ProofsFast2 ProofsMorris3 ProofsMorris7
  ModelRbd SpecRbd ProofsRbd ProofsRbd2 ProofsRbd3.
Import ListNotations.
Local Open Scope nat_scope.

Section Harmonic.
  Variables (n h : nat) (a b phi : R).
  Hypotheses (Hh : 0 < h) (H2 : 2 * h < n).
  Let th (t : nat) : R := (2 * PI * INR h * INR t / INR n)%R.
  Let y : list R := map (fun t => a + b * cos (2 * PI * INR h * INR t / INR n + phi))%R (seq 0 n).

  Lemma harmonic_sums : sum n (fun t => cos (th t)) = 0%R /\ sum n (fun t => sin (th t)) = 0%R /\
    sum n (fun t => cos (th t) ^ 2)%R = (INR n / 2)%R /\ sum n (fun t => sin (th t) ^ 2)%R = (INR n / 2)%R /\
    sum n (fun t => sin (th t) * cos (th t))%R = 0%R.
  Proof.
    destruct (const_dft n h ltac:(lia)) as [C1 S1]. destruct (const_dft n (2 * h) ltac:(lia)) as [C2 S2].
    unfold re, im in *. rewrite sum_scal in C1, S1, C2, S2.
    assert (HN : (0 < INR n)%R) by (apply lt_0_INR; lia).
    assert (E2 : forall t, (2 * PI * INR (2 * h) * INR t / INR n = 2 * th t)%R).
    { intros t. unfold th. rewrite mult_INR. simpl (INR 2). field. lra. }
    rewrite (sum_ext n _ (fun t => cos (2 * th t))) in C2 by (intros; rewrite E2; auto).
    rewrite (sum_ext n _ (fun t => sin (2 * th t))) in S2 by (intros; rewrite E2; auto).
    assert (C1' : sum n (fun t => cos (th t)) = 0%R) by (unfold th; lra).
    assert (S1' : sum n (fun t => sin (th t)) = 0%R) by (unfold th; lra).
    split; auto. split; auto. split; [|split].
    - rewrite (sum_ext n _ (fun t => (1 / 2) * cos (2 * th t) + 1 / 2)%R).
      + rewrite sum_plus, sum_scal, sum_const. lra.
      + intros t _. rewrite cos_2a_cos. field.
    - rewrite (sum_ext n _ (fun t => (- (1 / 2)) * cos (2 * th t) + 1 / 2)%R).
      + rewrite sum_plus, sum_scal, sum_const. lra.
      + intros t _. rewrite cos_2a_sin. field.
    - rewrite (sum_ext n _ (fun t => (1 / 2) * sin (2 * th t))%R).
      + rewrite sum_scal. lra.
      + intros t _. rewrite sin_2a. field.
  Qed.

  Lemma y_length : length y = n.
  Proof. unfold y. rewrite map_length, seq_length. auto. Qed.
  Lemma y_nth : forall t, t < n -> nth t y 0%R = (a + b * (cos (th t) * cos phi - sin (th t) * sin phi))%R.
  Proof.
    intros t Ht. unfold y. rewrite (nth_map_lt _ _ _ (seq 0 n) t 0) by (rewrite seq_length; auto).
    rewrite seq_nth by auto. rewrite cos_plus. reflexivity.
  Qed.

  Lemma trig_one : (cos phi ^ 2 + sin phi ^ 2 = 1)%R.
  Proof. pose proof (sin2_cos2 phi) as H. unfold Rsqr in H. lra. Qed.

  Lemma harmonic_power : power y h = (b ^ 2 / 4)%R.
  Proof.
    assert (HN : (0 < INR n)%R) by (apply lt_0_INR; lia).
    destruct harmonic_sums as (C & S & CC & SS & SC).
    rewrite power_re_im, y_length.
    assert (ER : re n (fun t => nth t y 0%R) h = (b * cos phi * (INR n / 2))%R).
    { unfold re. rewrite (sum_ext n _ (fun t => a * cos (th t) + ((b * cos phi) * (cos (th t) ^ 2) + (- (b * sin phi)) * (sin (th t) * cos (th t))))%R).
      - rewrite !sum_plus, !sum_scal, C, CC, SC. ring.
      - intros t Ht. rewrite y_nth by auto. fold (th t). ring. }
    assert (EI : im n (fun t => nth t y 0%R) h = (- (b * sin phi) * (INR n / 2))%R).
    { unfold im. rewrite (sum_ext n _ (fun t => a * sin (th t) + ((- (b * sin phi)) * (sin (th t) ^ 2) + (b * cos phi) * (sin (th t) * cos (th t))))%R).
      - rewrite !sum_plus, !sum_scal, S, SS, SC. ring.
      - intros t Ht. rewrite y_nth by auto. fold (th t). ring. }
    rewrite ER, EI. pose proof trig_one as T.
    replace ((b * cos phi * (INR n / 2)) ^ 2 + (- (b * sin phi) * (INR n / 2)) ^ 2)%R
      with (b ^ 2 * (INR n / 2) ^ 2 * (cos phi ^ 2 + sin phi ^ 2))%R by ring.
    rewrite T. field. lra.
  Qed.

  Lemma harmonic_var : var y = (b ^ 2 / 2)%R.
  Proof.
    assert (HN : (0 < INR n)%R) by (apply lt_0_INR; lia).
    destruct harmonic_sums as (C & S & CC & SS & SC). pose proof trig_one as T.
    assert (Hy : y <> []) by (intros E; pose proof y_length as L; rewrite E in L; simpl in L; lia).
    rewrite var_alt by auto. rewrite (sum_list_map R 0%R (fun x => x ^ 2)%R), (sum_list y), y_length.
    assert (E1 : sum n (fun t => nth t y 0%R) = (INR n * a)%R).
    { rewrite (sum_ext n _ (fun t => a + ((b * cos phi) * cos (th t) + (- (b * sin phi)) * sin (th t)))%R).
      - rewrite !sum_plus, !sum_scal, C, S, sum_const. ring.
      - intros t Ht. rewrite y_nth by auto. ring. }
    assert (E2 : sum n (fun t => nth t y 0 ^ 2)%R = (INR n * a ^ 2 + b ^ 2 * (INR n / 2))%R).
    { rewrite (sum_ext n _ (fun t => a ^ 2 + ((2 * a * b * cos phi) * cos (th t) + ((- (2 * a * b * sin phi)) * sin (th t) +
        ((b ^ 2 * cos phi ^ 2) * cos (th t) ^ 2 + ((b ^ 2 * sin phi ^ 2) * sin (th t) ^ 2 +
         (- (2 * b ^ 2 * cos phi * sin phi)) * (sin (th t) * cos (th t)))))))%R).
      - rewrite !sum_plus, !sum_scal, C, S, CC, SS, SC, sum_const.
        transitivity (INR n * a ^ 2 + b ^ 2 * (INR n / 2) * (cos phi ^ 2 + sin phi ^ 2))%R; [ring|rewrite T; ring].
      - intros t Ht. rewrite y_nth by auto. ring. }
    rewrite E1, E2. field. lra.
  Qed.

  Lemma harmonic_share : forall M, h <= M -> b <> 0%R -> share y M = 1%R.
  Proof.
    intros M HM Hb. assert (Hy : y <> []) by (intros E; pose proof y_length as L; rewrite E in L; simpl in L; lia).
    assert (Hb2 : (0 < b ^ 2)%R) by (pose proof (sq_nonneg b); assert (b ^ 2 <> 0)%R by (apply pow_nonzero; auto); lra).
    assert (Hv : var y <> 0%R) by (rewrite harmonic_var; lra).
    destruct (first_order_spec y M) as [_ H]. destruct (H Hy Hv) as [_ [_ Hle]].
    apply Rle_antisym; auto. unfold share. rewrite y_length, harmonic_var.
    assert (HR : (2 * power y h <= Rsum (map (fun q => (if (n =? 2 * q)%nat then 1 else 2) * power y q) (seq 1 (Nat.min M (n / 2)))))%R).
    { assert (Hm : h <= Nat.min M (n / 2)) by (apply Nat.min_glb; auto; apply Nat.div_le_lower_bound; lia).
      assert (ES : seq 1 (Nat.min M (n / 2)) = seq 1 (h - 1) ++ [h] ++ seq (h + 1) (Nat.min M (n / 2) - h)).
      { replace (Nat.min M (n / 2)) with ((h - 1) + (1 + (Nat.min M (n / 2) - h))) at 1 by lia.
        rewrite seq_app. f_equal. rewrite seq_app. cbn [seq app]. replace (1 + (h - 1)) with h by lia. reflexivity. }
      rewrite ES, !map_app, !Rsum_app. cbn [map].
      assert (P : forall l, (0 <= Rsum (map (fun q => (if (n =? 2 * q)%nat then 1 else 2) * power y q) l))%R).
      { intros l. apply Rsum_nonneg. intros x Hx. apply in_map_iff in Hx. destruct Hx as (q & <- & _).
        pose proof (power_nonneg y q). destruct (_ =? _); lra. }
      pose proof (P (seq 1 (h - 1))) as P1. pose proof (P (seq (h + 1) (Nat.min M (n / 2) - h))) as P2.
      destruct (Nat.eqb_spec n (2 * h)); [lia|]. unfold Rsum at 2. simpl fold_right. lra. }
    rewrite harmonic_power in HR. apply Rmult_le_reg_r with (b ^ 2 / 2)%R; [lra|].
    unfold Rdiv at 2. rewrite Rmult_assoc, Rinv_l by lra. lra.
  Qed.
End Harmonic.
