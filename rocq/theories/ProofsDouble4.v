(** * FAST frequencies in double precision. *)
From Coq Require Import Reals String List Arith ZArith Bool Lia Lra Psatz Sorted.
From Flocq Require Import Core Plus_error Relative Sterbenz.
From Verif Require Import Base Arrays ListFacts ModelFast ModelMorris ModelDouble ProofsDouble ProofsDouble2.
Import ListNotations.
Local Open Scope R_scope.

(** The rounding of a number, from its exponent and its nearest mantissa. *)
Lemma fl_eq : forall m e x, (-1074 <= e)%Z -> bpow radix2 (e + 52) <= x < bpow radix2 (e + 53) -> Rabs (x * bpow radix2 (- e) - IZR m) < / 2 -> fl x = IZR m * bpow radix2 e.
Proof.
  intros m e x He Hx Hm. assert (P : 0 < x) by (eapply Rlt_le_trans; [apply bpow_gt_0|apply Hx]).
  unfold fl, round, F2R, scaled_mantissa. simpl Fnum. simpl Fexp.
  assert (C : cexp radix2 (FLT_exp (-1074) 53) x = e).
  { unfold cexp. rewrite (mag_unique radix2 x (e + 53)).
    - unfold FLT_exp. lia.
    - rewrite Rabs_pos_eq by lra. replace (e + 53 - 1)%Z with (e + 52)%Z by lia. auto. }
  rewrite C. f_equal. f_equal. apply Znearest_imp. auto.
Qed.

(** Quotients of integers. *)
Lemma floor_div : forall a b, (0 < b)%nat -> (Z.of_nat (a + b) <= 2 ^ 53)%Z -> Zfloor (fl (INR a / INR b)) = Z.of_nat (a / b).
Proof.
  intros a b Hb HU. set (k := (a / b)%nat).
  assert (D : a = (b * k + a mod b)%nat) by (apply Nat.div_mod; lia).
  assert (M : (a mod b < b)%nat) by (apply Nat.mod_upper_bound; lia).
  assert (B0 : 0 < INR b) by (apply lt_0_INR; auto).
  assert (KD : double (INR k)). { apply double_INR. assert (k <= a)%nat by nia. lia. }
  assert (LO : INR k <= INR a / INR b).
  { apply (Rmult_le_reg_r (INR b)); auto. unfold Rdiv. rewrite Rmult_assoc, Rinv_l, Rmult_1_r by lra. rewrite <- mult_INR. apply le_INR. nia. }
  assert (UP : INR a / INR b <= INR k + 1 - / INR b).
  { apply (Rmult_le_reg_r (INR b)); auto. unfold Rdiv. rewrite Rmult_assoc, Rinv_l, Rmult_1_r by lra. rewrite Rmult_minus_distr_r, Rinv_l, Rmult_plus_distr_r, Rmult_1_l by lra.
    rewrite <- mult_INR, <- plus_INR. change 1 with (INR 1). rewrite <- minus_INR by lia. apply le_INR. nia. }
  apply Zfloor_imp. rewrite plus_IZR, <- INR_IZR_INZ. split; [apply fl_ge; auto|].
  destruct (Nat.eq_dec a 0) as [->|NZ].
  { simpl INR. unfold Rdiv. rewrite Rmult_0_l, (fl_double 0 double_0). pose proof (pos_INR k). lra. }
  assert (A1 : 1 <= INR a) by (change 1 with (INR 1); apply le_INR; lia).
  assert (BU : INR b <= 9007199254740992) by (rewrite INR_IZR_INZ; apply (IZR_le _ 9007199254740992); lia).
  destruct (fl_rel (INR a / INR b)) as (e & E & F).
  { rewrite Rabs_pos_eq by (apply Rmult_le_pos; [lra|left; apply Rinv_0_lt_compat; auto]).
    apply Rle_trans with (bpow radix2 (-53)); [apply bpow_le; lia|]. rewrite u_small. unfold Rdiv. rewrite <- (Rmult_1_l (/ 9007199254740992)).
    apply Rmult_le_compat; try lra. apply Rinv_le; lra. }
  rewrite F. apply Rabs_le_inv in E. rewrite u_small in E. pose proof (pos_INR k) as PK.
  assert (IB : 0 < / INR b) by (apply Rinv_0_lt_compat; auto).
  apply Rle_lt_trans with ((INR k + 1 - / INR b) * (1 + / 9007199254740992)).
  { apply Rmult_le_compat; try lra. }
  assert (KB : (INR k + 1) * INR b <= 9007199254740992).
  { change 1 with (INR 1). rewrite <- plus_INR, <- mult_INR, INR_IZR_INZ. apply (IZR_le _ 9007199254740992). nia. }
  assert (K2 : (INR k + 1) * / 9007199254740992 <= / INR b).
  { apply (Rmult_le_reg_r (INR b)); auto. rewrite Rinv_l by lra. lra. }
  assert (0 < / INR b * / 9007199254740992) by (apply Rmult_lt_0_compat; lra).
  lra.
Qed.

(** The points of np.linspace(1, m, n). *)
Section Linspace.
Variables m n : nat.
Hypothesis NM : (n <= m)%nat.
Hypothesis N2 : (2 <= n)%nat.
Hypothesis MU : (Z.of_nat m <= 2 ^ 50)%Z.

Definition lin (k : nat) : R := if (k =? n - 1)%nat then INR m else fl (fl (INR k * fl (INR (m - 1) / INR (n - 1))) + 1).

Lemma m_real : 2 <= INR m <= 1125899906842624.
Proof.
  split; [change 2 with (INR 2); apply le_INR; lia|]. rewrite INR_IZR_INZ. apply (IZR_le _ 1125899906842624). exact MU.
Qed.
Lemma d_big : bpow radix2 (-900) <= INR (m - 1).
Proof. apply Rle_trans with 1; [change 1 with (bpow radix2 0); apply bpow_le; lia|]. change 1 with (INR 1). apply le_INR. lia. Qed.
Lemma d_is : INR (m - 1) = INR m - 1.
Proof. rewrite minus_INR by lia. reflexivity. Qed.

Lemma linspace_lin : linspace_fl 1 (INR m) n = map lin (seq 0 n).
Proof.
  unfold linspace_fl. pose proof m_real as MR. apply map_ext_in. intros k Hk. apply in_seq in Hk.
  replace (1 <? n)%nat with true by (symmetry; apply Nat.ltb_lt; lia). simpl andb. unfold lin. destruct (k =? n - 1)%nat; auto.
  replace (n =? 1)%nat with false by (symmetry; apply Nat.eqb_neq; lia).
  replace (fl (INR m - 1)) with (INR (m - 1)). 2: { rewrite <- d_is. symmetry. apply fl_double, double_INR. lia. }
  destruct (step_facts (INR (m - 1)) (n - 1) 1) as (e1 & e2 & _ & _ & P & _); try lia.
  - rewrite d_is. lra.
  - apply d_big.
  - rewrite Req_bool_false by lra. reflexivity.
Qed.

Lemma lin_below : forall k, (k < n - 1)%nat -> 0 <= fl (INR k * fl (INR (m - 1) / INR (n - 1))) <= INR m - 1.
Proof.
  intros k H. rewrite <- d_is. apply step_below; try lia; [rewrite d_is; pose proof m_real; lra|apply d_big].
Qed.

Lemma lin_range : forall k, (k < n)%nat -> 1 <= lin k <= INR m.
Proof.
  intros k H. pose proof m_real. unfold lin. destruct (Nat.eqb_spec k (n - 1)); [lra|]. pose proof (lin_below k ltac:(lia)).
  split; [apply fl_ge; [apply double_1|lra]|apply fl_le; [apply double_INR; lia|lra]].
Qed.

Lemma lin_close : forall k, (k < n)%nat -> Rabs (lin k - (1 + INR k * (INR (m - 1) / INR (n - 1)))) <= INR m * bpow radix2 (-51).
Proof.
  intros k H. pose proof m_real as MR. pose proof (bpow_gt_0 radix2 (-51)) as BP. unfold lin. destruct (Nat.eqb_spec k (n - 1)) as [->|NE].
  { rewrite <- (Rmult_1_l (INR m)) at 1.
    replace (1 * INR m - (1 + INR (n - 1) * (INR (m - 1) / INR (n - 1)))) with 0.
    - rewrite Rabs_R0. apply Rmult_le_pos; lra.
    - rewrite d_is. field. apply not_0_INR. lia. }
  pose proof (lin_below k ltac:(lia)) as LB. pose proof (step_close (INR (m - 1)) (n - 1) k ltac:(rewrite d_is; lra) d_big ltac:(lia) ltac:(lia)) as C.
  set (y := fl (INR k * fl (INR (m - 1) / INR (n - 1)))) in *.
  destruct (fl_plus_rel y 1 (double_fl _) double_1) as (e & E & F). rewrite F.
  assert (E51 : bpow radix2 (-51) = 4 * bpow radix2 (-53)) by (rewrite u_small; change (bpow radix2 (-51)) with (/ 2251799813685248); lra).
  assert (T : Rabs ((y + 1) * e) <= INR m * bpow radix2 (-53)).
  { rewrite Rabs_mult. apply Rmult_le_compat; auto; try apply Rabs_pos. rewrite Rabs_pos_eq by lra. lra. }
  replace ((y + 1) * (1 + e) - (1 + INR k * (INR (m - 1) / INR (n - 1)))) with ((y - INR k * (INR (m - 1) / INR (n - 1))) + (y + 1) * e) by ring.
  eapply Rle_trans; [apply Rabs_triang|]. rewrite d_is in *.
  assert ((INR m - 1) * (9 / 4 * bpow radix2 (-53)) <= INR m * (9 / 4 * bpow radix2 (-53))) by (apply Rmult_le_compat_r; lra).
  assert (0 < INR m * bpow radix2 (-53)) by (apply Rmult_lt_0_compat; lra).
  rewrite E51. lra.
Qed.

Lemma exact_floor : forall k, Zfloor (1 + INR k * (INR (m - 1) / INR (n - 1))) = Z.of_nat (1 + k * (m - 1) / (n - 1)).
Proof.
  intros k. assert (P : 0 < INR (n - 1)) by (apply lt_0_INR; lia).
  pose proof (Nat.div_mod (k * (m - 1)) (n - 1) ltac:(lia)) as D. pose proof (Nat.mod_upper_bound (k * (m - 1)) (n - 1) ltac:(lia)) as U.
  set (q := (k * (m - 1) / (n - 1))%nat) in *. set (r := ((k * (m - 1)) mod (n - 1))%nat) in *.
  replace (1 + INR k * (INR (m - 1) / INR (n - 1))) with (1 + (INR (k * (m - 1))) / INR (n - 1)) by (rewrite mult_INR; field; lra).
  rewrite D, plus_INR, mult_INR. replace ((INR (n - 1) * INR q + INR r) / INR (n - 1)) with (INR q + INR r / INR (n - 1)) by (field; lra).
  assert (0 <= INR r / INR (n - 1) < 1).
  { split; [apply Rmult_le_pos; [apply pos_INR|left; apply Rinv_0_lt_compat; auto]|]. apply (Rmult_lt_reg_r (INR (n - 1))); auto.
    unfold Rdiv. rewrite Rmult_assoc, Rinv_l, Rmult_1_l, Rmult_1_r by lra. apply lt_INR. auto. }
  apply Zfloor_imp. rewrite plus_IZR, <- INR_IZR_INZ, plus_INR. simpl (INR 1). lra.
Qed.

Lemma floor_near : forall x y, Rabs (x - y) < 1 -> (Z.abs (Zfloor x - Zfloor y) <= 1)%Z.
Proof.
  intros x y H. apply Rabs_def2 in H. pose proof (Zfloor_lb x). pose proof (Zfloor_ub x). pose proof (Zfloor_lb y). pose proof (Zfloor_ub y).
  assert (Zfloor x - Zfloor y < 2)%Z by (apply lt_IZR; rewrite minus_IZR; lra).
  assert (Zfloor y - Zfloor x < 2)%Z by (apply lt_IZR; rewrite minus_IZR; lra). lia.
Qed.

Lemma lin_floor : forall k, (k < n)%nat -> (1 <= Zfloor (lin k) <= Z.of_nat m)%Z /\ (Z.abs (Zfloor (lin k) - Z.of_nat (1 + k * (m - 1) / (n - 1))) <= 1)%Z.
Proof.
  intros k H. pose proof (lin_range k H). pose proof (lin_close k H) as C. pose proof m_real as MR. rewrite <- exact_floor. split.
  - split; [apply Zfloor_lub; lra|]. apply le_IZR. rewrite <- INR_IZR_INZ. eapply Rle_trans; [apply Zfloor_lb|lra].
  - apply floor_near. eapply Rle_lt_trans; [exact C|]. change (bpow radix2 (-51)) with (/ 2251799813685248). lra.
Qed.

Lemma lin_exact_step : m = n -> forall k, (k < n)%nat -> lin k = INR (k + 1).
Proof.
  intros E k H. unfold lin. rewrite E. destruct (Nat.eqb_spec k (n - 1)) as [->|NE]. { f_equal. lia. }
  assert (INR (n - 1) <> 0) by (apply not_0_INR; lia). unfold Rdiv. rewrite Rinv_r by auto. rewrite (fl_double 1 double_1), Rmult_1_r.
  rewrite (fl_double (INR k)) by (apply double_INR; lia). replace (INR k + 1) with (INR (k + 1)) by (rewrite plus_INR; reflexivity). apply fl_double, double_INR. lia.
Qed.

Lemma lin_increasing : (Z.of_nat m <= 2 ^ 24)%Z -> forall k, (k + 1 < n)%nat -> (Zfloor (lin k) < Zfloor (lin (k + 1)))%Z.
Proof.
  intros MS k H. destruct (Nat.eq_dec m n) as [E|NE].
  { rewrite !lin_exact_step by (auto; lia). rewrite !INR_IZR_INZ, !Zfloor_IZR. lia. }
  pose proof (lin_close k ltac:(lia)) as C1. pose proof (lin_close (k + 1) ltac:(lia)) as C2.
  assert (MB : INR m <= 16777216) by (rewrite INR_IZR_INZ; apply (IZR_le _ 16777216); exact MS).
  assert (P : 0 < INR (n - 1)) by (apply lt_0_INR; lia).
  assert (NB : INR (n - 1) <= INR m) by (apply le_INR; lia).
  assert (ST : 1 + / INR (n - 1) <= INR (m - 1) / INR (n - 1)).
  { apply (Rmult_le_reg_r (INR (n - 1))); auto. unfold Rdiv. rewrite Rmult_assoc, Rmult_plus_distr_r, Rinv_l, Rmult_1_r, Rmult_1_l by lra.
    change 1 with (INR 1). rewrite <- plus_INR. apply le_INR. lia. }
  assert (IV : / 16777216 <= / INR (n - 1)) by (apply Rinv_le; lra).
  change (bpow radix2 (-51)) with (/ 2251799813685248) in *.
  rewrite plus_INR in C2. simpl (INR 1) in C2. apply Rabs_le_inv in C1, C2.
  assert (G : lin k + 1 < lin (k + 1)) by lra.
  pose proof (Zfloor_lb (lin k)). pose proof (Zfloor_ub (lin (k + 1))). apply lt_IZR.
  assert (Zfloor (lin k) + 1 <= Zfloor (lin (k + 1)))%Z by (apply Zfloor_lub; rewrite plus_IZR; lra).
  apply IZR_lt. lia.
Qed.
End Linspace.

Lemma sorted_seq : forall (f : nat -> Z) n a, (forall k, (a <= k)%nat -> (k + 1 < a + n)%nat -> (f k < f (k + 1)%nat)%Z) -> StronglySorted Z.lt (map f (seq a n)).
Proof.
  intros f n. induction n as [|n IH]; intros a H; simpl; [constructor|]. constructor.
  - apply IH. intros k H1 H2. apply H; lia.
  - apply Forall_forall. intros z Hz. apply in_map_iff in Hz. destruct Hz as (k & <- & Hk). apply in_seq in Hk.
    assert (Q : forall i, (a + i < a + S n)%nat -> (0 < i)%nat -> (f a < f (a + i)%nat)%Z).
    { induction i as [|i IHi]; intros H1 H2; [lia|]. specialize (H (a + i)%nat ltac:(lia) ltac:(lia)). replace (a + S i)%nat with (a + i + 1)%nat by lia.
      destruct i; [rewrite Nat.add_0_r in *; auto|]. specialize (IHi ltac:(lia) ltac:(lia)). lia. }
    replace k with (a + (k - a))%nat by lia. apply Q; lia.
Qed.

Lemma frequencies_fl : forall N M D w0 comp, (Z.of_nat N <= 2 ^ 50)%Z -> fast_frequencies N M D = Ok (w0, comp) ->
  exists comp', fast_frequencies_fl N M D = Ok (Z.of_nat w0, comp') /\
    Forall2 (fun w' w => (Z.abs (w' - Z.of_nat w) <= 1)%Z) comp' comp /\
    (forall w', In w' comp' -> (1 <= w' <= Z.of_nat (w0 / (2 * M)))%Z) /\
    ((w0 / (2 * M) < D - 1)%nat -> comp' = map Z.of_nat comp) /\
    ((Z.of_nat N <= 2 ^ 26)%Z -> (D - 1 <= w0 / (2 * M))%nat -> StronglySorted Z.lt comp').
Proof.
  intros N M D w0 comp NU H. unfold fast_frequencies in H. unfold fast_frequencies_fl.
  destruct (Nat.leb_spec N (4 * M ^ 2)) as [|H1]; [discriminate|]. destruct (Nat.eqb_spec M 0) as [|H2]; [discriminate|].
  destruct (Nat.eqb_spec D 0) as [|H3]; [discriminate|]. assert (W : ((N - 1) / (2 * M) = w0)%nat) by (injection H; auto). rewrite W in H.
  assert (MM : (2 * M <= N)%nat). { simpl in H1. nia. }
  rewrite floor_div by (try lia; change (2 ^ 53)%Z with (8 * 2 ^ 50)%Z; lia). rewrite W. rewrite <- INR_IZR_INZ.
  assert (W0 : (w0 <= N)%nat). { rewrite <- W. apply Nat.div_le_upper_bound; nia. }
  rewrite floor_div by (try lia; change (2 ^ 53)%Z with (8 * 2 ^ 50)%Z; lia).
  assert (W1 : (2 * M <= w0)%nat). { rewrite <- W. apply Nat.div_le_lower_bound; [lia|]. simpl in H1. nia. }
  set (m := (w0 / (2 * M))%nat) in *. assert (Hm : (1 <= m)%nat) by (apply Nat.div_le_lower_bound; lia).
  assert (Hm2 : (4 * m <= N)%nat).
  { assert (2 * M * m <= w0)%nat by (apply Nat.mul_div_le; lia). assert (2 * M * w0 <= N - 1)%nat by (rewrite <- W; apply Nat.mul_div_le; lia).
    assert (2 * m <= w0)%nat by nia. nia. }
  eexists. split; [reflexivity|]. injection H as H. subst comp.
  destruct (Nat.leb_spec (D - 1) m) as [L|L].
  - replace (Z.of_nat (D - 1) <=? Z.of_nat m)%Z with true by (symmetry; apply Z.leb_le; lia). rewrite <- INR_IZR_INZ.
    destruct (Nat.lt_ge_cases (D - 1) 2) as [S|S].
    + assert (D - 1 = 0 \/ D - 1 = 1)%nat as [E|E] by lia; rewrite E.
      * simpl. split; [constructor|]. split; [tauto|]. split; [lia|constructor].
      * unfold linspace_fl, floor_linspace. simpl. rewrite Rmult_0_l, (fl_double 0 double_0), Rplus_0_l, (fl_double 1 double_1).
        change 1 with (IZR 1). rewrite Zfloor_IZR. split; [|split; [|split; [lia|]]].
        { constructor; [vm_compute; discriminate|constructor]. }
        { intros w' [<-|[]]. lia. }
        { intros _ _. constructor; constructor. }
    + rewrite linspace_lin by (try lia). unfold floor_linspace. rewrite map_map. split; [|split; [|split; [lia|]]].
      * assert (A : forall k, In k (seq 0 (D - 1)) -> (Z.abs (Zfloor (lin m (D - 1) k) - Z.of_nat (1 + k * (m - 1) / (D - 1 - 1))) <= 1)%Z).
        { intros k Hk. apply in_seq in Hk. apply lin_floor; lia. }
        revert A. generalize (seq 0 (D - 1)). induction l; intros A; simpl; constructor; [apply A; left; auto|apply IHl; intros; apply A; right; auto].
      * intros w' Hw. apply in_map_iff in Hw. destruct Hw as (k & <- & Hk). apply in_seq in Hk. apply lin_floor; lia.
      * intros NS _. apply sorted_seq. intros k _ Hk. apply lin_increasing; try lia.
  - replace (Z.of_nat (D - 1) <=? Z.of_nat m)%Z with false by (symmetry; apply Z.leb_gt; lia).
    assert (E : map (fun t => (Z.of_nat t mod Z.of_nat m + 1)%Z) (seq 0 (D - 1)) = map Z.of_nat (map (fun t => (t mod m + 1)%nat) (seq 0 (D - 1)))).
    { rewrite map_map. apply map_ext. intros t. rewrite Nat2Z.inj_add, Nat2Z.inj_mod. reflexivity. }
    split; [|split; [|split; [auto|lia]]].
    + rewrite E. generalize (map (fun t => (t mod m + 1)%nat) (seq 0 (D - 1))). induction l; simpl; constructor; auto. lia.
    + intros w' Hw. apply in_map_iff in Hw. destruct Hw as (t & <- & _). pose proof (Z.mod_pos_bound (Z.of_nat t) (Z.of_nat m) ltac:(lia)). lia.
Qed.
