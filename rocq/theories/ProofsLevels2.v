(** * Rounding of positive fractions, computed; the numbers of slices and bins up to 100. *)
From Coq Require Import Reals String List Arith ZArith Bool Lia Lra Psatz.
From Flocq Require Import Core.
From Verif Require Import Base Arrays ModelDouble ProofsDouble ProofsDouble2 ProofsDouble4 ProofsDouble5 ModelLevels SpecLevels ProofsLevels.
Import ListNotations.
Local Open Scope R_scope.

(** The nearest integer of a fraction, ties to even. *)
Definition zround (a b : Z) : Z :=
  let m := (a / b)%Z in let r := (a mod b)%Z in
  match (2 * r ?= b)%Z with Lt => m | Gt => (m + 1)%Z | Eq => if Z.even m then m else (m + 1)%Z end.

Lemma zround_spec : forall a b, (0 < b)%Z -> ZnearestE (IZR a / IZR b) = zround a b.
Proof.
  intros a b B. assert (BR : 0 < IZR b) by (apply IZR_lt; auto).
  assert (FL : Zfloor (IZR a / IZR b) = (a / b)%Z) by (apply Zfloor_div; lia).
  pose proof (Z.div_mod a b ltac:(lia)) as D. pose proof (Z.mod_pos_bound a b B) as M.
  assert (DR : IZR a / IZR b - IZR (a / b) = IZR (a mod b) / IZR b).
  { rewrite D at 1. rewrite plus_IZR, mult_IZR. field. lra. }
  unfold Znearest. rewrite FL, DR. unfold zround. cbv zeta.
  assert (C : Rcompare (IZR (a mod b) / IZR b) (/ 2) = (2 * (a mod b) ?= b)%Z).
  { rewrite <- Rcompare_IZR. rewrite mult_IZR. rewrite <- (Rcompare_mult_r (2 * IZR b)) by lra.
    replace (IZR (a mod b) / IZR b * (2 * IZR b)) with (2 * IZR (a mod b)) by (field; lra).
    replace (/ 2 * (2 * IZR b)) with (IZR b) by field. reflexivity. }
  rewrite C. pose proof (Zceil_floor_neq (IZR a / IZR b)) as CN. rewrite FL in CN.
  assert (NE : (0 < a mod b)%Z -> Zceil (IZR a / IZR b) = (a / b + 1)%Z).
  { intros P. apply CN. intros E. rewrite E in DR. rewrite Rminus_diag_eq in DR by auto. assert (0 < IZR (a mod b) / IZR b); [|lra].
    apply Rmult_lt_0_compat; [apply IZR_lt; auto|apply Rinv_0_lt_compat; auto]. }
  destruct (Z.compare_spec (2 * (a mod b)) b) as [E|E|E]; auto.
  - destruct (Z.even (a / b)); cbn [negb]; auto. apply NE. lia.
  - apply NE. lia.
Qed.

(** The double nearest to [p / q], as a fraction; [None] if the exponent is out of the range that is computed. *)
Definition rnd (pq : Z * Z) : option (Z * Z) :=
  let '(p, q) := pq in
  let e0 := (Z.log2 p - Z.log2 q - 52)%Z in
  let scale := fun e => if (e <=? 0)%Z then ((p * 2 ^ (- e))%Z, q) else (p, (q * 2 ^ e)%Z) in
  let e := if (fst (scale e0) <? snd (scale e0) * 2 ^ 52)%Z then (e0 - 1)%Z else e0 in
  let '(a, b) := scale e in
  if ((0 <? p) && (0 <? q) && (-1074 <=? e) && (b * 2 ^ 52 <=? a) && (a <? b * 2 ^ 53))%Z
  then let m := zround a b in Some (if (e <=? 0)%Z then (m, (2 ^ (- e))%Z) else ((m * 2 ^ e)%Z, 1%Z))
  else None.

Lemma rnd_spec : forall p q p' q', rnd (p, q) = Some (p', q') -> (0 < p')%Z /\ (0 < q')%Z /\ fl (IZR p / IZR q) = IZR p' / IZR q'.
Proof.
  intros p q p' q'. unfold rnd. set (e0 := (Z.log2 p - Z.log2 q - 52)%Z). cbv zeta beta. set (e := if (_ <? _)%Z then _ else _). clearbody e. clear e0.
  set (ab := if (e <=? 0)%Z then ((p * 2 ^ (- e))%Z, q) else (p, (q * 2 ^ e)%Z)). destruct ab as [a b] eqn:EAB.
  destruct (((0 <? p) && (0 <? q) && (-1074 <=? e) && (b * 2 ^ 52 <=? a) && (a <? b * 2 ^ 53))%Z) eqn:G; [|discriminate].
  intros H. repeat rewrite andb_true_iff in G. destruct G as ((((P & Q) & E) & L) & U).
  apply Z.ltb_lt in P, Q, U. apply Z.leb_le in E, L.
  assert (PR : 0 < IZR p) by (apply IZR_lt; auto). assert (QR : 0 < IZR q) by (apply IZR_lt; auto).
  assert (BP : (0 < b)%Z /\ IZR a / IZR b = IZR p / IZR q * bpow radix2 (- e)).
  { unfold ab in EAB. destruct (Z.leb_spec e 0) as [Z|Z]; injection EAB as <- <-.
    - split; auto. rewrite mult_IZR. replace (bpow radix2 (- e)) with (IZR (2 ^ - e)) by (rewrite <- IZR_Zpower by lia; reflexivity). field. lra.
    - assert (PE : (0 < 2 ^ e)%Z) by (apply Z.pow_pos_nonneg; lia). split; [nia|].
      rewrite bpow_opp, mult_IZR. replace (bpow radix2 e) with (IZR (2 ^ e)) by (rewrite <- IZR_Zpower by lia; reflexivity).
      apply IZR_lt in PE. field. lra. }
  destruct BP as (B & V). assert (BR : 0 < IZR b) by (apply IZR_lt; auto).
  assert (LR : bpow radix2 52 <= IZR a / IZR b < bpow radix2 53).
  { change (bpow radix2 52) with (IZR (2 ^ 52)). change (bpow radix2 53) with (IZR (2 ^ 53)).
    split; [apply (Rmult_le_reg_r (IZR b))|apply (Rmult_lt_reg_r (IZR b))]; auto; unfold Rdiv; rewrite Rmult_assoc, Rinv_l, Rmult_1_r by lra; rewrite <- mult_IZR;
    [apply IZR_le|apply IZR_lt]; lia. }
  assert (X : IZR p / IZR q = IZR a / IZR b * bpow radix2 e).
  { rewrite V, Rmult_assoc, <- bpow_plus. replace (- e + e)%Z with 0%Z by lia. simpl. ring. }
  assert (F : fl (IZR p / IZR q) = IZR (zround a b) * bpow radix2 e).
  { unfold fl, round, F2R, scaled_mantissa. simpl Fnum. simpl Fexp.
    assert (C : cexp radix2 (FLT_exp (-1074) 53) (IZR p / IZR q) = e).
    { unfold cexp. rewrite (mag_unique radix2 (IZR p / IZR q) (e + 53)).
      - unfold FLT_exp. lia.
      - pose proof (bpow_gt_0 radix2 52). pose proof (bpow_gt_0 radix2 e). rewrite X, Rabs_pos_eq by (apply Rmult_le_pos; lra).
        replace (e + 53 - 1)%Z with (52 + e)%Z by lia. replace (e + 53)%Z with (53 + e)%Z by lia. rewrite !bpow_plus.
        split; [apply Rmult_le_compat_r; lra|apply Rmult_lt_compat_r; lra]. }
    rewrite C. f_equal. f_equal. rewrite <- V. apply zround_spec. auto. }
  assert (MP : (0 < zround a b)%Z).
  { assert (1 <= a / b)%Z by (apply Z.div_le_lower_bound; lia). unfold zround. cbv zeta. destruct (_ ?= _)%Z; try lia. destruct (Z.even _); lia. }
  rewrite F. destruct (Z.leb_spec e 0) as [Z|Z]; injection H as <- <-.
  - assert (PE : (0 < 2 ^ - e)%Z) by (apply Z.pow_pos_nonneg; lia). repeat split; auto.
    replace (IZR (2 ^ - e)) with (bpow radix2 (- e)) by (rewrite <- IZR_Zpower by lia; reflexivity). unfold Rdiv. rewrite bpow_opp, Rinv_inv. reflexivity.
  - assert (PE : (0 < 2 ^ e)%Z) by (apply Z.pow_pos_nonneg; lia). split; [nia|]. split; [lia|].
    rewrite mult_IZR. replace (IZR (2 ^ e)) with (bpow radix2 e) by (rewrite <- IZR_Zpower by lia; reflexivity). unfold Rdiv. rewrite Rinv_1. ring.
Qed.

(** Whether the quotients that decide the number of levels stay at their exact values. *)
Definition pawn_fitsb (n : Z) : option bool :=
  match rnd (1, n)%Z with
  | Some (a, b) => match rnd (a + b, b)%Z with
    | Some (c, d) => match rnd (c * b, d * a)%Z with Some (x, y) => Some (x <=? (n + 1) * y)%Z | None => None end
    | None => None end
  | None => None end.
Definition rsa_fitsb (n : Z) : option bool :=
  match rnd (1, n)%Z with
  | Some (a, b) => match rnd (b, a)%Z with Some (x, y) => Some (x <=? n * y)%Z | None => None end
  | None => None end.

Lemma frac_le : forall x y z, (0 < y)%Z -> (IZR x / IZR y <= IZR z <-> (x <= z * y)%Z).
Proof.
  intros x y z Y. assert (YR : 0 < IZR y) by (apply IZR_lt; auto). split; intros H.
  - apply le_IZR. rewrite mult_IZR. apply (Rmult_le_compat_r (IZR y)) in H; [|lra]. unfold Rdiv in H. rewrite Rmult_assoc, Rinv_l in H by lra. lra.
  - apply IZR_le in H. rewrite mult_IZR in H. apply (Rmult_le_reg_r (IZR y)); auto. unfold Rdiv. rewrite Rmult_assoc, Rinv_l by lra. lra.
Qed.

Lemma pawn_fitsb_spec : forall n b, pawn_fitsb (Z.of_nat n) = Some b -> (pawn_fits n <-> b = true).
Proof.
  intros n ans H. unfold pawn_fitsb in H. unfold pawn_fits. rewrite INR_IZR_INZ.
  destruct (rnd (1, Z.of_nat n)%Z) as [[a b]|] eqn:R1; [|discriminate]. apply rnd_spec in R1. destruct R1 as (A & B & R1).
  destruct (rnd (a + b, b)%Z) as [[c d]|] eqn:R2; [|discriminate]. apply rnd_spec in R2. destruct R2 as (C & D & R2).
  destruct (rnd (c * b, d * a)%Z) as [[x y]|] eqn:R3; [|discriminate]. apply rnd_spec in R3. destruct R3 as (X & Y & R3).
  injection H as <-. rewrite R1. apply IZR_lt in A, B, C, D.
  replace (1 + IZR a / IZR b) with (IZR (a + b) / IZR b) by (rewrite plus_IZR; field; lra). rewrite R2.
  replace (IZR c / IZR d / (IZR a / IZR b)) with (IZR (c * b) / IZR (d * a)) by (rewrite !mult_IZR; field; lra). rewrite R3.
  rewrite <- plus_IZR. rewrite frac_le by auto. rewrite Z.leb_le. tauto.
Qed.
Lemma rsa_fitsb_spec : forall n b, rsa_fitsb (Z.of_nat n) = Some b -> (rsa_fits n <-> b = true).
Proof.
  intros n ans H. unfold rsa_fitsb in H. unfold rsa_fits. rewrite !INR_IZR_INZ.
  destruct (rnd (1, Z.of_nat n)%Z) as [[a b]|] eqn:R1; [|discriminate]. apply rnd_spec in R1. destruct R1 as (A & B & R1).
  destruct (rnd (b, a)%Z) as [[x y]|] eqn:R3; [|discriminate]. apply rnd_spec in R3. destruct R3 as (X & Y & R3).
  injection H as <-. rewrite R1. apply IZR_lt in A, B.
  replace (1 / (IZR a / IZR b)) with (IZR b / IZR a) by (field; lra). rewrite R3.
  rewrite frac_le by auto. rewrite Z.leb_le. tauto.
Qed.

Definition pawn_bad : list nat := [6; 9; 21; 24; 28; 29; 30; 38; 46; 49; 54; 57; 73; 81; 87; 94; 96]%nat.
Definition rsa_bad : list nat := [49; 98]%nat.

Definition agrees (f : Z -> option bool) (bad : list nat) (n : nat) : bool :=
  match f (Z.of_nat n) with Some b => Bool.eqb b (negb (existsb (Nat.eqb n) bad)) | None => false end.
Lemma pawn_hundred : forallb (agrees pawn_fitsb pawn_bad) (seq 1 100) = true.
Proof. vm_compute. reflexivity. Qed.
Lemma rsa_hundred : forallb (agrees rsa_fitsb rsa_bad) (seq 1 100) = true.
Proof. vm_compute. reflexivity. Qed.

Lemma agrees_spec : forall f (P : nat -> Prop) bad, (forall n b, f (Z.of_nat n) = Some b -> (P n <-> b = true)) -> forallb (agrees f bad) (seq 1 100) = true ->
  forall n, (1 <= n <= 100)%nat -> (P n <-> ~ In n bad).
Proof.
  intros f P bad HF HA n Hn. rewrite forallb_forall in HA. specialize (HA n ltac:(apply in_seq; lia)). unfold agrees in HA.
  destruct (f (Z.of_nat n)) as [b|] eqn:E; [|discriminate]. rewrite (HF n b E). apply Bool.eqb_prop in HA. rewrite HA, negb_true_iff. split.
  - intros H I. assert (T : existsb (Nat.eqb n) bad = true); [|congruence]. apply existsb_exists. exists n. split; auto. apply Nat.eqb_refl.
  - intros H. destruct (existsb (Nat.eqb n) bad) eqn:X; auto. apply existsb_exists in X. destruct X as (m & Hm & Em). apply Nat.eqb_eq in Em. subst. contradiction.
Qed.
Lemma pawn_fits_100 : forall n, (1 <= n <= 100)%nat -> (pawn_fits n <-> ~ In n pawn_bad).
Proof. exact (agrees_spec _ _ _ pawn_fitsb_spec pawn_hundred). Qed.
Lemma rsa_fits_100 : forall n, (1 <= n <= 100)%nat -> (rsa_fits n <-> ~ In n rsa_bad).
Proof. exact (agrees_spec _ _ _ rsa_fitsb_spec rsa_hundred). Qed.
