(** * Proofs about the Sobol' sequence. *)
From Coq Require Import Reals List Arith NArith ZArith Bool Lia Lra FinFun.
From Verif Require Import Base Arrays ModelSobolSeq SpecSobolSeq.
Import ListNotations.
Local Open Scope nat_scope.

(** ** Bits *)
Lemma testbit_above : forall v n b, (v < 2 ^ n)%N -> (n <= b)%N -> N.testbit v b = false.
Proof.
  intros v n b Hv Hb. rewrite <- (N.mod_small v (2 ^ n)) by auto. apply N.mod_pow2_bits_high. auto.
Qed.

Lemma below_of_bits : forall v n, (forall b, (n <= b)%N -> N.testbit v b = false) -> (v < 2 ^ n)%N.
Proof.
  intros v n H. assert (E : (v mod 2 ^ n = v)%N).
  { apply N.bits_inj. intros b. destruct (N.lt_ge_cases b n).
    - apply N.mod_pow2_bits_low. auto.
    - rewrite N.mod_pow2_bits_high, H by auto. auto. }
  rewrite <- E. apply N.mod_lt. apply N.pow_nonzero. lia.
Qed.

(** [v] is 2^(31-j) times an odd number and below 2^31. *)
Definition dir (j : nat) (v : N) : Prop :=
  N.testbit v (31 - N.of_nat j) = true /\
  forall b, (b < 31 - N.of_nat j \/ 31 <= b)%N -> N.testbit v b = false.

Lemma dir_shift : forall m j, 1 <= j <= 31 -> N.odd m = true -> (m < 2 ^ N.of_nat j)%N ->
  dir j (N.shiftl m (31 - N.of_nat j)).
Proof.
  intros m j Hj Ho Hm. split.
  - rewrite N.shiftl_spec_high by lia. rewrite N.sub_diag, N.bit0_odd. auto.
  - intros b [Hb|Hb].
    + apply N.shiftl_spec_low. auto.
    + rewrite N.shiftl_spec_high by lia. apply testbit_above with (n := N.of_nat j); auto. lia.
Qed.

Lemma shift_up_ok : forall x j, j <= 31 -> shift_up x j = Ok (N.shiftl x (31 - N.of_nat j)).
Proof.
  intros x j H. unfold shift_up, scale. replace (N.of_nat j <=? 31)%N with true; auto.
  symmetry. apply N.leb_le. lia.
Qed.

Lemma dir_recur : forall j s x, 1 <= s -> s < j -> j <= 31 -> dir (j - s) x ->
  dir j (N.lxor x (N.shiftr x (N.of_nat s))).
Proof.
  intros j s x Hs Hsj Hj [H1 H2]. split.
  - rewrite N.lxor_spec, N.shiftr_spec by lia. rewrite H2 by lia.
    replace (31 - N.of_nat j + N.of_nat s)%N with (31 - N.of_nat (j - s))%N by lia. rewrite H1. auto.
  - intros b Hb. rewrite N.lxor_spec, N.shiftr_spec by lia. rewrite !H2 by lia. auto.
Qed.

Lemma dir_mix : forall j k c y a sh, 1 <= k -> k < j -> j <= 31 -> dir j c -> dir (j - k) y ->
  dir j (N.lxor c (N.mul (N.land (N.shiftr a sh) 1) y)).
Proof.
  intros j k c y a sh Hk Hkj Hj [H1 H2] [H3 H4].
  assert (E : (N.land (N.shiftr a sh) 1 * y = 0 \/ N.land (N.shiftr a sh) 1 * y = y)%N).
  { change 1%N with (N.ones 1). rewrite N.land_ones. change (2 ^ 1)%N with 2%N.
    pose proof (N.mod_lt (N.shiftr a sh) 2 ltac:(discriminate)) as Hm.
    generalize dependent (N.shiftr a sh mod 2)%N. intros m Hm.
    assert (Hc : m = 0%N \/ m = 1%N) by lia. destruct Hc as [-> | ->]; lia. }
  destruct E as [-> | ->].
  - rewrite N.lxor_0_r. split; auto.
  - split.
    + rewrite N.lxor_spec, H1, H4 by lia. auto.
    + intros b Hb. rewrite N.lxor_spec, H2, H4 by lia. auto.
Qed.

(** ** Direction numbers *)
Definition filled (V : list N) (L n : nat) : Prop :=
  length V = L + 1 /\ forall j, 1 <= j <= n -> exists v, nth_error V j = Some v /\ dir j v.

Lemma set_V_ok : forall V j v, j < length V -> set_V V j v = Ok (update V j v).
Proof. intros. unfold set_V. replace (j <? length V) with true; auto. symmetry. apply Nat.ltb_lt; auto. Qed.

Lemma filled_set : forall V L n v, filled V L n -> S n <= L -> dir (S n) v ->
  filled (update V (S n) v) L (S n).
Proof.
  intros V L n v [HL H] Hn Hd. split; [rewrite length_update; auto|].
  intros j Hj. rewrite nth_error_update. destruct (Nat.eqb_spec j (S n)) as [->|Hne].
  - replace (S n <? length V) with true by (symmetry; apply Nat.ltb_lt; lia). simpl. eauto.
  - simpl. apply H. lia.
Qed.

Lemma filled_reset : forall V L n v, filled V L n -> n <= L -> 1 <= n -> dir n v -> filled (update V n v) L n.
Proof.
  intros V L n v [HL H] Hn H1 Hd. split; [rewrite length_update; auto|].
  intros j Hj. rewrite nth_error_update. destruct (Nat.eqb_spec j n) as [->|Hne].
  - replace (n <? length V) with true by (symmetry; apply Nat.ltb_lt; lia). simpl. eauto.
  - simpl. apply H. lia.
Qed.

Lemma filled_get : forall V L n j, filled V L n -> 1 <= j <= n -> exists v, get V j = Ok v /\ dir j v.
Proof. intros V L n j [_ H] Hj. destruct (H j Hj) as (v & E & Hd). exists v. unfold get. rewrite E. auto. Qed.

(** A loop that fills one more entry per round. *)
Lemma fill_loop : forall (step : list N -> nat -> result (list N)) L upto,
  (forall V n, n < upto -> filled V L n -> exists V', step V (S n) = Ok V' /\ filled V' L (S n)) ->
  forall k n V, n + k <= upto -> filled V L n ->
  exists V', foldM step (seq (S n) k) V = Ok V' /\ filled V' L (n + k).
Proof.
  intros step L upto H. induction k as [|k IH]; intros n V Hk HF; cbn [seq foldM].
  - exists V. rewrite Nat.add_0_r. auto.
  - destruct (H V n) as (V1 & E1 & F1); [lia|auto|]. rewrite E1. cbn [bind].
    destruct (IH (S n) V1) as (V2 & E2 & F2); [lia|auto|]. exists V2. split; auto.
    replace (n + S k) with (S n + k) by lia. auto.
Qed.

Lemma filled_0 : forall L, filled (repeat 0%N (L + 1)) L 0.
Proof. intros L. split; [apply repeat_length|]. intros j Hj. lia. Qed.

Lemma first_V_ok : forall L, L <= 31 -> exists V, first_V L = Ok V /\ filled V L L.
Proof.
  intros L HL. unfold first_V.
  apply (fill_loop _ L L) with (n := 0) (k := L); auto using filled_0.
  intros V n Hn HF. rewrite shift_up_ok by lia. cbn [bind]. assert (HF' := HF). destruct HF' as [HV _].
  rewrite set_V_ok by lia. eexists. split; [reflexivity|].
  apply filled_set; auto; try lia. apply dir_shift; auto; try lia.
  assert (1 < 2 ^ N.of_nat (S n))%N; [|lia]. apply N.pow_gt_1; lia.
Qed.

Lemma table_V_ok : forall a ms L upto,
  (forall j m, nth_error ms j = Some m -> N.odd m = true /\ (m < 2 ^ N.of_nat (S j))%N) ->
  upto <= length ms -> upto <= L -> L <= 31 ->
  exists V, table_V (a :: ms) upto (repeat 0%N (L + 1)) = Ok V /\ filled V L upto.
Proof.
  intros a ms L upto Hm H1 H2 H3. unfold table_V.
  apply (fill_loop _ L upto) with (n := 0) (k := upto); auto using filled_0.
  intros V n Hn HF. destruct (nth_error_lt_Some ms (i:=n)) as [m Em]; [lia|].
  unfold get at 1. cbn [nth_error]. rewrite Em. cbn [bind].
  rewrite shift_up_ok by lia. cbn [bind]. assert (HF' := HF). destruct HF' as [HV _].
  rewrite set_V_ok by lia. eexists. split; [reflexivity|].
  destruct (Hm n m Em). apply filled_set; auto; try lia. apply dir_shift; auto; lia.
Qed.

Lemma recur_inner : forall a s j L ks V, 1 <= s -> s < j -> j <= L -> L <= 31 ->
  (forall k, In k ks -> 1 <= k < s) -> filled V L j ->
  exists V', foldM (fun V k => do c <- get V j ;;
                    do y <- get V (j - k) ;;
                    set_V V j (N.lxor c (N.mul (N.land (N.shiftr a (N.of_nat (s - 1 - k))) 1) y))) ks V
             = Ok V' /\ filled V' L j.
Proof.
  intros a s j L. induction ks as [|k ks IH]; intros V Hs Hsj Hj HL Hks HF; cbn [foldM].
  - eauto.
  - pose proof (Hks k (or_introl eq_refl)).
    destruct (filled_get V L j j) as (c & Ec & Dc); [auto|lia|].
    destruct (filled_get V L j (j - k)) as (y & Ey & Dy); [auto|lia|].
    rewrite Ec. cbn [bind]. rewrite Ey. cbn [bind]. assert (HV := proj1 HF).
    rewrite set_V_ok by lia. cbn [bind].
    apply IH; auto. { intros k' Hk'. apply Hks. simpl; auto. }
    apply filled_reset; auto; try lia. apply (dir_mix j k); auto; lia.
Qed.

Lemma recur_V_ok : forall a s L n V, 1 <= s -> s <= n -> n < L -> L <= 31 -> filled V L n ->
  exists V', recur_V a s V (S n) = Ok V' /\ filled V' L (S n).
Proof.
  intros a s L n V Hs Hsn Hn HL HF. unfold recur_V.
  destruct (filled_get V L n (S n - s)) as (x & Ex & Dx); [auto|lia|].
  rewrite Ex. cbn [bind]. assert (HV := proj1 HF). rewrite set_V_ok by lia. cbn [bind].
  apply recur_inner; auto; try lia.
  - intros k Hk. apply in_seq in Hk. lia.
  - apply filled_set; auto. apply dir_recur; auto; lia.
Qed.

(** As [fill_loop], starting from entry [lo]. *)
Lemma fill_loop_from : forall (step : list N -> nat -> result (list N)) L lo upto,
  (forall V n, lo <= n -> n < upto -> filled V L n -> exists V', step V (S n) = Ok V' /\ filled V' L (S n)) ->
  forall k n V, lo <= n -> n + k <= upto -> filled V L n ->
  exists V', foldM step (seq (S n) k) V = Ok V' /\ filled V' L (n + k).
Proof.
  intros step L lo upto H. induction k as [|k IH]; intros n V Hlo Hk HF; cbn [seq foldM].
  - exists V. rewrite Nat.add_0_r. auto.
  - destruct (H V n) as (V1 & E1 & F1); auto; [lia|]. rewrite E1. cbn [bind].
    destruct (IH (S n) V1) as (V2 & E2 & F2); auto; try lia. exists V2. split; auto.
    replace (n + S k) with (S n + k) by lia. auto.
Qed.

Lemma dimension_V_ok : forall table L i, Forall good_row table -> i < length table + 1 -> L <= 31 ->
  exists V, dimension_V table L i = Ok V /\ filled V L L.
Proof.
  intros table L i HT Hi HL. unfold dimension_V. destruct (Nat.eqb_spec i 0); [apply first_V_ok; auto|].
  destruct (nth_error_lt_Some table (i:=i - 1)) as [r Er]; [lia|].
  rewrite Forall_forall in HT. destruct (HT r) as (a & ms & -> & Hne & _ & Hm); [eapply nth_error_In; eauto|].
  unfold get at 1. rewrite Er. cbn [bind]. unfold get at 1. cbn [nth_error bind length].
  rewrite Nat.sub_succ, Nat.sub_0_r.
  assert (1 <= length ms) by (destruct ms; simpl in *; [congruence|lia]).
  destruct (Nat.leb_spec L (length ms)).
  - apply table_V_ok; auto.
  - destruct (table_V_ok a ms L (length ms)) as (V & E & F); auto; try lia.
    rewrite E. cbn [bind].
    destruct (fill_loop_from (recur_V a (length ms)) L (length ms) L)
      with (n := length ms) (k := L - length ms) (V := V) as (V' & E' & F'); auto; try lia.
    + intros V1 n1 Hn1 Hn2 HF. apply recur_V_ok; auto; lia.
    + rewrite Nat.add_1_r. exists V'. split; auto.
      replace (length ms + (L - length ms)) with L in F' by lia. auto.
Qed.

(** ** Gray code *)
Definition gray (n : N) : N := N.lxor n (N.div2 n).

Lemma gray_lxor : forall a b, gray (N.lxor a b) = N.lxor (gray a) (gray b).
Proof.
  intros a b. unfold gray. apply N.bits_inj. intros i.
  rewrite !N.lxor_spec, !N.div2_spec, !N.shiftr_spec, !N.lxor_spec by lia.
  destruct (N.testbit a i), (N.testbit b i), (N.testbit a (i + 1)), (N.testbit b (i + 1)); auto.
Qed.

Lemma gray_spec : forall n i, N.testbit (gray n) i = xorb (N.testbit n i) (N.testbit n (i + 1)).
Proof. intros. unfold gray. rewrite N.lxor_spec, N.div2_spec, N.shiftr_spec by lia. auto. Qed.

Lemma lsz_pos_ge : forall p, 1 <= lsz_pos p.
Proof. induction p; simpl; lia. Qed.
Lemma lsz_ge : forall v, 1 <= lsz v.
Proof. destruct v; simpl; [lia|apply lsz_pos_ge]. Qed.

Lemma lsz_double : forall n, lsz (N.double n) = 1.
Proof. destruct n; reflexivity. Qed.
Lemma lsz_succ_double : forall n, lsz (N.succ_double n) = S (lsz n).
Proof. destruct n; reflexivity. Qed.

Lemma N_binary : forall P : N -> Prop, P 0%N -> (forall n, P n -> P (N.double n)) ->
  (forall n, P n -> P (N.succ_double n)) -> forall n, P n.
Proof.
  intros P H0 Hd Hs n. destruct n as [|p]; auto. induction p.
  - apply (Hs (N.pos p)). auto.
  - apply (Hd (N.pos p)). auto.
  - apply (Hs 0%N). auto.
Qed.

Lemma gray_step : forall v, N.lxor (gray v) (gray (v + 1)) = (2 ^ N.of_nat (lsz v - 1))%N.
Proof.
  assert (Even : forall n, N.lxor (gray (N.double n)) (gray (N.double n + 1)) = 1%N).
  { intros n. rewrite N.double_spec. unfold gray.
    replace (N.div2 (2 * n)) with n by (rewrite N.div2_double; auto).
    replace (N.div2 (2 * n + 1)) with n by (rewrite <- N.succ_double_spec, N.div2_succ_double; auto).
    apply N.bits_inj. intros i. rewrite !N.lxor_spec.
    destruct (N.eq_dec i 0) as [->|Hi].
    - rewrite N.testbit_even_0, N.testbit_odd_0. destruct (N.testbit n 0); reflexivity.
    - replace i with (N.succ (N.pred i)) by lia.
      rewrite N.testbit_even_succ, N.testbit_odd_succ by lia.
      destruct (N.testbit n (N.pred i)), (N.testbit n (N.succ (N.pred i))); destruct (N.pred i); reflexivity. }
  intros v0. revert v0. refine (N_binary _ _ _ _).
  - reflexivity.
  - intros n0 _. rewrite Even, lsz_double. reflexivity.
  - intros n IH. rewrite lsz_succ_double. pose proof (lsz_ge n).
    replace (S (lsz n) - 1) with (S (lsz n - 1)) by lia. rewrite Nat2N.inj_succ, N.pow_succ_r', <- IH.
    rewrite N.succ_double_spec. replace (2 * n + 1 + 1)%N with (2 * (n + 1))%N by lia.
    unfold gray. replace (N.div2 (2 * n + 1)) with n by (rewrite <- N.succ_double_spec, N.div2_succ_double; auto).
    replace (N.div2 (2 * (n + 1))) with (n + 1)%N by (rewrite N.div2_double; auto).
    apply N.bits_inj. intros i. destruct (N.eq_dec i 0) as [->|Hi].
    + rewrite !N.lxor_spec, !N.testbit_even_0, N.testbit_odd_0.
      rewrite !N.bit0_odd, N.odd_add. simpl (N.odd 1). destruct (N.odd n); reflexivity.
    + replace i with (N.succ (N.pred i)) by lia. rewrite N.testbit_even_succ by lia.
      rewrite !N.lxor_spec, N.testbit_odd_succ, N.testbit_even_succ by lia.
      rewrite !N.div2_spec, !N.shiftr_spec by lia.
      replace (N.pred i + 1)%N with (N.succ (N.pred i)) by lia. auto.
Qed.

Lemma lsz_bound : forall v, (2 ^ N.of_nat (lsz v - 1) <= v + 1)%N.
Proof.
  refine (N_binary _ _ _ _).
  - simpl. lia.
  - intros n0 _. rewrite lsz_double. simpl. lia.
  - intros n IH. rewrite lsz_succ_double. pose proof (lsz_ge n).
    replace (S (lsz n) - 1) with (S (lsz n - 1)) by lia. rewrite Nat2N.inj_succ, N.pow_succ_r'.
    rewrite N.succ_double_spec. lia.
Qed.

Lemma pow_N_nat : forall k, N.of_nat (2 ^ k) = (2 ^ N.of_nat k)%N.
Proof. intros. rewrite Nat2N.inj_pow. reflexivity. Qed.

Lemma lsz_le : forall j L, j + 1 < 2 ^ L -> lsz (N.of_nat j) <= L.
Proof.
  intros j L H. pose proof (lsz_bound (N.of_nat j)) as B. pose proof (lsz_ge (N.of_nat j)).
  destruct (Nat.le_gt_cases (lsz (N.of_nat j)) L); auto. exfalso.
  assert (2 ^ N.of_nat L <= 2 ^ N.of_nat (lsz (N.of_nat j) - 1))%N by (apply N.pow_le_mono_r; lia).
  rewrite <- pow_N_nat in H2. lia.
Qed.

(** ** Points as linear combinations of direction numbers *)
Section Points.
Variables (V : list N) (L : nat).
Hypothesis (HF : filled V L L) (HL31 : L <= 31).

Fixpoint point (j : nat) : N :=
  match j with 0 => 0%N | S j' => N.lxor (point j') (nth (lsz (N.of_nat j')) V 0%N) end.

Lemma x_values_ok : forall n a, (forall j, j < a + n -> lsz (N.of_nat j) <= L) ->
  x_values V (point a) (seq (S a) n) = Ok (map point (seq (S a) n)).
Proof.
  induction n as [|n IH]; intros a H; cbn [seq x_values map]; auto.
  rewrite Nat.sub_succ, Nat.sub_0_r. pose proof (lsz_ge (N.of_nat a)).
  assert (Hl : lsz (N.of_nat a) <= L) by (apply H; lia).
  unfold get. rewrite (nth_error_nth' V 0%N) by (rewrite (proj1 HF); lia). cbn [bind].
  change (N.lxor (point a) (nth (lsz (N.of_nat a)) V 0%N)) with (point (S a)).
  rewrite IH by (intros; apply H; lia). reflexivity.
Qed.

Definition lin (g : N) (is : list nat) : N :=
  fold_right (fun i acc => if N.testbit g (N.of_nat i) then N.lxor (nth (S i) V 0%N) acc else acc) 0%N is.

Lemma lin_lxor : forall g h is, lin (N.lxor g h) is = N.lxor (lin g is) (lin h is).
Proof.
  induction is as [|i is IH]; simpl; auto. rewrite N.lxor_spec, IH.
  destruct (N.testbit g (N.of_nat i)), (N.testbit h (N.of_nat i)); simpl; auto;
    apply N.bits_inj; intros b; rewrite !N.lxor_spec;
    destruct (N.testbit (nth (S i) V 0%N) b), (N.testbit (lin g is) b), (N.testbit (lin h is) b); auto.
Qed.

Lemma lin_pow : forall t is, NoDup is ->
  lin (2 ^ N.of_nat t) is = if existsb (Nat.eqb t) is then nth (S t) V 0%N else 0%N.
Proof.
  intros t. induction is as [|i is IH]; intros ND; simpl; auto. inversion ND; subst.
  rewrite N.pow2_bits_eqb. rewrite IH by auto.
  destruct (Nat.eqb_spec t i) as [->|Hne].
  - rewrite N.eqb_refl. simpl orb.
    replace (existsb (Nat.eqb i) is) with false; [apply N.lxor_0_r|].
    symmetry. apply not_true_is_false. rewrite existsb_exists. intros (y & Hy & E).
    apply Nat.eqb_eq in E. subst. auto.
  - replace (N.of_nat t =? N.of_nat i)%N with false; auto. symmetry. apply N.eqb_neq. lia.
Qed.

Lemma point_lin : forall j, j < 2 ^ L -> point j = lin (gray (N.of_nat j)) (seq 0 L).
Proof.
  induction j as [|j IH]; intros H.
  - simpl. clear. induction (seq 0 L); simpl; auto.
  - cbn [point]. rewrite IH by lia. pose proof (lsz_ge (N.of_nat j)).
    assert (Hl : lsz (N.of_nat j) <= L) by (apply lsz_le; lia).
    assert (E : nth (lsz (N.of_nat j)) V 0%N = lin (2 ^ N.of_nat (lsz (N.of_nat j) - 1)) (seq 0 L)).
    { rewrite lin_pow by apply seq_NoDup.
      replace (existsb (Nat.eqb (lsz (N.of_nat j) - 1)) (seq 0 L)) with true.
      - f_equal. lia.
      - symmetry. apply existsb_exists. exists (lsz (N.of_nat j) - 1). rewrite Nat.eqb_refl, in_seq. split; auto. lia. }
    rewrite E, <- lin_lxor, <- gray_step. f_equal.
    replace (N.of_nat (S j)) with (N.of_nat j + 1)%N by lia.
    rewrite <- N.lxor_assoc, N.lxor_nilpotent, N.lxor_0_l. auto.
Qed.

Lemma dir_nth : forall i, i < L -> dir (S i) (nth (S i) V 0%N).
Proof.
  intros i Hi. destruct HF as [HV H]. destruct (H (S i)) as (v & E & D); [lia|].
  rewrite (nth_error_nth _ _ _ E). auto.
Qed.

Lemma lin_high : forall g is, (forall i, In i is -> i < L) -> forall b, (31 <= b)%N ->
  N.testbit (lin g is) b = false.
Proof.
  induction is as [|i is IH]; intros Hi b Hb; simpl; [reflexivity|].
  destruct (N.testbit g (N.of_nat i)); [|apply IH; auto; intros; apply Hi; simpl; auto].
  rewrite N.lxor_spec, IH by (auto; intros; apply Hi; simpl; auto).
  rewrite (proj2 (dir_nth i (Hi i (or_introl eq_refl)))) by auto. auto.
Qed.

Lemma point_range : forall j, j < 2 ^ L -> (point j < 2 ^ 31)%N.
Proof.
  intros j H. rewrite point_lin by auto. apply below_of_bits. intros b Hb. apply lin_high; auto.
  intros i Hi. apply in_seq in Hi. lia.
Qed.

(** The highest selected direction number decides a bit. *)
Lemma lin_top : forall g t, t < L -> N.testbit g (N.of_nat t) = true ->
  (forall i, t < i -> N.testbit g (N.of_nat i) = false) ->
  forall is, NoDup is -> (forall i, In i is -> i < L) ->
  N.testbit (lin g is) (31 - N.of_nat (S t)) = existsb (Nat.eqb t) is.
Proof.
  intros g t Ht Hg Hhi. induction is as [|i is IH]; intros ND Hi; cbn [lin fold_right existsb]; [reflexivity|]. fold (lin g is).
  inversion ND; subst. specialize (IH H2 (fun i H => Hi i (or_intror H))).
  pose proof (Hi i (or_introl eq_refl)) as Hil.
  destruct (Nat.eqb_spec t i) as [->|Hne].
  - rewrite Hg, N.lxor_spec, IH. rewrite (proj1 (dir_nth i Hil)).
    replace (existsb (Nat.eqb i) is) with false; auto.
    symmetry. apply not_true_is_false. rewrite existsb_exists. intros (y & Hy & E).
    apply Nat.eqb_eq in E. subst. auto.
  - simpl orb. destruct (N.testbit g (N.of_nat i)) eqn:E; auto.
    rewrite N.lxor_spec, IH. rewrite (proj2 (dir_nth i Hil)); [destruct (existsb _ _); auto|].
    assert (i < t); [|lia]. destruct (Nat.lt_ge_cases i t); auto. rewrite Hhi in E by lia. discriminate.
Qed.

Lemma block_separated : forall k q j j', k <= L -> (q + 1) * 2 ^ k <= 2 ^ L ->
  q * 2 ^ k <= j < (q + 1) * 2 ^ k -> q * 2 ^ k <= j' < (q + 1) * 2 ^ k -> j <> j' ->
  N.shiftr (point j) (31 - N.of_nat k) <> N.shiftr (point j') (31 - N.of_nat k).
Proof.
  intros k q j j' Hk Hq Hj Hj' Hne E.
  assert (P0 : 0 < 2 ^ k) by (apply Nat.neq_0_lt_0, Nat.pow_nonzero; lia).
  set (d := N.lxor (N.of_nat j) (N.of_nat j')).
  assert (Hd0 : d <> 0%N).
  { unfold d. intros H. apply N.lxor_eq in H. lia. }
  assert (Hdk : (d < 2 ^ N.of_nat k)%N).
  { apply below_of_bits. intros b Hb. unfold d. rewrite N.lxor_spec.
    assert (Q : forall x, q * 2 ^ k <= x < (q + 1) * 2 ^ k ->
      N.testbit (N.of_nat x) b = N.testbit (N.of_nat q) (b - N.of_nat k)).
    { intros x Hx. replace b with ((b - N.of_nat k) + N.of_nat k)%N at 1 by lia.
      rewrite <- N.shiftr_spec by lia. f_equal. rewrite N.shiftr_div_pow2, <- pow_N_nat.
      symmetry. apply N.div_unique with (N.of_nat (x - q * 2 ^ k)); lia. }
    rewrite (Q j Hj), (Q j' Hj'). apply xorb_nilpotent. }
  set (t := N.to_nat (N.log2 d)).
  assert (Et : N.of_nat t = N.log2 d) by (unfold t; lia).
  assert (Htk : t < k).
  { assert (N.log2 d < N.of_nat k)%N; [|lia]. apply N.log2_lt_pow2; lia. }
  assert (G1 : N.testbit (gray d) (N.of_nat t) = true).
  { rewrite gray_spec, Et, N.bit_log2 by auto. rewrite N.bits_above_log2 by lia. auto. }
  assert (G2 : forall i, t < i -> N.testbit (gray d) (N.of_nat i) = false).
  { intros i Hi. rewrite gray_spec. rewrite !N.bits_above_log2 by lia. auto. }
  assert (T := lin_top (gray d) t ltac:(lia) G1 G2 (seq 0 L) (seq_NoDup _ _)).
  assert (T' : N.testbit (lin (gray d) (seq 0 L)) (31 - N.of_nat (S t)) = true).
  { rewrite T.
    - apply existsb_exists. exists t. rewrite Nat.eqb_refl, in_seq. split; auto. lia.
    - intros i Hi. apply in_seq in Hi. lia. }
  unfold d in T'. rewrite gray_lxor, lin_lxor, <- !point_lin, N.lxor_spec in T' by lia.
  assert (B : N.testbit (point j) (31 - N.of_nat (S t)) = N.testbit (point j') (31 - N.of_nat (S t))).
  { replace (31 - N.of_nat (S t))%N with ((N.of_nat k - N.of_nat (S t)) + (31 - N.of_nat k))%N by lia.
    rewrite <- !N.shiftr_spec by lia. rewrite E. auto. }
  rewrite B, xorb_nilpotent in T'. discriminate.
Qed.

(** Each aligned block of 2^k points meets each of the 2^k strata exactly once. *)
Lemma block_stratified : forall k q i, k <= L -> (q + 1) * 2 ^ k <= 2 ^ L -> i < 2 ^ k ->
  exists j, q * 2 ^ k <= j < (q + 1) * 2 ^ k /\
    N.shiftr (point j) (31 - N.of_nat k) = N.of_nat i /\
    forall j', q * 2 ^ k <= j' < (q + 1) * 2 ^ k ->
      N.shiftr (point j') (31 - N.of_nat k) = N.of_nat i -> j' = j.
Proof.
  intros k q i Hk Hq Hi.
  set (f := fun r => N.to_nat (N.shiftr (point (q * 2 ^ k + r)) (31 - N.of_nat k))).
  assert (BF : bFun (2 ^ k) f).
  { intros r Hr. unfold f. assert (N.shiftr (point (q * 2 ^ k + r)) (31 - N.of_nat k) < N.of_nat (2 ^ k))%N; [|lia].
    rewrite pow_N_nat. apply below_of_bits. intros b Hb. rewrite N.shiftr_spec by lia.
    rewrite point_lin by lia. apply lin_high; [|lia]. intros x Hx. apply in_seq in Hx. lia. }
  assert (BI : bInjective (2 ^ k) f).
  { intros r r' Hr Hr' E. unfold f in E. apply N2Nat.inj in E.
    destruct (Nat.eq_dec r r'); auto. exfalso.
    apply (block_separated k q (q * 2 ^ k + r) (q * 2 ^ k + r')) in E; auto; lia. }
  destruct (proj1 (bInjective_bSurjective BF) BI i Hi) as (r & Hr & Er).
  exists (q * 2 ^ k + r). split; [lia|]. split.
  - unfold f in Er. lia.
  - intros j' Hj' E'. destruct (Nat.eq_dec j' (q * 2 ^ k + r)); auto. exfalso.
    apply (block_separated k q j' (q * 2 ^ k + r)); auto; try lia.
    rewrite E'. unfold f in Er. lia.
Qed.
End Points.

(** ** From numerators to points of the unit interval *)
Lemma to_unit_range : forall X, (X < 2 ^ 31)%N -> (0 <= to_unit X < 1)%R.
Proof.
  intros X H. unfold to_unit.
  assert (0 <= IZR (Z.of_N X))%R by (apply IZR_le; lia).
  assert (IZR (Z.of_N X) < 2 ^ 31)%R.
  { rewrite (pow_IZR 2 31). apply IZR_lt. change (2 ^ Z.of_nat 31)%Z with (Z.of_N (2 ^ 31)). lia. }
  assert (0 < 2 ^ 31)%R by (apply pow_lt; lra).
  split.
  - apply Rmult_le_pos; auto. left. apply Rinv_0_lt_compat; auto.
  - apply Rmult_lt_reg_r with (2 ^ 31)%R; auto. unfold Rdiv. rewrite Rmult_assoc, Rinv_l by lra. lra.
Qed.

Lemma INR_pow2 : forall k, INR (2 ^ k) = (2 ^ k)%R.
Proof. intros. rewrite pow_INR. reflexivity. Qed.

Lemma stratum_iff : forall X k i, k <= 31 ->
  (INR i / INR (2 ^ k) <= to_unit X < (INR i + 1) / INR (2 ^ k))%R <->
  N.shiftr X (31 - N.of_nat k) = N.of_nat i.
Proof.
  intros X k i Hk. unfold to_unit. rewrite INR_pow2.
  set (c := (2 ^ (31 - N.of_nat k))%N).
  assert (Hc : IZR (Z.of_N c) = (2 ^ (31 - k))%R).
  { unfold c. rewrite <- (INR_pow2 (31 - k)), INR_IZR_INZ. f_equal.
    replace (31 - N.of_nat k)%N with (N.of_nat (31 - k)) by lia. rewrite <- pow_N_nat. lia. }
  assert (E31 : (2 ^ 31 = 2 ^ k * 2 ^ (31 - k))%R) by (rewrite <- pow_add; f_equal; lia).
  assert (Pk : (0 < 2 ^ k)%R) by (apply pow_lt; lra).
  assert (Pc : (0 < 2 ^ (31 - k))%R) by (apply pow_lt; lra).
  assert (Hiff : (INR i / 2 ^ k <= IZR (Z.of_N X) / 2 ^ 31 < (INR i + 1) / 2 ^ k)%R <->
                 (INR i * 2 ^ (31 - k) <= IZR (Z.of_N X) < (INR i + 1) * 2 ^ (31 - k))%R).
  { rewrite E31.
    assert (A1 : (IZR (Z.of_N X) / (2 ^ k * 2 ^ (31 - k)) * (2 ^ k * 2 ^ (31 - k)) = IZR (Z.of_N X))%R) by (field; lra).
    assert (A2 : (INR i / 2 ^ k * (2 ^ k * 2 ^ (31 - k)) = INR i * 2 ^ (31 - k))%R) by (field; lra).
    assert (A3 : ((INR i + 1) / 2 ^ k * (2 ^ k * 2 ^ (31 - k)) = (INR i + 1) * 2 ^ (31 - k))%R) by (field; lra).
    assert (Pp : (0 < 2 ^ k * 2 ^ (31 - k))%R) by (apply Rmult_lt_0_compat; auto).
    split; intros [H1 H2]; split.
    - rewrite <- A1, <- A2. apply Rmult_le_compat_r; lra.
    - rewrite <- A1, <- A3. apply Rmult_lt_compat_r; lra.
    - apply Rmult_le_reg_r with (2 ^ k * 2 ^ (31 - k))%R; lra.
    - apply Rmult_lt_reg_r with (2 ^ k * 2 ^ (31 - k))%R; lra. }
  rewrite Hiff, <- Hc, !INR_IZR_INZ, <- plus_IZR, <- !mult_IZR.
  rewrite N.shiftr_div_pow2. fold c.
  assert (Hcpos : (0 < c)%N) by (unfold c; apply N.neq_0_lt_0, N.pow_nonzero; lia).
  split.
  - intros [H1 H2]. apply le_IZR in H1. apply lt_IZR in H2.
    symmetry. apply N.div_unique with (X - N.of_nat i * c)%N; nia.
  - intros H. pose proof (N.div_mod X c ltac:(lia)) as DM. pose proof (N.mod_lt X c ltac:(lia)).
    rewrite H in DM. clear Hc Hiff. clearbody c. set (r := (X mod c)%N) in *. clearbody r.
    assert (DZ : Z.of_N X = (Z.of_N c * Z.of_nat i + Z.of_N r)%Z) by lia.
    rewrite DZ. split; [apply IZR_le|apply IZR_lt]; nia.
Qed.

(** ** The public function *)
Lemma sequence_column_ok : forall table N L i, Forall good_row table -> i < length table + 1 -> L <= 31 ->
  0 < N <= 2 ^ L ->
  exists V, filled V L L /\ sequence_column table N L i = Ok (map (fun j => to_unit (point V j)) (seq 0 N)).
Proof.
  intros table N L i HT Hi HL HN. destruct (dimension_V_ok table L i HT Hi HL) as (V & E & F).
  exists V. split; auto. unfold sequence_column. rewrite E. cbn [bind].
  pose proof (x_values_ok V L F HL (N - 1) 0) as X. cbn [point] in X. rewrite X.
  - cbn [bind]. f_equal.
    rewrite <- (map_map (point V) to_unit). f_equal.
    destruct N as [|n]; [lia|]. cbn [firstn seq map point]. rewrite Nat.sub_succ, Nat.sub_0_r.
    f_equal. apply firstn_all2. rewrite map_length, seq_length. auto.
  - intros j Hj. apply lsz_le. lia.
Qed.

Lemma sequence_columns_V : forall table N D bits rs, Forall good_row table ->
  enough_bits bits N -> sequence_sample bits table N D = Ok rs ->
  bits N <= 31 /\ 0 < N /\ D <= length table + 1 /\
  exists Vs : nat -> list BinNums.N, (forall d, d < D -> filled (Vs d) (bits N) (bits N) /\ dimension_V table (bits N) d = Ok (Vs d)) /\
    rs = tab N D (fun r c => to_unit (point (Vs c) r)).
Proof.
  intros table N D bits rs HT HB H. unfold sequence_sample in H.
  destruct (Nat.ltb_spec (length table + 1) D); [discriminate|].
  destruct (Nat.eqb_spec N 0); [discriminate|].
  destruct (Nat.ltb_spec 31 (bits N)); [discriminate|].
  split; [lia|]. split; [lia|]. split; [lia|].
  set (W := fun i => match dimension_V table (bits N) i with Ok V => V | Err _ => [] end).
  exists W.
  assert (HW : forall d, d < D -> (filled (W d) (bits N) (bits N) /\ dimension_V table (bits N) d = Ok (W d)) /\
    sequence_column table N (bits N) d = Ok (map (fun j => to_unit (point (W d) j)) (seq 0 N))).
  { intros d Hd. unfold W. destruct (dimension_V_ok table (bits N) d HT) as (V & E & F); [lia|lia|].
    destruct (sequence_column_ok table N (bits N) d HT) as (V' & F' & E'); try lia.
    { unfold enough_bits in HB. lia. }
    rewrite E. split; [split; auto|]. unfold sequence_column in *. rewrite E in *. cbn [bind] in *.
    pose proof (x_values_ok V (bits N) F ltac:(lia) (N - 1) 0) as X. cbn [point] in X.
    rewrite X in * by (intros j Hj; apply lsz_le; unfold enough_bits in HB; lia). cbn [bind].
    f_equal. rewrite <- (map_map (point V) to_unit). f_equal.
    destruct N as [|n']; [lia|]. cbn [firstn seq map point]. rewrite Nat.sub_succ, Nat.sub_0_r.
    f_equal. apply firstn_all2. rewrite map_length, seq_length. auto. }
  split; [intros d Hd; apply HW; auto|].
  destruct (mapM (sequence_column table N (bits N)) (seq 0 D)) as [cs|e] eqn:Ecs; cbn [bind] in H; [|discriminate].
  injection H as <-. apply tab_ext. intros r c Hr Hc.
  assert (Hs : nth_error (seq 0 D) c = Some c).
  { rewrite (nth_error_nth' _ 0) by (rewrite seq_length; auto). rewrite seq_nth by auto. auto. }
  destruct (mapM_Ok_nth _ _ c Ecs (x:=c) Hs) as (col & Ec & En).
  rewrite (proj2 (HW c Hc)) in Ec. injection Ec as <-.
  rewrite (nth_error_nth _ _ _ En).
  rewrite (nth_indep _ 0%R (to_unit (point (W c) 0))) by (rewrite map_length, seq_length; auto).
  rewrite map_nth with (f := fun j => to_unit (point (W c) j)). rewrite seq_nth by auto. auto.
Qed.

Lemma sequence_columns : forall table N D bits rs, Forall good_row table ->
  enough_bits bits N -> sequence_sample bits table N D = Ok rs ->
  bits N <= 31 /\ 0 < N /\ D <= length table + 1 /\
  exists Vs : nat -> list BinNums.N, (forall d, d < D -> filled (Vs d) (bits N) (bits N)) /\
    rs = tab N D (fun r c => to_unit (point (Vs c) r)).
Proof.
  intros table N D bits rs HT HB H. destruct (sequence_columns_V table N D bits rs HT HB H) as (H1 & H2 & H3 & Vs & HV & E).
  do 3 (split; auto). exists Vs. split; auto. intros d Hd. apply HV; auto.
Qed.

Lemma sequence_total : forall table N D bits, Forall good_row table -> enough_bits bits N ->
  (0 < N /\ D <= length table + 1 /\ bits N <= 31 <-> exists rs, sequence_sample bits table N D = Ok rs) /\
  (forall e, sequence_sample bits table N D = Err e -> e = ValueError).
Proof.
  intros table N D bits HT HB.
  assert (OK : 0 < N /\ D <= length table + 1 /\ bits N <= 31 -> exists rs, sequence_sample bits table N D = Ok rs).
  { intros (H1 & H2 & H3). unfold sequence_sample.
    destruct (Nat.ltb_spec (length table + 1) D); [lia|].
    destruct (Nat.eqb_spec N 0); [lia|]. destruct (Nat.ltb_spec 31 (bits N)); [lia|].
    destruct (mapM (sequence_column table N (bits N)) (seq 0 D)) as [cs|e] eqn:Ecs; cbn [bind]; [eauto|].
    exfalso. destruct (proj1 (mapM_Err_iff _ _) (ex_intro _ e Ecs)) as (i & e' & Hi & Ei). apply in_seq in Hi.
    destruct (sequence_column_ok table N (bits N) i HT) as (V & F & E); try lia.
    { unfold enough_bits in HB. lia. }
    congruence. }
  split.
  - split; auto. intros (rs & H). destruct (sequence_columns table N D bits rs HT HB H) as (? & ? & ? & _). auto.
  - intros e H.
    destruct (Nat.leb_spec D (length table + 1)); [|unfold sequence_sample in H; rewrite (proj2 (Nat.ltb_lt _ _)) in H by lia; congruence].
    destruct (Nat.eq_dec N 0) as [->|].
    { unfold sequence_sample in H. destruct (_ <? _); simpl in H; congruence. }
    destruct (Nat.leb_spec (bits N) 31).
    + destruct OK as (rs & E); [lia|]. congruence.
    + unfold sequence_sample in H. destruct (_ <? _); [congruence|]. destruct (N =? 0); [congruence|].
      rewrite (proj2 (Nat.ltb_lt _ _)) in H by lia. congruence.
Qed.

Lemma sequence_range : forall table N D bits rs, Forall good_row table -> enough_bits bits N ->
  sequence_sample bits table N D = Ok rs ->
  length rs = N /\ Forall (fun r => length r = D /\ Forall (fun x => 0 <= x < 1)%R r) rs /\
  nth_error rs 0 = Some (repeat 0%R D).
Proof.
  intros table N D bits rs HT HB H.
  destruct (sequence_columns table N D bits rs HT HB H) as (H1 & H2 & H3 & Vs & HV & ->).
  split; [apply tab_length|]. split.
  - rewrite Forall_forall. intros r Hr. unfold tab in Hr. rewrite in_map_iff in Hr.
    destruct Hr as (i & <- & Hi). apply in_seq in Hi. rewrite map_length, seq_length. split; auto.
    rewrite Forall_forall. intros x Hx. apply in_map_iff in Hx. destruct Hx as (c & <- & Hc). apply in_seq in Hc.
    apply to_unit_range. apply point_range with (bits N); auto; try lia. apply HV; lia.
    unfold enough_bits in HB. lia.
  - unfold tab. rewrite nth_error_map_seq, (proj2 (Nat.ltb_lt _ _) H2). f_equal. cbn [point].
    replace (to_unit 0) with 0%R by (unfold to_unit; simpl; lra).
    clear. generalize 0 as a. induction D as [|D IH]; intros a; simpl; auto. f_equal. apply IH.
Qed.

Lemma entry_tab_lt : forall A n d (c : nat -> nat -> A) i j, i < n -> j < d ->
  entry (tab n d c) i j = Some (c i j).
Proof.
  intros. rewrite entry_tab, (proj2 (Nat.ltb_lt i n)), (proj2 (Nat.ltb_lt j d)) by auto. auto.
Qed.

Lemma sequence_strata : forall table N D bits rs, Forall good_row table -> enough_bits bits N ->
  sequence_sample bits table N D = Ok rs ->
  forall d k q i, d < D -> (q + 1) * 2 ^ k <= N -> i < 2 ^ k ->
  one_in_block rs (q * 2 ^ k) (2 ^ k) d (INR i / INR (2 ^ k)) ((INR i + 1) / INR (2 ^ k)).
Proof.
  intros table N D bits rs HT HB H d k q i Hd Hq Hi.
  destruct (sequence_columns table N D bits rs HT HB H) as (H1 & H2 & H3 & Vs & HV & ->).
  unfold enough_bits in HB.
  assert (Hk : k <= bits N).
  { apply Nat.pow_le_mono_r_iff with 2; [lia|]. nia. }
  destruct (block_stratified (Vs d) (bits N) (HV d Hd) ltac:(lia) k q i Hk ltac:(lia) Hi) as (j & Hj & Ej & Uj).
  assert (J : (q + 1) * 2 ^ k = q * 2 ^ k + 2 ^ k) by lia.
  exists j. split; [lia|]. split.
  - exists (to_unit (point (Vs d) j)). split; [apply entry_tab_lt; lia|]. apply stratum_iff; auto. lia.
  - intros s' x Hs' Ex Hx. rewrite entry_tab_lt in Ex by lia. injection Ex as <-.
    apply stratum_iff in Hx; [|lia]. apply Uj; auto. lia.
Qed.

(** ** The table *)
Definition good_rowb (r : list N) : bool :=
  match r with
  | [] => false
  | a :: ms =>
      negb (match ms with [] => true | _ => false end) &&
      N.ltb a (2 ^ N.of_nat (length ms - 1)) &&
      forallb (fun jm => N.odd (snd jm) && N.ltb (snd jm) (2 ^ N.of_nat (S (fst jm)))) (combine (seq 0 (length ms)) ms)
  end.

Lemma good_rowb_ok : forall r, good_rowb r = true -> good_row r.
Proof.
  intros [|a ms]; simpl; [discriminate|]. rewrite !andb_true_iff, negb_true_iff. intros ((H1 & H2) & H3).
  exists a, ms. split; auto. split; [destruct ms; congruence|]. split; [apply N.ltb_lt; auto|].
  intros j m Hm. rewrite forallb_forall in H3.
  assert (Hin : In (j, m) (combine (seq 0 (length ms)) ms)).
  { apply nth_error_In with j. assert (Hl : j < length ms) by (apply nth_error_Some; congruence).
    rewrite (nth_error_nth' _ (0, 0%N)) by (rewrite combine_length, seq_length; lia).
    rewrite combine_nth by apply seq_length. rewrite seq_nth by auto.
    rewrite (nth_error_nth _ _ _ Hm). auto. }
  specialize (H3 _ Hin). cbn [fst snd] in H3. apply andb_true_iff in H3. destruct H3 as [H3 H4].
  split; auto. apply N.ltb_lt. auto.
Qed.

Lemma directions_good : Forall good_row directions.
Proof.
  apply Forall_forall. intros r Hr. apply good_rowb_ok. revert r Hr. apply forallb_forall.
  vm_compute. reflexivity.
Qed.

Lemma directions_length : N.of_nat (length directions) = 21200%N.
Proof. vm_compute. reflexivity. Qed.
