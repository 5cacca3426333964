(** * The Sobol' sequence does not depend on the number of bits, and longer or wider samples extend shorter and narrower ones. *)
From Coq Require Import Reals List Arith NArith ZArith Bool Lia.
From Verif Require Import Base Arrays ListFacts ModelSobolSeq SpecSobolSeq ProofsSobolSeq.
Import ListNotations.
Local Open Scope nat_scope.

(** ** More bits append entries to the direction numbers *)
Lemma get_app_last : forall (V : list N) z j v, get V j = Ok v -> get (V ++ [z]) j = Ok v.
Proof.
  intros V z j v. unfold get. destruct (nth_error V j) eqn:E; [|discriminate]. rewrite nth_error_app1, E; auto.
  apply nth_error_Some. congruence.
Qed.

Lemma update_app_last : forall (V : list N) z j v, j < length V -> update (V ++ [z]) j v = update V j v ++ [z].
Proof.
  induction V as [|x V IH]; intros z j v H; simpl in *; [lia|]. destruct j; simpl; auto. f_equal. apply IH. lia.
Qed.
Lemma update_last : forall (V : list N) z v, update (V ++ [z]) (length V) v = V ++ [v].
Proof. induction V as [|x V IH]; intros z v; simpl; auto. f_equal. auto. Qed.

Lemma set_V_app : forall V z j v V1, set_V V j v = Ok V1 -> set_V (V ++ [z]) j v = Ok (V1 ++ [z]) /\ length V1 = length V.
Proof.
  intros V z j v V1. unfold set_V. rewrite app_length. simpl. destruct (Nat.ltb_spec j (length V)); [|discriminate].
  intros E. injection E as <-. rewrite (proj2 (Nat.ltb_lt _ _)) by lia. rewrite update_app_last, length_update by auto. auto.
Qed.
Lemma set_V_last : forall V z v V1, set_V (V ++ [z]) (length V) v = Ok V1 -> V1 = V ++ [v].
Proof.
  intros V z v V1. unfold set_V. rewrite app_length. simpl. rewrite (proj2 (Nat.ltb_lt _ _)) by lia. intros E. injection E as <-. apply update_last.
Qed.

Lemma foldM_app_last : forall (step : list N -> nat -> result (list N)),
  (forall V z j V1, step V j = Ok V1 -> step (V ++ [z]) j = Ok (V1 ++ [z]) /\ length V1 = length V) ->
  forall js V z V1, foldM step js V = Ok V1 -> foldM step js (V ++ [z]) = Ok (V1 ++ [z]) /\ length V1 = length V.
Proof.
  intros step H. induction js as [|j js IH]; intros V z V1; cbn [foldM].
  - intros E. injection E as <-. auto.
  - destruct (step V j) as [V2|e] eqn:E; cbn [bind]; [|discriminate]. intros F.
    destruct (H V z j V2 E) as (E' & L). rewrite E'. cbn [bind]. destruct (IH V2 z V1 F) as (F' & L'). split; auto. congruence.
Qed.
Lemma foldM_seq_last : forall A (step : A -> nat -> result A) a n x,
  foldM step (seq a (S n)) x = (do y <- foldM step (seq a n) x ;; step y (a + n)).
Proof.
  intros A step a n. revert a. induction n as [|n IH]; intros a x.
  - cbn [seq foldM bind]. rewrite Nat.add_0_r. destruct (step x a); reflexivity.
  - change (foldM step (seq a (S (S n))) x) with (do y <- step x a ;; foldM step (seq (S a) (S n)) y).
    change (foldM step (seq a (S n)) x) with (do y <- step x a ;; foldM step (seq (S a) n) y).
    destruct (step x a) as [y|e]; cbn [bind]; auto. rewrite IH. replace (S a + n) with (a + S n) by lia. reflexivity.
Qed.

Definition first_step (V : list N) (j : nat) : result (list N) := do v <- shift_up 1 j ;; set_V V j v.
Definition table_step (m : list N) (V : list N) (j : nat) : result (list N) := do x <- get m j ;; do v <- shift_up x j ;; set_V V j v.
Definition inner_step (a : N) (s j : nat) (V : list N) (k : nat) : result (list N) :=
  do c <- get V j ;; do y <- get V (j - k) ;; set_V V j (N.lxor c (N.mul (N.land (N.shiftr a (N.of_nat (s - 1 - k))) 1) y)).

Lemma first_step_app : forall V z j V1, first_step V j = Ok V1 -> first_step (V ++ [z]) j = Ok (V1 ++ [z]) /\ length V1 = length V.
Proof. intros V z j V1. unfold first_step. destruct (shift_up 1 j); cbn [bind]; [|discriminate]. apply set_V_app. Qed.
Lemma table_step_app : forall m V z j V1, table_step m V j = Ok V1 -> table_step m (V ++ [z]) j = Ok (V1 ++ [z]) /\ length V1 = length V.
Proof.
  intros m V z j V1. unfold table_step. destruct (get m j); cbn [bind]; [|discriminate]. destruct (shift_up _ j); cbn [bind]; [|discriminate]. apply set_V_app.
Qed.
Lemma inner_step_app : forall a s j V z k V1, inner_step a s j V k = Ok V1 -> inner_step a s j (V ++ [z]) k = Ok (V1 ++ [z]) /\ length V1 = length V.
Proof.
  intros a s j V z k V1. unfold inner_step. destruct (get V j) as [c|] eqn:E1; cbn [bind]; [|discriminate].
  destruct (get V (j - k)) as [y|] eqn:E2; cbn [bind]; [|discriminate].
  rewrite (get_app_last V z j c E1). cbn [bind]. rewrite (get_app_last V z (j - k) y E2). cbn [bind]. apply set_V_app.
Qed.
Lemma recur_V_app : forall a s V z j V1, recur_V a s V j = Ok V1 -> recur_V a s (V ++ [z]) j = Ok (V1 ++ [z]) /\ length V1 = length V.
Proof.
  intros a s V z j V1. unfold recur_V. destruct (get V (j - s)) as [x|] eqn:E1; cbn [bind]; [|discriminate].
  rewrite (get_app_last V z (j - s) x E1). cbn [bind].
  destruct (set_V V j _) as [V2|] eqn:E2; cbn [bind]; [|discriminate]. destruct (set_V_app V z j _ V2 E2) as (E3 & L). rewrite E3. cbn [bind].
  intros F. destruct (foldM_app_last (inner_step a s j) (inner_step_app a s j) _ V2 z V1 F) as (F' & L'). split; [exact F'|congruence].
Qed.

(** The step at the last entry changes only that entry. *)
Lemma first_step_last : forall V z V1, first_step (V ++ [z]) (length V) = Ok V1 -> exists z', V1 = V ++ [z'].
Proof. intros V z V1. unfold first_step. destruct (shift_up _ _); cbn [bind]; [|discriminate]. intros E. apply set_V_last in E. eauto. Qed.
Lemma table_step_last : forall m V z V1, table_step m (V ++ [z]) (length V) = Ok V1 -> exists z', V1 = V ++ [z'].
Proof.
  intros m V z V1. unfold table_step. destruct (get m _); cbn [bind]; [|discriminate]. destruct (shift_up _ _); cbn [bind]; [|discriminate].
  intros E. apply set_V_last in E. eauto.
Qed.
Lemma inner_last : forall a s V ks z V1, foldM (inner_step a s (length V)) ks (V ++ [z]) = Ok V1 -> exists z', V1 = V ++ [z'].
Proof.
  intros a s V. induction ks as [|k ks IH]; intros z V1; cbn [foldM].
  - intros E. injection E as <-. eauto.
  - unfold inner_step at 1. destruct (get _ _) as [c|]; cbn [bind]; [|discriminate]. destruct (get _ _) as [y|]; cbn [bind]; [|discriminate].
    destruct (set_V _ _ _) as [V2|] eqn:E; cbn [bind]; [|discriminate]. apply set_V_last in E. subst V2. apply IH.
Qed.
Lemma recur_V_last : forall a s V z V1, recur_V a s (V ++ [z]) (length V) = Ok V1 -> exists z', V1 = V ++ [z'].
Proof.
  intros a s V z V1. unfold recur_V. destruct (get _ _) as [x|]; cbn [bind]; [|discriminate].
  destruct (set_V _ _ _) as [V2|] eqn:E; cbn [bind]; [|discriminate]. apply set_V_last in E. subst V2. apply inner_last.
Qed.

Lemma repeat_last : forall (x : N) n, repeat x (S n) = repeat x n ++ [x].
Proof. intros x. induction n as [|n IH]; auto. simpl in *. f_equal. exact IH. Qed.

(** A loop whose last step is at the new entry. *)
Lemma loop_more : forall (step : list N -> nat -> result (list N)),
  (forall V z j V1, step V j = Ok V1 -> step (V ++ [z]) j = Ok (V1 ++ [z]) /\ length V1 = length V) ->
  (forall V z V1, step (V ++ [z]) (length V) = Ok V1 -> exists z', V1 = V ++ [z']) ->
  forall a n V z V1 V2, length V = a + n -> foldM step (seq a n) V = Ok V1 -> foldM step (seq a (S n)) (V ++ [z]) = Ok V2 -> exists z', V2 = V1 ++ [z'].
Proof.
  intros step H1 H2 a n V z V1 V2 HL E1 E2. rewrite foldM_seq_last in E2.
  destruct (foldM_app_last step H1 _ V z V1 E1) as (E3 & L). rewrite E3 in E2. cbn [bind] in E2.
  rewrite <- HL, <- L in E2. eapply H2; eauto.
Qed.

Lemma dimension_V_more : forall table L i V V', dimension_V table L i = Ok V -> dimension_V table (S L) i = Ok V' ->
  exists z, V' = V ++ [z].
Proof.
  intros table L i V V'. unfold dimension_V. destruct (i =? 0).
  - unfold first_V. replace (S L + 1) with (S (L + 1)) by lia. rewrite (repeat_last 0%N (L + 1)). intros E1 E2.
    eapply (loop_more first_step first_step_app first_step_last 1 L); [|exact E1|exact E2]. rewrite repeat_length. lia.
  - destruct (get table (i - 1)) as [m|]; cbn [bind]; [|discriminate]. destruct (get m 0) as [a|]; cbn [bind]; [|discriminate].
    set (s := length m - 1). replace (S L + 1) with (S (L + 1)) by lia. rewrite (repeat_last 0%N (L + 1)).
    assert (RL : length (repeat 0%N (L + 1)) = 1 + L) by (rewrite repeat_length; lia).
    destruct (Nat.leb_spec L s) as [LS|LS]; destruct (Nat.leb_spec (S L) s) as [LS'|LS']; try lia.
    + intros E1 E2. eapply (loop_more (table_step m) (table_step_app m) (table_step_last m) 1 L); [|exact E1|exact E2]. auto.
    + assert (L = s) as -> by lia. intros E1.
      destruct (foldM_app_last (table_step m) (table_step_app m) _ _ 0%N V E1) as (E3 & LV). change (foldM (table_step m) (seq 1 s)) with (table_V m s) in E3.
      rewrite E3. cbn [bind]. replace (S s - s) with 1 by lia. cbn [seq foldM]. intros E2.
      destruct (recur_V a s (V ++ [0%N]) (s + 1)) as [V2|] eqn:E4; cbn [bind] in E2; [|discriminate]. injection E2 as <-.
      rewrite RL in LV. replace (s + 1) with (length V) in E4 by lia. eapply recur_V_last; eauto.
    + destruct (table_V m s (repeat 0%N (L + 1))) as [V0|] eqn:E1; cbn [bind]; [|discriminate]. intros E2.
      destruct (foldM_app_last (table_step m) (table_step_app m) _ _ 0%N V0 E1) as (E3 & LV). change (foldM (table_step m) (seq 1 s)) with (table_V m s) in E3.
      rewrite E3. cbn [bind]. replace (S L - s) with (S (L - s)) by lia. intros E4.
      eapply (loop_more (recur_V a s) (recur_V_app a s) (recur_V_last a s) (s + 1) (L - s)); [|exact E2|exact E4]. lia.
Qed.

Lemma dimension_V_prefix : forall table i k L V V', Forall good_row table -> i < length table + 1 -> L + k <= 31 ->
  dimension_V table L i = Ok V -> dimension_V table (L + k) i = Ok V' -> exists W, V' = V ++ W.
Proof.
  intros table i. induction k as [|k IH]; intros L V V' HT Hi HL E1 E2.
  - rewrite Nat.add_0_r in E2. rewrite E1 in E2. injection E2 as <-. exists []. rewrite app_nil_r. auto.
  - destruct (dimension_V_ok table (L + k) i HT Hi ltac:(lia)) as (V1 & E3 & _).
    destruct (IH L V V1 HT Hi ltac:(lia) E1 E3) as (W & ->).
    rewrite Nat.add_succ_r in E2. destruct (dimension_V_more _ _ _ _ _ E3 E2) as (z & ->).
    exists (W ++ [z]). rewrite app_assoc. auto.
Qed.

Lemma point_prefix : forall V W L j, length V = L + 1 -> j < 2 ^ L -> point (V ++ W) j = point V j.
Proof.
  intros V W L. induction j as [|j IH]; intros HV Hj; cbn [point]; auto. rewrite IH by lia. f_equal.
  apply app_nth1. pose proof (lsz_le j L ltac:(lia)). lia.
Qed.

(** ** The sample *)
Lemma sequence_extends : forall table bits bits' N M D E rs, Forall good_row table -> 0 < N -> N <= M -> D <= E ->
  enough_bits bits N -> bits N <= 31 -> enough_bits bits' M -> sequence_sample bits' table M E = Ok rs ->
  sequence_sample bits table N D = Ok (map (firstn D) (firstn N rs)).
Proof.
  intros table bits bits' N M D E rs HT N0 NM DE HB HB31 HB' HS.
  destruct (sequence_columns_V table M E bits' rs HT HB' HS) as (B31 & M0 & EL & Vs' & HV' & ->).
  destruct (proj1 (proj1 (sequence_total table N D bits HT HB))) as (rs' & HS'); [lia|]. rewrite HS'. f_equal.
  destruct (sequence_columns_V table N D bits rs' HT HB HS') as (_ & _ & DL & Vs & HV & ->).
  unfold tab. rewrite firstn_map, map_map.
  replace (firstn N (seq 0 M)) with (seq 0 N).
  2:{ replace M with (N + (M - N)) by lia. rewrite seq_app, firstn_app, seq_length, Nat.sub_diag, firstn_O, app_nil_r, firstn_all2; auto. rewrite seq_length. lia. }
  apply map_ext_in. intros r Hr. apply in_seq in Hr. rewrite firstn_map.
  replace (firstn D (seq 0 E)) with (seq 0 D).
  2:{ replace E with (D + (E - D)) by lia. rewrite seq_app, firstn_app, seq_length, Nat.sub_diag, firstn_O, app_nil_r, firstn_all2; auto. rewrite seq_length. lia. }
  apply map_ext_in. intros c Hc. apply in_seq in Hc. f_equal.
  destruct (HV c ltac:(lia)) as (F & EV). destruct (HV' c ltac:(lia)) as (F' & EV').
  unfold enough_bits in *.
  destruct (Nat.le_gt_cases (bits N) (bits' M)) as [Q|Q].
  - replace (bits' M) with (bits N + (bits' M - bits N)) in EV' by lia.
    destruct (dimension_V_prefix table c (bits' M - bits N) (bits N) (Vs c) (Vs' c) HT ltac:(lia) ltac:(lia) EV EV') as (W & ->).
    symmetry. apply (point_prefix (Vs c) W (bits N)); [apply F|lia].
  - replace (bits N) with (bits' M + (bits N - bits' M)) in EV by lia.
    destruct (dimension_V_prefix table c (bits N - bits' M) (bits' M) (Vs' c) (Vs c) HT ltac:(lia) ltac:(lia) EV' EV) as (W & ->).
    apply (point_prefix (Vs' c) W (bits' M)); [apply F'|lia].
Qed.
