(** * Proofs about fractional factorial designs. *)
From Coq Require Import Reals String List Arith ZArith Bool Lia Lra.
From Verif Require Import Base ListFacts Arrays ModelGroups ModelScale Stats Sums SpecSobol ProofsSobol6 ModelFF SpecFF.
Import ListNotations.
Local Open Scope nat_scope.

(** ** Size *)
Lemma find_none_all : forall A (f : A -> bool) l, (forall x, In x l -> f x = false) -> find f l = None.
Proof. induction l; intros H; simpl; auto. rewrite H by (left; auto). apply IHl. intros; apply H; right; auto. Qed.

Lemma find_smallest_spec : forall d,
  (d <= 512 -> exists k, find_smallest d = Some k /\ k < 10 /\ d <= 2 ^ k /\ forall k', d <= 2 ^ k' -> k <= k') /\
  (512 < d -> find_smallest d = None).
Proof.
  intros d. assert (G : forall n a, (forall k', d <= 2 ^ k' -> a <= k') ->
    (exists x, a <= x < a + n /\ d <= 2 ^ x) ->
    exists k, find (fun x => d <=? 2 ^ x) (seq a n) = Some k /\ a <= k < a + n /\ d <= 2 ^ k /\ forall k', d <= 2 ^ k' -> k <= k').
  { induction n as [|n IH]; intros a Ha (x & Hx & Hd); [lia|]. cbn [seq find].
    destruct (Nat.leb_spec d (2 ^ a)).
    - exists a. split; auto. split; [lia|]. split; auto.
    - destruct (IH (S a)) as (k & E & Hk & Hd' & Hm).
      + intros k' Hk'. destruct (Nat.eq_dec a k') as [->|]; [lia|]. pose proof (Ha k' Hk'). lia.
      + exists x. split; auto. destruct (Nat.eq_dec a x) as [->|]; lia.
      + exists k. split; auto. split; [lia|]. auto. }
  split.
  - intros Hd. destruct (G 10 0) as (k & E & Hk & Hd' & Hm); [intros; lia|exists 9; split; [lia|simpl; lia]|].
    exists k. split; [exact E|]. split; [lia|]. auto.
  - intros Hd. unfold find_smallest. apply find_none_all. intros x Hx. apply in_seq in Hx.
    apply Nat.leb_gt. assert (2 ^ x <= 2 ^ 9) by (apply Nat.pow_le_mono_r; lia). simpl (2 ^ 9) in *. lia.
Qed.

Lemma find_smallest_pow : forall k, k < 10 -> find_smallest (2 ^ k) = Some k.
Proof. intros k Hk. do 10 (destruct k as [|k]; [reflexivity|]). lia. Qed.

(** ** Hadamard matrices *)
Fixpoint hz (k i j : nat) : Z :=
  match k with
  | 0 => 1%Z
  | S k => (hz k i j * (if Nat.testbit i k && Nat.testbit j k then -1 else 1))%Z
  end.

Lemma map_seq_add : forall A (f : nat -> A) n m,
  map f (seq 0 (n + m)) = map f (seq 0 n) ++ map (fun i => f (n + i)) (seq 0 m).
Proof.
  intros. rewrite seq_app, map_app. f_equal.
  assert (G : forall m a, map f (seq (n + a) m) = map (fun i => f (n + i)) (seq a m)).
  { clear. induction m as [|m IH]; intros a; simpl; auto. f_equal. rewrite <- IH. do 2 f_equal. lia. }
  rewrite <- G. do 2 f_equal. lia.
Qed.

Lemma bit_low : forall k i t, t < k -> Nat.testbit (2 ^ k + i) t = Nat.testbit i t.
Proof.
  intros k i t Ht. rewrite <- (Nat.mod_pow2_bits_low (2 ^ k + i) k t) by auto.
  rewrite <- (Nat.mod_pow2_bits_low i k t) by auto. f_equal.
  rewrite <- Nat.add_mod_idemp_l by (apply Nat.pow_nonzero; lia).
  rewrite Nat.mod_same by (apply Nat.pow_nonzero; lia). auto.
Qed.
Lemma bit_top : forall k i, i < 2 ^ k -> Nat.testbit (2 ^ k + i) k = true.
Proof.
  intros k i Hi. rewrite Nat.testbit_eqb. apply Nat.eqb_eq.
  replace (2 ^ k + i) with (i + 1 * 2 ^ k) by lia. rewrite Nat.div_add by lia.
  rewrite Nat.div_small by auto. reflexivity.
Qed.
Lemma bit_high : forall k i, i < 2 ^ k -> Nat.testbit i k = false.
Proof. intros k i Hi. rewrite Nat.testbit_eqb. rewrite Nat.div_small by auto. reflexivity. Qed.

Lemma hz_low : forall k' k i j, k' <= k -> hz k' (2 ^ k + i) j = hz k' i j.
Proof. induction k'; intros; simpl; auto. rewrite IHk', bit_low by lia. auto. Qed.
Lemma hz_low2 : forall k' k i j, k' <= k -> hz k' i (2 ^ k + j) = hz k' i j.
Proof. induction k'; intros; simpl; auto. rewrite IHk', bit_low by lia. auto. Qed.

Lemma hadamard_tab : forall k, hadamard k = tab (2 ^ k) (2 ^ k) (hz k).
Proof.
  induction k; [reflexivity|]. cbn [hadamard]. rewrite IHk.
  assert (E : 2 ^ S k = 2 ^ k + 2 ^ k) by (simpl; lia). rewrite E.
  unfold tab. rewrite map_seq_add, !map_map. f_equal; apply map_ext_in; intros i Hi; apply in_seq in Hi;
    rewrite map_seq_add; f_equal.
  - apply map_ext_in. intros j Hj. cbn [hz]. rewrite (bit_high k i) by lia. cbn [andb]. lia.
  - apply map_ext_in. intros j Hj. cbn [hz]. rewrite (bit_high k i) by lia. cbn [andb]. rewrite hz_low2 by lia. lia.
  - apply map_ext_in. intros j Hj. apply in_seq in Hj. cbn [hz].
    rewrite (bit_high k j) by lia. rewrite andb_false_r, hz_low by lia. lia.
  - rewrite map_map. apply map_ext_in. intros j Hj. apply in_seq in Hj. cbn [hz].
    rewrite !bit_top by lia. cbn [andb]. rewrite hz_low, hz_low2 by lia. lia.
Qed.

Lemma hz_sign : forall k i j, hz k i j = 1%Z \/ hz k i j = (-1)%Z.
Proof. induction k; intros; simpl; auto. destruct (IHk i j) as [-> | ->]; destruct (_ && _); auto. Qed.

(** The product of two columns is the column with the exclusive-or index. *)
Lemma hz_xor : forall k i a b, (hz k i a * hz k i b = hz k i (Nat.lxor a b))%Z.
Proof.
  induction k; intros; simpl; auto. rewrite <- IHk, Nat.lxor_spec.
  destruct (Nat.testbit i k), (Nat.testbit a k), (Nat.testbit b k); simpl; lia.
Qed.

Definition zsum (n : nat) (f : nat -> Z) : Z := fold_right Z.add 0%Z (map f (seq 0 n)).
Lemma zsum_app : forall n m f, zsum (n + m) f = (zsum n f + zsum m (fun i => f (n + i)%nat))%Z.
Proof.
  intros. unfold zsum. rewrite map_seq_add. induction (map f (seq 0 n)); simpl; [lia|]. rewrite IHl. lia.
Qed.
Lemma zsum_ext : forall n f g, (forall i, i < n -> f i = g i) -> zsum n f = zsum n g.
Proof. intros. unfold zsum. f_equal. apply map_ext_in. intros i Hi. apply in_seq in Hi. apply H; lia. Qed.
Lemma zsum_opp : forall n f, zsum n (fun i => (- f i)%Z) = (- zsum n f)%Z.
Proof. intros. unfold zsum. induction (seq 0 n); simpl; lia. Qed.

Lemma zsum_one : forall n, zsum n (fun _ => 1%Z) = Z.of_nat n.
Proof.
  intros n. unfold zsum. assert (G : forall s, fold_right Z.add 0%Z (map (fun _ => 1%Z) (seq s n)) = Z.of_nat n).
  { induction n as [|n IH]; intros s; [reflexivity|]. cbn [seq map fold_right]. rewrite IH. lia. }
  apply G.
Qed.

Lemma hz_column_sum : forall k c, c < 2 ^ k -> c <> 0 -> zsum (2 ^ k) (fun i => hz k i c) = 0%Z.
Proof.
  induction k; intros c Hc Hc0; [simpl in Hc; lia|].
  assert (E : 2 ^ S k = 2 ^ k + 2 ^ k) by (simpl; lia). rewrite E, zsum_app.
  rewrite (zsum_ext (2 ^ k) (fun i => hz (S k) i c) (fun i => hz k i c)).
  2:{ intros i Hi. cbn [hz]. rewrite (bit_high k i) by lia. cbn [andb]. lia. }
  destruct (Nat.testbit c k) eqn:B.
  - rewrite (zsum_ext (2 ^ k) (fun i => hz (S k) (2 ^ k + i) c) (fun i => (- hz k i c)%Z)).
    2:{ intros i Hi. cbn [hz]. rewrite bit_top, B, hz_low by lia. cbn [andb]. lia. }
    rewrite zsum_opp. lia.
  - rewrite (zsum_ext (2 ^ k) (fun i => hz (S k) (2 ^ k + i) c) (fun i => hz k i c)).
    2:{ intros i Hi. cbn [hz]. rewrite B, andb_false_r, hz_low by lia. lia. }
    rewrite IHk; auto.
    destruct (Nat.lt_ge_cases c (2 ^ k)); auto. exfalso.
    replace c with (2 ^ k + (c - 2 ^ k)) in B by lia. rewrite bit_top in B by lia. discriminate.
Qed.

(** ** The contrast *)
(** Entry of the stacked matrix. *)
Definition cz (k r j : nat) : Z := if r <? 2 ^ k then hz k r j else (- hz k (r - 2 ^ k) j)%Z.

Lemma contrast_tab : forall k, hadamard k ++ map (map Z.opp) (hadamard k) = tab (2 ^ k + 2 ^ k) (2 ^ k) (cz k).
Proof.
  intros k. rewrite hadamard_tab. unfold tab. rewrite map_seq_add, map_map. f_equal.
  - apply map_ext_in. intros i Hi. apply in_seq in Hi. apply map_ext. intros j. unfold cz.
    rewrite (proj2 (Nat.ltb_lt _ _)) by lia. auto.
  - apply map_ext_in. intros i Hi. apply in_seq in Hi. rewrite map_map. apply map_ext. intros j. unfold cz.
    rewrite (proj2 (Nat.ltb_ge _ _)) by lia. do 2 f_equal. lia.
Qed.

Lemma cz_sign : forall k r j, cz k r j = 1%Z \/ cz k r j = (-1)%Z.
Proof. intros. unfold cz. destruct (_ <? _); [apply hz_sign|]. destruct (hz_sign k (r - 2 ^ k) j) as [-> | ->]; auto. Qed.

Lemma cz_mirror : forall k r j, r < 2 ^ k -> cz k (2 ^ k + r) j = (- cz k r j)%Z.
Proof.
  intros. unfold cz. rewrite (proj2 (Nat.ltb_ge _ _)) by lia. rewrite (proj2 (Nat.ltb_lt r _)) by lia.
  do 2 f_equal. lia.
Qed.

Lemma cz_low : forall k r j, r < 2 ^ k -> cz k r j = hz k r j.
Proof. intros. unfold cz. rewrite (proj2 (Nat.ltb_lt r _)) by lia. auto. Qed.

(** A function that is odd under mirroring sums to zero. *)
Lemma odd_zsum : forall k (f : nat -> Z), (forall r, r < 2 ^ k -> f (2 ^ k + r) = (- f r)%Z) ->
  zsum (2 ^ k + 2 ^ k) f = 0%Z.
Proof.
  intros k f H. rewrite zsum_app, (zsum_ext (2 ^ k) (fun i => f (2 ^ k + i)) (fun i => (- f i)%Z)) by auto.
  rewrite zsum_opp. lia.
Qed.

Lemma lxor_lt : forall a b k, a < 2 ^ k -> b < 2 ^ k -> Nat.lxor a b < 2 ^ k.
Proof.
  intros a b k Ha Hb. assert (E : Nat.lxor a b mod 2 ^ k = Nat.lxor a b).
  { apply Nat.bits_inj. intros t. destruct (Nat.lt_ge_cases t k).
    - apply Nat.mod_pow2_bits_low. auto.
    - rewrite Nat.mod_pow2_bits_high by auto. rewrite Nat.lxor_spec.
      rewrite <- (Nat.mod_small a (2 ^ k)), <- (Nat.mod_small b (2 ^ k)) by auto.
      rewrite !Nat.mod_pow2_bits_high by auto. auto. }
  rewrite <- E. apply Nat.mod_upper_bound. apply Nat.pow_nonzero. lia.
Qed.

Lemma lxor_ne : forall a b, a <> b -> Nat.lxor a b <> 0.
Proof. intros a b H E. apply Nat.lxor_eq in E. auto. Qed.

Lemma cz_orth : forall k a b, a < 2 ^ k -> b < 2 ^ k -> a <> b ->
  zsum (2 ^ k + 2 ^ k) (fun r => (cz k r a * cz k r b)%Z) = 0%Z.
Proof.
  intros k a b Ha Hb Hne. rewrite zsum_app.
  rewrite (zsum_ext (2 ^ k) (fun i => (cz k (2 ^ k + i) a * cz k (2 ^ k + i) b)%Z) (fun r => (cz k r a * cz k r b)%Z)).
  2:{ intros i Hi. rewrite !cz_mirror by auto. lia. }
  rewrite (zsum_ext (2 ^ k) (fun r => (cz k r a * cz k r b)%Z) (fun r => hz k r (Nat.lxor a b))).
  2:{ intros i Hi. rewrite !cz_low by auto. apply hz_xor. }
  rewrite hz_column_sum; auto using lxor_lt, lxor_ne.
Qed.

Lemma cz_square : forall k r a, (cz k r a * cz k r a = 1)%Z.
Proof. intros. destruct (cz_sign k r a) as [-> | ->]; reflexivity. Qed.

Lemma generate_contrast_spec : forall d, d <= 512 -> exists k, k < 10 /\ d <= 2 ^ k /\
  (forall k', d <= 2 ^ k' -> k <= k') /\ find_smallest d = Some k /\
  generate_contrast d = Ok (tab (2 ^ k + 2 ^ k) (2 ^ k) (cz k)).
Proof.
  intros d Hd. destruct (proj1 (find_smallest_spec d) Hd) as (k & E & Hk & Hd' & Hm).
  exists k. do 4 (split; auto). unfold generate_contrast. rewrite E, contrast_tab. auto.
Qed.

Lemma least_power_of : forall d k, d <= 2 ^ k -> (forall k', d <= 2 ^ k' -> k <= k') -> least_power d (2 ^ k).
Proof.
  intros d k H H'. split; [eauto|]. split; auto. intros k' Hk'. apply Nat.pow_le_mono_r; auto.
Qed.

Lemma nth_map_seq : forall A (f : nat -> A) n j d, j < n -> nth j (map f (seq 0 n)) d = f j.
Proof.
  intros. apply nth_error_nth. rewrite nth_error_map_seq, (proj2 (Nat.ltb_lt _ _)) by auto. auto.
Qed.

Lemma inner_tab : forall n m (c : nat -> nat -> Z) a b, a < m -> b < m ->
  inner (tab n m c) a b = zsum n (fun r => (c r a * c r b)%Z).
Proof.
  intros. unfold inner, tab, zsum. rewrite map_map. f_equal. apply map_ext. intros r.
  rewrite !nth_map_seq by auto. auto.
Qed.
Lemma column_sum_tab : forall n m (c : nat -> nat -> Z) a, a < m ->
  column_sum (tab n m c) a = zsum n (fun r => c r a).
Proof.
  intros. unfold column_sum, tab, zsum. rewrite map_map. f_equal. apply map_ext. intros r.
  rewrite !nth_map_seq by auto. auto.
Qed.

Lemma contrast_balanced : forall d, d <= 512 ->
  exists n X, generate_contrast d = Ok X /\ least_power d n /\ length X = 2 * n /\
    Forall (fun r => length r = n /\ Forall (fun z => z = 1 \/ z = -1)%Z r) X /\
    (forall a b, a < n -> b < n -> a <> b -> inner X a b = 0%Z) /\
    (forall a, a < n -> inner X a a = (2 * Z.of_nat n)%Z) /\
    (forall a, a < n -> column_sum X a = 0%Z).
Proof.
  intros d Hd. destruct (generate_contrast_spec d Hd) as (k & Hk & Hd' & Hm & _ & E).
  exists (2 ^ k). eexists. split; [exact E|]. split; [apply least_power_of; auto|].
  split; [rewrite tab_length; lia|]. split.
  { apply Forall_forall. intros r Hr. unfold tab in Hr. apply in_map_iff in Hr. destruct Hr as (i & <- & Hi).
    rewrite map_length, seq_length. split; auto. apply Forall_forall. intros z Hz.
    apply in_map_iff in Hz. destruct Hz as (j & <- & _). apply cz_sign. }
  split; [|split].
  - intros a b Ha Hb Hne. rewrite inner_tab by auto. apply cz_orth; auto.
  - intros a Ha. rewrite inner_tab by auto. rewrite (zsum_ext _ _ (fun _ => 1%Z)).
    + rewrite zsum_one. lia.
    + intros. apply cz_square.
  - intros a Ha. rewrite column_sum_tab by auto. apply odd_zsum. intros. apply cz_mirror. auto.
Qed.
