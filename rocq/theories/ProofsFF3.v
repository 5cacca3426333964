(** * Proofs: the fractional factorial theorems in the vocabulary of SpecFF. *)
From Coq Require Import Reals String List Arith ZArith Bool Lia Lra.
From Verif Require Import Base ListFacts Arrays ModelGroups ModelScale Stats Sums SpecSobol ProofsSobol6 ModelFF SpecFF ProofsFF ProofsFF2.
Import ListNotations.
Local Open Scope nat_scope.

(** Everything needed about a run of the sampler. *)
Lemma ff_run : forall nq tq p, ff_problem p -> exists k, k < 10 /\ p_num_vars p <= 2 ^ k /\
  (forall k', p_num_vars p <= 2 ^ k' -> k <= k') /\
  ff_sample nq tq p = (marked (padded p (2 ^ k)), Ok (InPlace (mkMat (2 ^ k) (ff_rows p k)))) /\
  good_box (p_bounds (padded p (2 ^ k))) /\ length (p_bounds (padded p (2 ^ k))) = 2 ^ k /\
  (forall y second q, q = p \/ q = marked (padded p (2 ^ k)) ->
     snd (ff_analyze q (map y (seq 0 (2 ^ k + 2 ^ k))) second) = Ok (ff_value p k y second)).
Proof.
  intros nq tq p HP. pose proof HP as (Hn & Hb & Hg & Hd & Hs).
  destruct (ff_sample_ok nq tq p HP) as (k & Hk & H1 & H2 & E). exists k. do 4 (split; auto).
  split; [apply padded_box; auto|]. split; [apply padded_len; auto|].
  intros y second q Hq. destruct (ff_analyze_ok p k y second) as [A1 A2]; auto.
  destruct Hq as [-> | ->]; [rewrite A1|rewrite A2]; auto.
Qed.

(** ** Sample *)
Lemma nth_tab : forall A n m (c : nat -> nat -> A) r d, r < n -> nth r (tab n m c) d = map (c r) (seq 0 m).
Proof. intros. unfold tab. rewrite nth_map_seq; auto. Qed.

Lemma filter_count_compl : forall A (f g : A -> bool) l, (forall x, In x l -> g x = negb (f x)) ->
  length (filter f l) + length (filter g l) = length l.
Proof.
  induction l as [|a l IH]; intros H; simpl; auto. rewrite (H a) by (left; auto).
  assert (IH' := IH (fun x Hx => H x (or_intror Hx))). destruct (f a); simpl; lia.
Qed.

Lemma filter_map_len : forall A B (f : A -> B) g l, length (filter g (map f l)) = length (filter (fun x => g (f x)) l).
Proof. induction l; simpl; auto. destruct (g (f a)); simpl; auto. Qed.

Lemma filter_ext_len : forall A (f g : A -> bool) l, (forall x, In x l -> f x = g x) ->
  length (filter f l) = length (filter g l).
Proof.
  induction l as [|a l IH]; intros H; simpl; auto. rewrite (H a) by (left; auto).
  assert (IH' := IH (fun x Hx => H x (or_intror Hx))). destruct (g a); simpl; lia.
Qed.

Lemma times_half : forall p k j v, j < 2 ^ k -> good_box (p_bounds (padded p (2 ^ k))) ->
  length (p_bounds (padded p (2 ^ k))) = 2 ^ k ->
  (v = lower (p_bounds (padded p (2 ^ k))) j \/ v = upper (p_bounds (padded p (2 ^ k))) j) ->
  times (ff_rows p k) j v = 2 ^ k.
Proof.
  intros p k j v Hj Hg Hl Hv. unfold times, ff_rows, tab. rewrite map_seq_add, filter_app, app_length, !filter_map_len.
  destruct (good_box_nth _ j Hg) as [_ Hlt]; [lia|]. set (B := p_bounds (padded p (2 ^ k))) in *.
  transitivity (length (seq 0 (2 ^ k))); [|apply seq_length]. apply filter_count_compl.
  intros r Hr. apply in_seq in Hr. rewrite !nth_map_seq by auto. unfold sv.
  rewrite cz_mirror by lia.
  destruct (cz_sign k r j) as [-> | ->]; cbn [Z.eqb Pos.eqb Z.opp]; destruct Hv as [-> | ->];
    repeat destruct Req_EM_T; auto; lra.
Qed.

Lemma design_sample : forall nq tq p, ff_problem p ->
  exists n p' X, ff_sample nq tq p = (p', Ok (InPlace (mkMat n X))) /\
    least_power (p_num_vars p) n /\ length X = 2 * n /\ Forall (fun x => length x = n) X /\
    (forall j, j < n ->
       times X j (lower (p_bounds p') j) = n /\ times X j (upper (p_bounds p') j) = n) /\
    (forall r j, r < n -> j < n ->
       (entry X r j = Some (lower (p_bounds p') j) /\ entry X (n + r) j = Some (upper (p_bounds p') j)) \/
       (entry X r j = Some (upper (p_bounds p') j) /\ entry X (n + r) j = Some (lower (p_bounds p') j))).
Proof.
  intros nq tq p HP. destruct (ff_run nq tq p HP) as (k & Hk & H1 & H2 & E & Hg & Hl & _).
  exists (2 ^ k). eexists. eexists. split; [exact E|]. split; [apply least_power_of; auto|].
  split; [unfold ff_rows; rewrite tab_length; lia|]. split; [apply tab_widths|]. split.
  - intros j Hj. split; apply times_half; auto.
  - intros r j Hr Hj. unfold ff_rows. rewrite !entry_tab.
    rewrite !(proj2 (Nat.ltb_lt _ _)) by lia. cbn [andb]. unfold sv. rewrite cz_mirror by lia.
    destruct (cz_sign k r j) as [-> | ->]; cbn [Z.eqb Pos.eqb Z.opp]; auto.
Qed.

(** ** Effects as averages over the design *)
Lemma Rsum_map2_tab : forall n m (c : nat -> nat -> R) (y : nat -> R) (h : list R -> R -> R),
  Rsum (map2 h (tab n m c) (map y (seq 0 n))) = sum n (fun r => h (map (c r) (seq 0 m)) (y r)).
Proof. intros. unfold tab. rewrite map2_map_map. reflexivity. Qed.

Lemma list_as_map : forall A (d : A) l, l = map (fun i => nth i l d) (seq 0 (length l)).
Proof.
  intros A d l. apply nth_error_ext'. intros i.
  rewrite nth_error_map_seq. destruct (Nat.ltb_spec i (length l)) as [H|H].
  - destruct (nth_error_lt_Some l (i:=i)) as [x Hx]; auto. rewrite Hx. f_equal. symmetry. apply nth_error_nth; auto.
  - apply nth_error_None. auto.
Qed.

Lemma effects : forall nq tq p, ff_problem p ->
  exists n p' X, ff_sample nq tq p = (p', Ok (InPlace (mkMat n X))) /\ least_power (p_num_vars p) n /\
  length (p_names p') = n /\
  forall Y q, length Y = 2 * n -> (q = p \/ q = p') ->
    (forall second, exists r, snd (ff_analyze q Y second) = Ok r /\ ff_names r = p_names p' /\ length (ff_ME r) = n /\
       forall j, j < n -> nth_error (ff_ME r) j =
         Some (Rsum (map2 (fun x y => y * coded (p_bounds p') x j) X Y) / INR (2 * n))%R) /\
    (exists r l pairs, snd (ff_analyze q Y true) = Ok r /\ ff_IE r = Some l /\ length l = length pairs /\
       NoDup pairs /\ (forall a b, In (a, b) pairs <-> a < b < n) /\
       forall t a b, nth_error pairs t = Some (a, b) -> exists na nb,
         nth_error (p_names p') a = Some na /\ nth_error (p_names p') b = Some nb /\
         nth_error l t = Some ((na, nb),
           (Rsum (map2 (fun x y => y * (coded (p_bounds p') x a * coded (p_bounds p') x b)) X Y) / INR (2 * n))%R)).
Proof.
  intros nq tq p HP. pose proof HP as (Hn & _).
  destruct (ff_run nq tq p HP) as (k & Hk & H1 & H2 & E & Hg & Hl & HA).
  assert (HNL : length (p_names (padded p (2 ^ k))) = 2 ^ k) by (apply padded_names_len; auto).
  exists (2 ^ k). eexists. eexists. split; [exact E|]. split; [apply least_power_of; auto|]. split; [exact HNL|].
  intros Y q HY Hq. rewrite (list_as_map _ 0%R Y). set (y := fun i => nth i Y 0%R).
  replace (length Y) with (2 ^ k + 2 ^ k) by lia. split.
  - intros second. eexists. split; [apply HA; auto|]. cbn [ff_value ff_ME ff_names].
    split; [reflexivity|]. split; [rewrite map_length, seq_length; auto|].
    intros j Hj. rewrite nth_error_map_seq, (proj2 (Nat.ltb_lt _ _)) by auto. f_equal.
    unfold ff_rows. rewrite Rsum_map2_tab. unfold avg, Rdiv. rewrite Rmult_1_l, Rmult_comm. f_equal.
    apply sum_ext. intros r Hr. cbn [marked p_bounds]. rewrite coded_row; auto.
  - eexists. eexists. exists (map (fun ab => (snd ab, fst ab)) (pairs_of (2 ^ k))).
    split; [apply HA; auto|]. cbn [ff_value ff_IE]. split; [reflexivity|].
    split; [rewrite !map_length; auto|]. split; [|split].
    + apply map_NoDup_in; [|apply pairs_of_NoDup]. intros [a b] [a' b'] _ _ E'. simpl in E'. congruence.
    + intros a b. rewrite in_map_iff. split.
      * intros ([a' b'] & E' & H). simpl in E'. injection E' as -> ->. apply pairs_of_In in H. lia.
      * intros H. exists (b, a). split; auto. apply pairs_of_In. lia.
    + intros t a b Ht. rewrite nth_error_map' in Ht. destruct (nth_error (pairs_of (2 ^ k)) t) as [[a' b']|] eqn:Et; [|discriminate].
      simpl in Ht. injection Ht as -> ->. pose proof (nth_error_In _ _ Et) as Hin. apply pairs_of_In in Hin.
      cbn [marked p_names p_bounds].
      destruct (nth_error_lt_Some (p_names (padded p (2 ^ k))) (i:=a)) as [na Hna]; [rewrite HNL; lia|].
      destruct (nth_error_lt_Some (p_names (padded p (2 ^ k))) (i:=b)) as [nb Hnb]; [rewrite HNL; lia|].
      exists na, nb. split; auto. split; auto. rewrite nth_error_map', Et. cbn [option_map fst snd].
      rewrite (nth_error_nth _ _ _ Hna), (nth_error_nth _ _ _ Hnb). do 2 f_equal.
      unfold ff_rows. rewrite Rsum_map2_tab. unfold avg, Rdiv. rewrite Rmult_1_l, Rmult_comm. f_equal.
      apply sum_ext. intros r Hr. rewrite !coded_row by (auto; lia). unfold zr. ring.
Qed.

(** ** Linear plus even models *)
Lemma linear_row : forall bounds k r d c, d <= 2 ^ k -> good_box bounds -> length bounds = 2 ^ k ->
  linear d c (map (sv bounds k r) (seq 0 (2 ^ k))) =
  (sum d (fun j => c j * ((lower bounds j + upper bounds j) / 2)) +
   sum d (fun j => (c j * ((upper bounds j - lower bounds j) / 2)) * zr k r j))%R.
Proof.
  intros bounds k r d c Hd Hg Hl. unfold linear. fold (sum d (fun j => c j * nth j (map (sv bounds k r) (seq 0 (2 ^ k))) 0)%R).
  rewrite <- sum_plus. apply sum_ext. intros j Hj. rewrite nth_map_seq by lia. rewrite sv_coded by (auto; lia).
  unfold zr. ring.
Qed.

Section Linear.
Variables (bounds : list (list R)) (k d : nat) (c0 : R) (c : nat -> R) (g : (nat -> R) -> R).
Hypothesis Hd : d <= 2 ^ k.
Hypothesis Hg : good_box bounds.
Hypothesis Hl : length bounds = 2 ^ k.
Hypothesis Hev : even_on (2 ^ k) g.
Let row r := map (sv bounds k r) (seq 0 (2 ^ k)).
Let slope j := (c j * ((upper bounds j - lower bounds j) / 2))%R.

Lemma coded_mirror : forall r j, r < 2 ^ k -> j < 2 ^ k ->
  coded bounds (row (2 ^ k + r)) j = (- coded bounds (row r) j)%R.
Proof. intros r j Hr Hj. unfold row. rewrite !coded_row by auto. apply zr_mirror. auto. Qed.

Lemma linear_me : forall j, j < 2 ^ k ->
  avg (2 ^ k) (fun r => (c0 + linear d c (row r) + g (coded bounds (row r))) * zr k r j)%R
  = (if j <? d then slope j else 0)%R.
Proof.
  intros j Hj. unfold avg.
  rewrite (sum_ext _ _ (fun r => (c0 + sum d (fun i => c i * ((lower bounds i + upper bounds i) / 2))) * zr k r j
     + sum d (fun i => slope i * (zr k r i * zr k r j)) + g (coded bounds (row r)) * zr k r j)%R).
  2:{ intros r Hr. unfold row at 1. rewrite linear_row by auto.
      rewrite (sum_ext d (fun i => slope i * (zr k r i * zr k r j)) (fun i => zr k r j * (slope i * zr k r i)))%R by (intros; ring).
      rewrite sum_scal. unfold slope. ring. }
  rewrite !sum_plus, sum_scal, zr_sum.
  rewrite (mirror_sum k (fun r => g (coded bounds (row r)) * zr k r j)%R).
  2:{ intros r Hr. rewrite zr_mirror by auto. rewrite (Hev (coded bounds (row r)) (coded bounds (row (2 ^ k + r)))).
      ring. intros. apply coded_mirror; auto. }
  rewrite sum_swap. rewrite (sum_ext d (fun i => sum (2 ^ k + 2 ^ k) (fun r => slope i * (zr k r i * zr k r j)))%R (fun i => slope i * (if i =? j then INR (2 * 2 ^ k) else 0))%R).
  2:{ intros i Hi. rewrite sum_scal, zr_orth by lia. auto. }
  assert (Hpos : INR (2 * 2 ^ k) <> 0%R) by (apply not_0_INR; pose proof (pow2_pos k); lia).
  destruct (Nat.ltb_spec j d).
  - rewrite (sum_delta d (fun i => slope i * (if i =? j then INR (2 * 2 ^ k) else 0))%R j H).
    + rewrite Nat.eqb_refl. field. auto.
    + intros i Hi Hne. rewrite (proj2 (Nat.eqb_neq _ _)) by auto. ring.
  - rewrite (sum_zero d (fun i => slope i * (if i =? j then INR (2 * 2 ^ k) else 0))%R).
    + field; auto.
    + intros i Hi. rewrite (proj2 (Nat.eqb_neq _ _)) by lia. ring.
Qed.

Lemma linear_ie : forall a b, a < 2 ^ k -> b < 2 ^ k -> a <> b ->
  avg (2 ^ k) (fun r => (c0 + linear d c (row r)) * (zr k r a * zr k r b))%R = 0%R.
Proof.
  intros a b Ha Hb Hne. unfold avg.
  rewrite (sum_ext _ _ (fun r => (c0 + sum d (fun i => c i * ((lower bounds i + upper bounds i) / 2))) * (zr k r a * zr k r b)
     + sum d (fun i => slope i * (zr k r i * zr k r a * zr k r b)))%R).
  2:{ intros r Hr. unfold row. rewrite linear_row by auto.
      rewrite (sum_ext d (fun i => slope i * (zr k r i * zr k r a * zr k r b)) (fun i => (zr k r a * zr k r b) * (slope i * zr k r i)))%R by (intros; ring).
      rewrite sum_scal. unfold slope. ring. }
  rewrite sum_plus, sum_scal, zr_orth by auto. rewrite (proj2 (Nat.eqb_neq _ _)) by auto.
  rewrite sum_swap, (sum_zero d (fun i => sum (2 ^ k + 2 ^ k) (fun r => slope i * (zr k r i * zr k r a * zr k r b)))%R). ring. intros i Hi. rewrite sum_scal, zr_three. ring.
Qed.
End Linear.

Lemma prefix_bounds : forall p n j, length (p_bounds p) = p_num_vars p -> j < p_num_vars p ->
  lower (p_bounds (padded p n)) j = lower (p_bounds p) j /\ upper (p_bounds (padded p n)) j = upper (p_bounds p) j.
Proof. intros p n j H Hj. unfold lower, upper. simpl. rewrite app_nth1 by lia. auto. Qed.

Lemma main_effects : forall nq tq p, ff_problem p ->
  exists n p' X, ff_sample nq tq p = (p', Ok (InPlace (mkMat n X))) /\ least_power (p_num_vars p) n /\
  forall c0 c g q second, even_on n g -> (q = p \/ q = p') ->
  exists r, snd (ff_analyze q
     (map (fun x => c0 + linear (p_num_vars p) c x + g (coded (p_bounds p') x))%R X) second) = Ok r /\
    length (ff_ME r) = n /\
    (forall j, j < p_num_vars p ->
       nth_error (ff_ME r) j = Some (c j * (upper (p_bounds p) j - lower (p_bounds p) j) / 2)%R) /\
    (forall j, p_num_vars p <= j < n -> nth_error (ff_ME r) j = Some 0%R).
Proof.
  intros nq tq p HP. pose proof HP as (Hn & Hb & _).
  destruct (ff_run nq tq p HP) as (k & Hk & H1 & H2 & E & Hg & Hl & HA).
  exists (2 ^ k). eexists. eexists. split; [exact E|]. split; [apply least_power_of; auto|].
  intros c0 c g q second Hev Hq. cbn [marked p_bounds].
  eexists. split.
  { unfold ff_rows, tab. rewrite map_map. apply HA. auto. }
  cbn [ff_value ff_ME]. split; [rewrite map_length, seq_length; auto|]. split.
  - intros j Hj. rewrite nth_error_map_seq, (proj2 (Nat.ltb_lt _ _)) by lia.
    rewrite (linear_me _ k (p_num_vars p)) by (auto; lia). rewrite (proj2 (Nat.ltb_lt _ _)) by auto.
    destruct (prefix_bounds p (2 ^ k) j Hb Hj) as [-> ->]. f_equal. field.
  - intros j Hj. rewrite nth_error_map_seq, (proj2 (Nat.ltb_lt _ _)) by lia.
    rewrite (linear_me _ k (p_num_vars p)) by (auto; lia). rewrite (proj2 (Nat.ltb_ge _ _)) by lia. auto.
Qed.

Lemma products_even : forall n d, even_on n (products n d).
Proof.
  intros n d z z' H. unfold products. f_equal. apply map_ext_in. intros a Ha. apply in_seq in Ha.
  f_equal. apply map_ext_in. intros b Hb. apply in_seq in Hb. rewrite !H by lia. ring.
Qed.

Lemma no_interactions : forall nq tq p, ff_problem p ->
  exists n p' X, ff_sample nq tq p = (p', Ok (InPlace (mkMat n X))) /\ least_power (p_num_vars p) n /\
  forall c0 c q, (q = p \/ q = p') ->
  exists r l, snd (ff_analyze q (map (fun x => c0 + linear (p_num_vars p) c x)%R X) true) = Ok r /\
    ff_IE r = Some l /\ Forall (fun e => snd e = 0%R) l.
Proof.
  intros nq tq p HP. destruct (ff_run nq tq p HP) as (k & Hk & H1 & H2 & E & Hg & Hl & HA).
  exists (2 ^ k). eexists. eexists. split; [exact E|]. split; [apply least_power_of; auto|].
  intros c0 c q Hq. eexists. eexists. split.
  { unfold ff_rows, tab. rewrite map_map. apply HA. auto. }
  cbn [ff_value ff_IE]. split; [reflexivity|]. apply Forall_forall. intros e He.
  apply in_map_iff in He. destruct He as ([a b] & <- & Hab). apply pairs_of_In in Hab. cbn [fst snd].
  apply linear_ie; auto; lia.
Qed.

(** Aliasing of two-factor interactions. *)
Lemma zr_four : forall k a b a' b', a < 2 ^ k -> b < 2 ^ k -> a' < 2 ^ k -> b' < 2 ^ k ->
  avg (2 ^ k) (fun r => zr k r a * zr k r b * (zr k r a' * zr k r b'))%R
  = (if Nat.lxor a b =? Nat.lxor a' b' then 1 else 0)%R.
Proof.
  intros k a b a' b' Ha Hb Ha' Hb'. unfold avg.
  assert (Hpos : INR (2 * 2 ^ k) <> 0%R) by (apply not_0_INR; pose proof (pow2_pos k); lia).
  rewrite (sum_ext _ _ (fun r => zr k r (Nat.lxor a b) * zr k r (Nat.lxor a' b'))%R).
  - rewrite zr_orth by (apply lxor_lt; auto). destruct (_ =? _); field; auto.
  - assert (G : forall r x y, (zr k r x * zr k r y = (if r <? 2 ^ k then 1 else -1) * zr k r (Nat.lxor x y))%R).
    { intros r x y. unfold zr, cz. destruct (r <? 2 ^ k); rewrite <- hz_xor, ?opp_IZR, !mult_IZR; lra. }
    intros r Hr. rewrite (G r a b), (G r a' b'). destruct (r <? 2 ^ k); ring.
Qed.

Lemma aliasing : forall nq tq p, ff_problem p ->
  exists n p' X, ff_sample nq tq p = (p', Ok (InPlace (mkMat n X))) /\ least_power (p_num_vars p) n /\
  forall a b, a < b < n -> forall q, (q = p \/ q = p') ->
  exists r l pairs, snd (ff_analyze q (map (fun x => coded (p_bounds p') x a * coded (p_bounds p') x b)%R X) true) = Ok r /\
    ff_IE r = Some l /\ length l = length pairs /\ NoDup pairs /\ (forall i j, In (i, j) pairs <-> i < j < n) /\
    forall t i j, nth_error pairs t = Some (i, j) -> exists e, nth_error l t = Some e /\
      (Nat.lxor i j = Nat.lxor a b -> snd e = 1%R) /\ (Nat.lxor i j <> Nat.lxor a b -> snd e = 0%R).
Proof.
  intros nq tq p HP. destruct (ff_run nq tq p HP) as (k & Hk & H1 & H2 & E & Hg & Hl & HA).
  exists (2 ^ k). eexists. eexists. split; [exact E|]. split; [apply least_power_of; auto|].
  intros a b Hab q Hq. cbn [marked p_bounds]. eexists. eexists. exists (map (fun ab => (snd ab, fst ab)) (pairs_of (2 ^ k))).
  split. { unfold ff_rows, tab. rewrite map_map. apply HA. auto. }
  cbn [ff_value ff_IE]. split; [reflexivity|]. split; [rewrite !map_length; auto|]. split; [|split].
  + apply map_NoDup_in; [|apply pairs_of_NoDup]. intros [x y] [x' y'] _ _ E'. simpl in E'. congruence.
  + intros x y. rewrite in_map_iff. split.
    * intros ([x' y'] & E' & H). simpl in E'. injection E' as -> ->. apply pairs_of_In in H. lia.
    * intros H. exists (y, x). split; auto. apply pairs_of_In. lia.
  + intros t i j Ht. rewrite nth_error_map' in Ht. destruct (nth_error (pairs_of (2 ^ k)) t) as [[i' j']|] eqn:Et; [|discriminate].
    simpl in Ht. injection Ht as -> ->. pose proof (nth_error_In _ _ Et) as Hin. apply pairs_of_In in Hin.
    rewrite nth_error_map', Et. cbn [option_map fst snd]. eexists. split; [reflexivity|]. cbn [snd].
    assert (V : avg (2 ^ k) (fun r => coded (p_bounds (padded p (2 ^ k))) (map (sv (p_bounds (padded p (2 ^ k))) k r) (seq 0 (2 ^ k))) a *
      coded (p_bounds (padded p (2 ^ k))) (map (sv (p_bounds (padded p (2 ^ k))) k r) (seq 0 (2 ^ k))) b * (zr k r j * zr k r i))%R
      = (if Nat.lxor a b =? Nat.lxor i j then 1 else 0)%R).
    { rewrite <- (zr_four k a b i j) by lia. unfold avg. f_equal. apply sum_ext. intros r Hr. rewrite !coded_row by (auto; lia). unfold zr. ring. }
    rewrite V. split; intros H.
    * rewrite H, Nat.eqb_refl. auto.
    * rewrite (proj2 (Nat.eqb_neq _ _)); auto.
Qed.

(** ** Padding *)
Lemma padding : forall p, p_num_vars p <= 512 -> length (p_names p) = p_num_vars p ->
  length (p_bounds p) = p_num_vars p ->
  exists p1, extend_bounds p = Ok p1 /\ extend_bounds p1 = Ok p1 /\
    least_power (p_num_vars p) (p_num_vars p1) /\
    length (p_names p1) = p_num_vars p1 /\ length (p_bounds p1) = p_num_vars p1 /\
    firstn (p_num_vars p) (p_names p1) = p_names p /\ firstn (p_num_vars p) (p_bounds p1) = p_bounds p /\
    (forall j, p_num_vars p <= j < p_num_vars p1 -> nth_error (p_bounds p1) j = Some [0; 1]%R) /\
    p_groups p1 = p_groups p /\ p_dists p1 = p_dists p /\ p_scaled p1 = p_scaled p.
Proof.
  intros p Hs Hn Hb. destruct (extend_ok p Hs) as (k & Hk & H1 & H2 & E & E1 & E2).
  exists (padded p (2 ^ k)). split; auto. split; auto. split; [apply least_power_of; auto|].
  split; [apply padded_names_len; auto|]. split; [apply padded_len; auto|].
  simpl. rewrite <- Hn at 1. rewrite <- Hb at 2. rewrite !firstn_app, !Nat.sub_diag, !firstn_all, !firstn_O, !app_nil_r.
  do 2 (split; auto). split; auto. intros j Hj. rewrite nth_error_app2 by lia. rewrite nth_error_repeat.
  rewrite (proj2 (Nat.ltb_lt _ _)) by lia. auto.
Qed.

Lemma dists_refused : forall nq tq p ds, p_dists p = Some ds -> length ds = p_num_vars p ->
  p_num_vars p <= 512 -> (forall k, p_num_vars p <> 2 ^ k) ->
  snd (ff_sample nq tq p) = Err ValueError.
Proof.
  intros nq tq p ds Hd Hl Hs Hk. destruct (extend_ok p Hs) as (k & Hk' & H1 & H2 & E & E1 & E2).
  unfold ff_sample, generate_contrast. rewrite E, E1, contrast_tab, hd_tab by (pose proof (pow2_pos k); lia).
  unfold scale_samples. replace (p_dists (padded p (2 ^ k))) with (Some ds) by (symmetry; exact Hd).
  cbn [cols]. rewrite (proj2 (Nat.eqb_neq _ _)) by (rewrite Hl; intros X; apply (Hk k); auto). reflexivity.
Qed.
