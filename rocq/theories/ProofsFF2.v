(** * Proofs: padding, sampling and analysis of fractional factorial designs. *)
From Coq Require Import Reals String List Arith ZArith Bool Lia Lra.
From Verif Require Import Base ListFacts Arrays ModelGroups ModelScale Stats Sums SpecSobol ProofsSobol6 ModelFF SpecFF ProofsFF.
Import ListNotations.
Local Open Scope nat_scope.

(** ** Padding *)
Definition padded (p : problem) (n : nat) : problem :=
  mkProblem n (p_names p ++ map dummy_name (seq 0 (n - p_num_vars p)))
    (p_bounds p ++ repeat [0; 1]%R (n - p_num_vars p)) (p_groups p) (p_dists p) (p_scaled p).

Lemma extend_ok : forall p, p_num_vars p <= 512 -> exists k, k < 10 /\ p_num_vars p <= 2 ^ k /\
  (forall k', p_num_vars p <= 2 ^ k' -> k <= k') /\ find_smallest (p_num_vars p) = Some k /\
  extend_bounds p = Ok (padded p (2 ^ k)) /\ extend_bounds (padded p (2 ^ k)) = Ok (padded p (2 ^ k)).
Proof.
  intros p Hp. destruct (proj1 (find_smallest_spec _) Hp) as (k & E & Hk & Hd & Hm).
  exists k. do 4 (split; auto). split.
  - unfold extend_bounds, ff_size. rewrite E. cbn [bind].
    destruct (Nat.ltb_spec 0 (2 ^ k - p_num_vars p)); [reflexivity|].
    unfold padded. replace (2 ^ k - p_num_vars p) with 0 by lia. simpl. rewrite !app_nil_r.
    replace (2 ^ k) with (p_num_vars p) by lia. destruct p; reflexivity.
  - unfold extend_bounds, ff_size. cbn [p_num_vars padded]. rewrite find_smallest_pow by auto. cbn [bind].
    rewrite Nat.sub_diag. reflexivity.
Qed.

Lemma extend_refused : forall p, 512 < p_num_vars p -> extend_bounds p = Err TypeError /\
  generate_contrast (p_num_vars p) = Err TypeError.
Proof.
  intros p Hp. unfold extend_bounds, ff_size, generate_contrast.
  rewrite (proj2 (find_smallest_spec _) Hp). auto.
Qed.

(** ** The sample *)
Definition sv (bounds : list (list R)) (k r j : nat) : R :=
  if (cz k r j =? 1)%Z then upper bounds j else lower bounds j.

Lemma good_box_nth : forall bounds j, good_box bounds -> j < length bounds ->
  nth_error bounds j = Some [lower bounds j; upper bounds j] /\ (lower bounds j < upper bounds j)%R.
Proof.
  intros bounds j H Hj. destruct (nth_error_lt_Some bounds (i:=j)) as [b Hb]; auto.
  pose proof (nth_error_In _ _ Hb) as Hin. unfold good_box in H. rewrite Forall_forall in H.
  destruct (H b Hin) as (lo & up & -> & Hlt). unfold lower, upper. rewrite (nth_error_nth _ _ _ Hb). auto.
Qed.

Lemma padded_box : forall p n, good_box (p_bounds p) -> good_box (p_bounds (padded p n)).
Proof.
  intros p n H. simpl. unfold good_box in *. apply Forall_app. split; auto.
  apply Forall_forall. intros b Hb. apply repeat_spec in Hb. subst b. exists 0%R, 1%R. split; auto. lra.
Qed.

Definition ff_rows (p : problem) (k : nat) : list (list R) :=
  tab (2 ^ k + 2 ^ k) (2 ^ k) (sv (p_bounds (padded p (2 ^ k))) k).
Definition marked (p : problem) : problem :=
  mkProblem (p_num_vars p) (p_names p) (p_bounds p) (p_groups p) (p_dists p) true.

Lemma pow2_pos : forall k, 0 < 2 ^ k.
Proof. intros. assert (2 ^ k <> 0) by (apply Nat.pow_nonzero; lia). lia. Qed.

Lemma hd_tab : forall A n m (c : nat -> nat -> A), 0 < n -> length (hd [] (tab n m c)) = m.
Proof. intros. destruct n; [lia|]. unfold tab. simpl. rewrite map_length, seq_length. auto. Qed.

Lemma padded_len : forall p k, p_num_vars p <= 2 ^ k -> length (p_bounds p) = p_num_vars p ->
  length (p_bounds (padded p (2 ^ k))) = 2 ^ k.
Proof. intros. simpl. rewrite app_length, repeat_length. lia. Qed.
Lemma padded_names_len : forall p k, p_num_vars p <= 2 ^ k -> length (p_names p) = p_num_vars p ->
  length (p_names (padded p (2 ^ k))) = 2 ^ k.
Proof. intros. simpl. rewrite app_length, map_length, seq_length. lia. Qed.

Lemma ff_sample_ok : forall nq tq p, ff_problem p -> exists k, k < 10 /\ p_num_vars p <= 2 ^ k /\
  (forall k', p_num_vars p <= 2 ^ k' -> k <= k') /\
  ff_sample nq tq p = (marked (padded p (2 ^ k)), Ok (InPlace (mkMat (2 ^ k) (ff_rows p k)))).
Proof.
  intros nq tq p (Hn & Hb & Hg & Hd & Hs).
  destruct (extend_ok p Hs) as (k & Hk & H1 & H2 & E & E1 & E2). exists k. do 3 (split; auto).
  unfold ff_sample. unfold generate_contrast. rewrite E, E1, contrast_tab.
  pose proof (pow2_pos k) as Hp. rewrite hd_tab by lia.
  set (u := map (map _) _).
  destruct (scale_ok_box (mkMat (2 ^ k) u) (p_bounds (padded p (2 ^ k)))) as (v & Hv & Lv & Hvn); auto.
  { apply padded_len; auto. } { apply padded_box; auto. }
  unfold scale_samples. replace (p_dists (padded p (2 ^ k))) with (@None (list string)) by (symmetry; exact Hd).
  rewrite Hv. f_equal.
  { unfold marked. f_equal. symmetry; exact Hd. }
  do 3 f_equal.
  cbn [rows cols]. unfold u, ff_rows, tab. rewrite !map_map. apply map_ext_in. intros r Hr. apply in_seq in Hr.
  apply nth_error_ext'.
  intros j. rewrite to_physical_nth, map_map, !nth_error_map_seq.
  destruct (Nat.ltb_spec j (2 ^ k)) as [Hj|Hj]; auto.
  destruct (good_box_nth (p_bounds (padded p (2 ^ k))) j) as [Hbj Hlt].
  { apply padded_box; auto. } { rewrite padded_len; auto. }
  apply Hvn in Hbj. rewrite Hbj. f_equal. unfold sv.
  destruct (cz_sign k r j) as [-> | ->]; cbn [Z.eqb Pos.eqb]; lra.
Qed.

(** ** Coded values *)
Lemma coded_row : forall bounds k r j, good_box bounds -> length bounds = 2 ^ k -> j < 2 ^ k ->
  coded bounds (map (sv bounds k r) (seq 0 (2 ^ k))) j = IZR (cz k r j).
Proof.
  intros bounds k r j Hg Hl Hj. unfold coded. rewrite nth_map_seq by auto.
  destruct (good_box_nth bounds j Hg) as [_ Hlt]; [lia|]. unfold sv.
  destruct (cz_sign k r j) as [-> | ->]; cbn [Z.eqb Pos.eqb]; simpl IZR; field; lra.
Qed.

Lemma sv_coded : forall bounds k r j, good_box bounds -> length bounds = 2 ^ k -> j < 2 ^ k ->
  sv bounds k r j = ((lower bounds j + upper bounds j) / 2 + IZR (cz k r j) * ((upper bounds j - lower bounds j) / 2))%R.
Proof.
  intros bounds k r j Hg Hl Hj. unfold sv.
  destruct (cz_sign k r j) as [-> | ->]; cbn [Z.eqb Pos.eqb]; simpl IZR; field.
Qed.

(** ** Sums over the design *)
Lemma sum_app : forall n m f, sum (n + m) f = (sum n f + sum m (fun i => f (n + i)%nat))%R.
Proof. intros. unfold sum. rewrite map_seq_add, Rsum_app. auto. Qed.

Lemma IZR_zsum : forall n f, IZR (zsum n f) = sum n (fun i => IZR (f i)).
Proof.
  intros n f. unfold zsum, sum. induction (seq 0 n) as [|x l IH]; simpl; auto. rewrite plus_IZR, IH. auto.
Qed.

Lemma mirror_sum : forall k f, (forall r, r < 2 ^ k -> f (2 ^ k + r) = (- f r)%R) -> sum (2 ^ k + 2 ^ k) f = 0%R.
Proof.
  intros k f H. rewrite sum_app, (sum_ext (2 ^ k) (fun i => f (2 ^ k + i)) (fun i => (-1 * f i)%R)).
  - rewrite sum_scal. lra.
  - intros i Hi. rewrite H by auto. lra.
Qed.

Definition zr (k r j : nat) : R := IZR (cz k r j).

Lemma zr_orth : forall k a b, a < 2 ^ k -> b < 2 ^ k ->
  sum (2 ^ k + 2 ^ k) (fun r => zr k r a * zr k r b)%R = (if a =? b then INR (2 * 2 ^ k) else 0)%R.
Proof.
  intros k a b Ha Hb. unfold zr. rewrite (sum_ext _ _ (fun r => IZR (cz k r a * cz k r b))).
  2:{ intros; rewrite mult_IZR; auto. }
  rewrite <- IZR_zsum. destruct (Nat.eqb_spec a b) as [->|Hne].
  - rewrite (zsum_ext _ _ (fun _ => 1%Z)) by (intros; apply cz_square). rewrite zsum_one.
    rewrite <- INR_IZR_INZ. f_equal. lia.
  - rewrite cz_orth; auto.
Qed.

Lemma zr_mirror : forall k r j, r < 2 ^ k -> zr k (2 ^ k + r) j = (- zr k r j)%R.
Proof. intros. unfold zr. rewrite cz_mirror by auto. rewrite opp_IZR. auto. Qed.

Lemma zr_sum : forall k a, sum (2 ^ k + 2 ^ k) (fun r => zr k r a) = 0%R.
Proof. intros. apply mirror_sum. intros. apply zr_mirror; auto. Qed.

(** Triple products are odd. *)
Lemma zr_three : forall k a b c, sum (2 ^ k + 2 ^ k) (fun r => zr k r a * zr k r b * zr k r c)%R = 0%R.
Proof. intros. apply mirror_sum. intros r Hr. rewrite !zr_mirror by auto. ring. Qed.

Lemma zr_square : forall k r a, (zr k r a * zr k r a = 1)%R.
Proof. intros. unfold zr. rewrite <- mult_IZR, cz_square. auto. Qed.

(** ** The analyser *)
Lemma column_tab : forall A n m (c : nat -> nat -> A) j, j < m ->
  column (tab n m c) j = map (fun r => c r j) (seq 0 n).
Proof.
  intros. unfold column, tab. induction (seq 0 n) as [|x l IH]; simpl; auto.
  rewrite nth_error_map_seq, (proj2 (Nat.ltb_lt _ _)) by auto. simpl. f_equal. auto.
Qed.

Lemma dot_ok : forall n (y : nat -> R) (x : nat -> Z),
  dot (map y (seq 0 n)) (map x (seq 0 n)) = Ok (sum n (fun r => y r * IZR (x r)))%R.
Proof.
  intros. unfold dot. rewrite !map_length, Nat.eqb_refl. f_equal. unfold sum. f_equal.
  induction (seq 0 n); simpl; auto. f_equal; auto.
Qed.

Lemma map2_map_map : forall A B C D (f : B -> C -> D) (g : A -> B) (h : A -> C) l,
  map2 f (map g l) (map h l) = map (fun x => f (g x) (h x)) l.
Proof. induction l; simpl; auto. f_equal; auto. Qed.

Definition pairs_of (n : nat) : list (nat * nat) :=
  flat_map (fun c => map (fun c2 => (c, c2)) (seq 0 c)) (seq 0 n).

Lemma pairs_of_In : forall n a b, In (a, b) (pairs_of n) <-> b < a < n.
Proof.
  intros. unfold pairs_of. rewrite in_flat_map. split.
  - intros (c & Hc & H). apply in_map_iff in H. destruct H as (c2 & E & H2). injection E as -> ->.
    apply in_seq in Hc, H2. lia.
  - intros H. exists a. split; [apply in_seq; lia|]. apply in_map_iff. exists b. split; auto. apply in_seq; lia.
Qed.

Lemma NoDup_flat_map : forall A B (f : A -> list B) l, NoDup l -> (forall x, In x l -> NoDup (f x)) ->
  (forall x y z, In x l -> In y l -> In z (f x) -> In z (f y) -> x = y) -> NoDup (flat_map f l).
Proof.
  induction l as [|a l IH]; intros Hn Hf Hd; simpl; [constructor|]. inversion Hn; subst.
  apply NoDup_app_intro.
  - apply Hf; left; auto.
  - apply IH; auto. intros; apply Hf; right; auto. intros x y z Hx Hy. apply Hd; right; auto.
  - intros z Hz Hz'. apply in_flat_map in Hz'. destruct Hz' as (y & Hy & Hzy).
    assert (a = y) by (apply (Hd a y z); auto; [left|right]; auto). subst. contradiction.
Qed.

Lemma pairs_of_NoDup : forall n, NoDup (pairs_of n).
Proof.
  intros n. unfold pairs_of. apply NoDup_flat_map.
  - apply seq_NoDup.
  - intros x _. apply map_NoDup_in; [|apply seq_NoDup]. intros a b _ _ E. congruence.
  - intros x y z _ _ Hx Hy. apply in_map_iff in Hx, Hy. destruct Hx as (a & <- & _), Hy as (b & E & _). congruence.
Qed.

Definition avg (n : nat) (f : nat -> R) : R := (1 / INR (2 * n) * sum (n + n) f)%R.

Definition ff_value (p : problem) (k : nat) (y : nat -> R) (second : bool) : ff_result :=
  mkFF (p_names (padded p (2 ^ k)))
    (map (fun j => avg (2 ^ k) (fun r => y r * zr k r j)%R) (seq 0 (2 ^ k)))
    (if second then
       Some (map (fun ab => ((nth (snd ab) (p_names (padded p (2 ^ k))) EmptyString,
                              nth (fst ab) (p_names (padded p (2 ^ k))) EmptyString),
                             avg (2 ^ k) (fun r => y r * (zr k r (fst ab) * zr k r (snd ab)))%R)) (pairs_of (2 ^ k)))
     else None).

Lemma get_nth : forall A (l : list A) i d, i < length l -> get l i = Ok (nth i l d).
Proof.
  intros. unfold get. destruct (nth_error_lt_Some l (i:=i)) as [x Hx]; auto. rewrite Hx.
  rewrite (nth_error_nth _ _ d Hx). auto.
Qed.

Lemma ff_analyze_padded : forall p k y (second : bool), k < 10 -> p_num_vars p <= 2 ^ k ->
  length (p_names p) = p_num_vars p ->
  (do X <- generate_contrast (2 ^ k) ;;
   do ME <- mapM (fun j => do v <- dot (map y (seq 0 (2 ^ k + 2 ^ k))) (column X j) ;; Ok (1 / INR (2 * 2 ^ k) * v)%R)
                   (seq 0 (length (hd [] X))) ;;
   do IE <- (if second then do l <- interactions (p_names (padded p (2 ^ k))) (2 ^ k) X (map y (seq 0 (2 ^ k + 2 ^ k))) ;; Ok (Some l)
               else Ok None) ;;
   Ok (mkFF (p_names (padded p (2 ^ k))) ME IE)) = Ok (ff_value p k y second).
Proof.
  intros p k y second Hk Hd Hn. unfold generate_contrast. rewrite find_smallest_pow by auto. cbn [bind].
  rewrite contrast_tab, hd_tab by (pose proof (pow2_pos k); lia).
  rewrite (@mapM_ext nat R _ (fun j => Ok (avg (2 ^ k) (fun r => y r * zr k r j)%R) : result R)).
  2:{ intros j Hj. apply in_seq in Hj. rewrite column_tab by lia. rewrite dot_ok. reflexivity. }
  rewrite mapM_Ok_map. cbn [bind]. unfold ff_value. destruct second; [|reflexivity].
  unfold interactions. rewrite hd_tab by (pose proof (pow2_pos k); lia). fold (pairs_of (2 ^ k)).
  rewrite (@mapM_ext _ _ _ (fun ab : nat * nat => Ok ((nth (snd ab) (p_names (padded p (2 ^ k))) EmptyString,
                              nth (fst ab) (p_names (padded p (2 ^ k))) EmptyString),
                             avg (2 ^ k) (fun r => y r * (zr k r (fst ab) * zr k r (snd ab)))%R))).
  - rewrite mapM_Ok_map. reflexivity.
  - intros [a b] Hab. apply pairs_of_In in Hab.
    rewrite (get_nth _ _ b EmptyString), (get_nth _ _ a EmptyString) by (rewrite padded_names_len by auto; lia).
    cbn [bind]. rewrite !column_tab by lia. rewrite map2_map_map, dot_ok. cbn [bind fst snd].
    do 2 f_equal. unfold avg. f_equal. apply sum_ext. intros r Hr. unfold zr. rewrite mult_IZR. auto.
Qed.

(** The analysis gives the same result for the problem before and after sampling. *)
Lemma ff_analyze_ok : forall p k y second, k < 10 -> p_num_vars p <= 2 ^ k ->
  (forall k', p_num_vars p <= 2 ^ k' -> k <= k') -> p_num_vars p <= 512 ->
  length (p_names p) = p_num_vars p ->
  ff_analyze p (map y (seq 0 (2 ^ k + 2 ^ k))) second = (padded p (2 ^ k), Ok (ff_value p k y second)) /\
  ff_analyze (marked (padded p (2 ^ k))) (map y (seq 0 (2 ^ k + 2 ^ k))) second
    = (marked (padded p (2 ^ k)), Ok (ff_value p k y second)).
Proof.
  intros p k y second Hk Hd Hm Hs Hn.
  destruct (extend_ok p Hs) as (k' & Hk' & H1 & H2 & E & E1 & E2).
  assert (k' = k) by (pose proof (Hm k' H1); pose proof (H2 k Hd); lia). subst k'.
  split.
  - unfold ff_analyze. rewrite E1. f_equal. apply ff_analyze_padded; auto.
  - unfold ff_analyze. replace (extend_bounds (marked (padded p (2 ^ k)))) with (Ok (marked (padded p (2 ^ k)))).
    + f_equal. apply (ff_analyze_padded p); auto.
    + unfold extend_bounds, ff_size. cbn [p_num_vars padded marked]. rewrite find_smallest_pow by auto. cbn [bind].
      rewrite Nat.sub_diag. reflexivity.
Qed.

Lemma ff_analyze_length : forall p k Y second, k < 10 -> p_num_vars p <= 2 ^ k ->
  (forall k', p_num_vars p <= 2 ^ k' -> k <= k') -> p_num_vars p <= 512 ->
  length Y <> 2 * 2 ^ k -> snd (ff_analyze p Y second) = Err ValueError.
Proof.
  intros p k Y second Hk Hd Hm Hs HY.
  destruct (extend_ok p Hs) as (k' & Hk' & H1 & H2 & E & E1 & E2).
  assert (k' = k) by (pose proof (Hm k' H1); pose proof (H2 k Hd); lia). subst k'.
  unfold ff_analyze. rewrite E1. cbn [snd p_num_vars padded]. unfold generate_contrast.
  rewrite find_smallest_pow by auto. cbn [bind].
  pose proof (pow2_pos k). rewrite contrast_tab, hd_tab by lia.
  destruct (2 ^ k) as [|m] eqn:Em; [lia|]. cbn [seq mapM].
  rewrite column_tab by lia. unfold dot at 1. rewrite map_length, seq_length.
  rewrite (proj2 (Nat.eqb_neq _ _)) by lia. reflexivity.
Qed.
