(** * numpy/scipy order statistics over the reals: sort, quantile, median, empirical distribution
    functions and the two-sample Kolmogorov-Smirnov statistic, and their laws.

    Nothing here models a SALib function; these are the library primitives used by the PAWN, RSA
    and delta analysers. *)
From Coq Require Import Reals List Arith ZArith Bool Lia Lra Permutation Sorted.
From Verif Require Import Base ModelScale ProofsScale Stats.
Import ListNotations.
Local Open Scope nat_scope.

(** np.sort *)
Fixpoint insertR (x : R) (l : list R) : list R :=
  match l with
  | [] => [x]
  | y :: r => if Rle_dec x y then x :: l else y :: insertR x r
  end.
Definition sortR (l : list R) : list R := fold_right insertR [] l.

(** np.quantile / np.nanquantile (method "linear") of a non-empty array of numbers: the position
    q (n-1), interpolated between the two neighbouring order statistics. *)
Definition quantile (l : list R) (q : R) : R :=
  let a := sortR l in
  let v := (q * INR (length a - 1))%R in
  let i := Z.to_nat (Int_part v) in
  let lo := nth i a 0%R in
  let hi := nth (Nat.min (i + 1) (length a - 1)) a 0%R in
  (lo + (v - INR i) * (hi - lo))%R.

(** np.median of a non-empty array. *)
Definition median (l : list R) : R :=
  let a := sortR l in
  let n := length a in
  if Nat.even n then ((nth (n / 2 - 1) a 0 + nth (n / 2) a 0) / 2)%R else nth (n / 2) a 0%R.

(** Number of values <= t (np.searchsorted on the sorted array, side "right"). *)
Definition count_le (l : list R) (t : R) : nat := length (filter (fun x => if Rle_dec x t then true else false) l).

(** scipy.stats.ks_2samp(a, b).statistic, two-sided: the distribution functions are compared at all data. *)
Definition ks_2samp (a b : list R) : R :=
  let diffs := map (fun t => INR (count_le a t) / INR (length a) - INR (count_le b t) / INR (length b))%R (a ++ b) in
  let minS := Rmin 1 (Rmax 0 (- minl diffs)) in
  let maxS := maxl diffs in
  if Rlt_dec maxS minS then minS else maxS.

(** ** Sorting *)
Lemma insertR_perm : forall x l, Permutation (insertR x l) (x :: l).
Proof.
  induction l as [|y l IH]; simpl; auto. destruct (Rle_dec x y); auto.
  etransitivity; [apply perm_skip, IH|]. apply perm_swap.
Qed.
Lemma sortR_perm : forall l, Permutation (sortR l) l.
Proof. induction l as [|x l IH]; simpl; auto. etransitivity; [apply insertR_perm|]. auto. Qed.
Lemma insertR_sorted : forall x l, StronglySorted Rle l -> StronglySorted Rle (insertR x l).
Proof.
  induction l as [|y l IH]; intros H; simpl; [repeat constructor|].
  inversion H as [|? ? HS HF]; subst. destruct (Rle_dec x y) as [L|L].
  - constructor; auto. constructor; auto. rewrite Forall_forall in *. intros z Hz. specialize (HF z Hz). lra.
  - constructor; auto. rewrite Forall_forall in *. intros z Hz. apply (Permutation_in _ (insertR_perm x l)) in Hz.
    destruct Hz as [<-|Hz]; [lra|]. apply HF. auto.
Qed.
Lemma sortR_sorted : forall l, StronglySorted Rle (sortR l).
Proof. induction l; simpl; [constructor|]. apply insertR_sorted. auto. Qed.
Lemma sortR_length : forall l, length (sortR l) = length l.
Proof. intros. apply Permutation_length, sortR_perm. Qed.
Lemma sortR_in : forall l x, In x (sortR l) <-> In x l.
Proof.
  intros l x. split; apply Permutation_in; [apply sortR_perm|apply Permutation_sym, sortR_perm].
Qed.

Definition ascending (l : list R) : Prop := forall i j, i <= j -> j < length l -> (nth i l 0 <= nth j l 0)%R.

Lemma sorted_ascending : forall l, StronglySorted Rle l -> ascending l.
Proof.
  intros l H. induction H as [|x l HS IH HF]; intros i j Hij Hj; simpl in Hj; [lia|].
  destruct i as [|i], j as [|j]; simpl; try lra; try lia.
  - rewrite Forall_forall in HF. apply HF. apply nth_In. lia.
  - apply IH; lia.
Qed.
Lemma sortR_ascending : forall l, ascending (sortR l).
Proof. intros. apply sorted_ascending, sortR_sorted. Qed.

Lemma sorted_perm_eq : forall (l l' : list R), StronglySorted Rle l -> StronglySorted Rle l' -> Permutation l l' -> l = l'.
Proof.
  induction l as [|x l IH]; intros l' HS HS' HP.
  - apply Permutation_nil in HP. auto.
  - destruct l' as [|y l']; [apply Permutation_sym, Permutation_nil in HP; discriminate|].
    inversion HS as [|? ? HS1 HF1]; subst. inversion HS' as [|? ? HS2 HF2]; subst.
    assert (x = y).
    { assert (In x (y :: l')) by (apply (Permutation_in _ HP); left; auto).
      assert (In y (x :: l)) by (apply (Permutation_in _ (Permutation_sym HP)); left; auto).
      rewrite Forall_forall in HF1, HF2. destruct H as [H|H]; auto. destruct H0 as [H0|H0]; auto.
      specialize (HF1 _ H0). specialize (HF2 _ H). lra. }
    subst y. f_equal. apply IH; auto. apply Permutation_cons_inv with x. auto.
Qed.
Lemma sortR_perm_eq : forall l l', Permutation l l' -> sortR l = sortR l'.
Proof.
  intros l l' H. apply sorted_perm_eq; try apply sortR_sorted.
  etransitivity; [apply sortR_perm|]. etransitivity; [exact H|]. apply Permutation_sym, sortR_perm.
Qed.
Lemma sortR_map_mono : forall (g : R -> R) l, (forall a b, In a l -> In b l -> a <= b -> g a <= g b)%R ->
  sortR (map g l) = map g (sortR l).
Proof.
  intros g l Hg. apply sorted_perm_eq; try apply sortR_sorted.
  - assert (B : forall x, In x (sortR l) -> In x l) by (intros x; apply sortR_in).
    pose proof (sortR_sorted l) as HS. induction HS as [|x s HS IH HF]; simpl; constructor.
    + apply IH. intros y Hy. apply B. right. auto.
    + rewrite Forall_forall in *. intros z Hz. apply in_map_iff in Hz. destruct Hz as (w & <- & Hw).
      apply Hg; [apply B; left; auto|apply B; right; auto|apply HF; auto].
  - etransitivity; [apply sortR_perm|]. apply Permutation_map. apply Permutation_sym, sortR_perm.
Qed.
Lemma sortR_first : forall l, l <> [] -> nth 0 (sortR l) 0%R = minl l.
Proof.
  intros l H. destruct (minl_spec l H) as [Hi Hm].
  assert (L : 0 < length (sortR l)) by (rewrite sortR_length; destruct l; simpl; [congruence|lia]).
  apply Rle_antisym.
  - apply sortR_in in Hi. apply (In_nth _ _ 0%R) in Hi. destruct Hi as (k & Hk & <-). apply sortR_ascending; lia.
  - apply Hm. apply sortR_in. apply nth_In. auto.
Qed.
Lemma sortR_last : forall l, l <> [] -> nth (length l - 1) (sortR l) 0%R = maxl l.
Proof.
  intros l H. destruct (maxl_spec l H) as [Hi Hm].
  assert (L : 0 < length l) by (destruct l; simpl; [congruence|lia]).
  apply Rle_antisym.
  - apply Hm. apply sortR_in. apply nth_In. rewrite sortR_length. lia.
  - apply sortR_in in Hi. apply (In_nth _ _ 0%R) in Hi. destruct Hi as (k & Hk & <-). rewrite sortR_length in Hk.
    apply sortR_ascending; [lia|rewrite sortR_length; lia].
Qed.

(** ** Integer part *)
Lemma floor_spec : forall v, (0 <= v)%R -> (INR (Z.to_nat (Int_part v)) <= v < INR (Z.to_nat (Int_part v)) + 1)%R.
Proof.
  intros v H. destruct (base_Int_part v) as [A B].
  assert (Hz : (0 <= Int_part v)%Z). { assert (-1 < Int_part v)%Z; [|lia]. apply lt_IZR. lra. }
  rewrite INR_IZR_INZ, Z2Nat.id by auto. lra.
Qed.
Lemma floor_unique : forall v (i : nat), (INR i <= v < INR i + 1)%R -> Z.to_nat (Int_part v) = i.
Proof.
  intros v i H. assert (Hv : (0 <= v)%R) by (pose proof (pos_INR i); lra). pose proof (floor_spec v Hv) as K.
  set (j := Z.to_nat (Int_part v)) in *.
  assert (i < j + 1). { apply INR_lt. rewrite plus_INR. simpl. lra. }
  assert (j < i + 1). { apply INR_lt. rewrite plus_INR. simpl. lra. }
  lia.
Qed.
Lemma floor_mono : forall v w, (0 <= v)%R -> (v <= w)%R -> Z.to_nat (Int_part v) <= Z.to_nat (Int_part w).
Proof.
  intros v w Hv H. pose proof (floor_spec v Hv). pose proof (floor_spec w ltac:(lra)).
  assert (Z.to_nat (Int_part v) < Z.to_nat (Int_part w) + 1); [|lia]. apply INR_lt. rewrite plus_INR. simpl. lra.
Qed.

(** ** Quantiles *)
Definition interp (a : list R) (v : R) : R :=
  let i := Z.to_nat (Int_part v) in
  let lo := nth i a 0%R in let hi := nth (Nat.min (i + 1) (length a - 1)) a 0%R in
  (lo + (v - INR i) * (hi - lo))%R.
Lemma quantile_interp : forall l q, quantile l q = interp (sortR l) (q * INR (length l - 1)).
Proof. intros. unfold quantile, interp. cbv zeta. rewrite sortR_length. reflexivity. Qed.

Lemma interp_bounds : forall a v, ascending a -> (0 <= v)%R -> (v <= INR (length a - 1))%R -> a <> [] ->
  let i := Z.to_nat (Int_part v) in i < length a /\
  (nth i a 0 <= interp a v <= nth (Nat.min (i + 1) (length a - 1)) a 0)%R.
Proof.
  intros a v Ha Hv Hn Hne i. pose proof (floor_spec v Hv) as F. fold i in F.
  assert (L : 0 < length a) by (destruct a; simpl; [congruence|lia]).
  assert (Hi : i < length a). { assert (i < length a - 1 + 1); [|lia]. apply INR_lt. rewrite plus_INR. simpl. lra. }
  split; auto. unfold interp. cbv zeta. fold i.
  assert (H : (nth i a 0 <= nth (Nat.min (i + 1) (length a - 1)) a 0)%R) by (apply Ha; lia).
  split; [|]; nra.
Qed.
Lemma interp_int : forall a i, interp a (INR i) = nth i a 0%R.
Proof.
  intros a i. unfold interp. cbv zeta. rewrite (floor_unique (INR i) i) by lra.
  replace (INR i - INR i)%R with 0%R by ring. ring.
Qed.
Lemma interp_mono : forall a v w, ascending a -> a <> [] -> (0 <= v)%R -> (v <= w)%R -> (w <= INR (length a - 1))%R ->
  (interp a v <= interp a w)%R.
Proof.
  intros a v w Ha Hne Hv Hvw Hw.
  destruct (interp_bounds a v Ha Hv ltac:(lra) Hne) as [Bi Bv]. destruct (interp_bounds a w Ha ltac:(lra) Hw Hne) as [Bj Bw].
  pose proof (floor_mono v w Hv Hvw) as Hf.
  set (i := Z.to_nat (Int_part v)) in *. set (j := Z.to_nat (Int_part w)) in *.
  destruct (Nat.eq_dec i j) as [E|E].
  - unfold interp. cbv zeta. fold i. fold j. rewrite <- E.
    assert (H : (nth i a 0 <= nth (Nat.min (i + 1) (length a - 1)) a 0)%R) by (apply Ha; lia). nra.
  - assert (H : (nth (Nat.min (i + 1) (length a - 1)) a 0 <= nth j a 0)%R) by (apply Ha; lia). lra.
Qed.

Lemma len_pos : forall (l : list R), l <> [] -> 0 < length l.
Proof. intros l H. destruct l; simpl; [congruence|lia]. Qed.
Lemma sortR_nil : forall l, l <> [] -> sortR l <> [].
Proof. intros l H E. pose proof (sortR_length l) as L. rewrite E in L. apply H. destruct l; auto. discriminate. Qed.

Lemma quantile_mono : forall l p q, l <> [] -> (0 <= p)%R -> (p <= q)%R -> (q <= 1)%R -> (quantile l p <= quantile l q)%R.
Proof.
  intros l p q Hl Hp Hpq Hq. rewrite !quantile_interp. pose proof (pos_INR (length l - 1)).
  apply interp_mono; try rewrite sortR_length; auto using sortR_ascending, sortR_nil; try nra.
Qed.
Lemma quantile_0 : forall l, l <> [] -> quantile l 0 = minl l.
Proof.
  intros l H. rewrite quantile_interp, Rmult_0_l. change 0%R with (INR 0). rewrite interp_int. apply sortR_first. auto.
Qed.
Lemma quantile_1 : forall l, l <> [] -> quantile l 1 = maxl l.
Proof. intros l H. rewrite quantile_interp, Rmult_1_l, interp_int. apply sortR_last. auto. Qed.
Lemma quantile_perm : forall l l' q, Permutation l l' -> quantile l q = quantile l' q.
Proof. intros l l' q H. unfold quantile. rewrite (sortR_perm_eq l l' H). reflexivity. Qed.
Lemma quantile_affine : forall l q a b, (0 < a)%R -> l <> [] -> (0 <= q <= 1)%R ->
  quantile (map (fun x => a * x + b)%R l) q = (a * quantile l q + b)%R.
Proof.
  intros l q a b Ha Hl Hq. rewrite !quantile_interp, map_length.
  rewrite sortR_map_mono by (intros; nra). unfold interp. cbv zeta. rewrite map_length.
  set (v := (q * INR (length l - 1))%R). set (i := Z.to_nat (Int_part v)).
  pose proof (len_pos l Hl) as L. pose proof (pos_INR (length l - 1)) as P.
  assert (Hi : i < length (sortR l)).
  { apply (interp_bounds (sortR l) v); auto using sortR_ascending, sortR_nil; try rewrite sortR_length; unfold v; nra. }
  rewrite (nth_indep _ 0%R (a * 0 + b)%R) by (rewrite map_length; auto).
  rewrite (nth_indep (map _ (sortR l)) 0%R (a * 0 + b)%R (n := Nat.min (i + 1) (length (sortR l) - 1))) by (rewrite map_length; lia).
  rewrite !(map_nth (fun x => a * x + b)%R). ring.
Qed.

(** ** Median *)
Lemma median_bounds : forall l, l <> [] -> (minl l <= median l <= maxl l)%R.
Proof.
  intros l H. pose proof (len_pos l H) as L.
  assert (B : forall k, k < length l -> (minl l <= nth k (sortR l) 0 <= maxl l)%R).
  { intros k Hk. rewrite <- (sortR_first l H), <- (sortR_last l H). split; apply sortR_ascending; rewrite ?sortR_length; lia. }
  unfold median. cbv zeta. rewrite sortR_length. destruct (Nat.even (length l)) eqn:E.
  - assert (2 <= length l) by (destruct l as [|? [|]]; simpl in *; try discriminate; lia).
    pose proof (B (length l / 2 - 1) ltac:(pose proof (Nat.div_lt (length l) 2); lia)).
    pose proof (B (length l / 2) ltac:(apply Nat.div_lt; lia)). lra.
  - apply B. apply Nat.div_lt; lia.
Qed.
Lemma mean_bounds : forall l, l <> [] -> (minl l <= mean l <= maxl l)%R.
Proof.
  intros l H. destruct (minl_spec l H) as [_ A]. destruct (maxl_spec l H) as [_ B].
  pose proof (INR_length_pos R l H) as L. unfold mean.
  assert (S1 : (INR (length l) * minl l <= Rsum l)%R).
  { rewrite <- (Rsum_const R (minl l) l). rewrite <- (map_id l) at 2. apply Rsum_le. auto. }
  assert (S2 : (Rsum l <= INR (length l) * maxl l)%R).
  { rewrite <- (Rsum_const R (maxl l) l). rewrite <- (map_id l) at 1. apply Rsum_le. auto. }
  split; apply Rmult_le_reg_r with (INR (length l)); auto; unfold Rdiv; rewrite Rmult_assoc, Rinv_l by lra; lra.
Qed.

(** ** Counting *)
Definition ecdf (l : list R) (t : R) : R := mean (map (fun x => if Rle_dec x t then 1 else 0)%R l).

Lemma count_le_sum : forall l t, INR (count_le l t) = Rsum (map (fun x => if Rle_dec x t then 1 else 0)%R l).
Proof.
  unfold count_le. induction l as [|x l IH]; intros t; simpl; auto. destruct (Rle_dec x t).
  - simpl length. rewrite S_INR, IH. ring.
  - rewrite IH. ring.
Qed.
Lemma count_le_ecdf : forall l t, (INR (count_le l t) / INR (length l))%R = ecdf l t.
Proof. intros. unfold ecdf, mean. rewrite count_le_sum, map_length. reflexivity. Qed.
Lemma count_le_perm : forall l l' t, Permutation l l' -> count_le l t = count_le l' t.
Proof.
  intros l l' t H. apply INR_eq. rewrite !count_le_sum. apply Rsum_perm. apply Permutation_map. auto.
Qed.
Lemma count_le_length : forall l t, count_le l t <= length l.
Proof. intros. unfold count_le. induction l as [|x l IH]; simpl; [lia|]. destruct (Rle_dec x t); simpl; lia. Qed.
Lemma ecdf_01 : forall l t, l <> [] -> (0 <= ecdf l t <= 1)%R.
Proof.
  intros l t H. rewrite <- count_le_ecdf. pose proof (INR_length_pos R l H) as L. pose proof (pos_INR (count_le l t)).
  pose proof (le_INR _ _ (count_le_length l t)). split; [apply Rdiv_nonneg; auto|].
  apply Rmult_le_reg_r with (INR (length l)); auto. unfold Rdiv. rewrite Rmult_assoc, Rinv_l by lra. lra.
Qed.
Lemma count_le_all : forall l t, (forall x, In x l -> (x <= t)%R) -> count_le l t = length l.
Proof.
  induction l as [|x l IH]; intros t H; unfold count_le in *; simpl; auto.
  destruct (Rle_dec x t) as [L|L]; [simpl; rewrite IH; auto; intros; apply H; right; auto|].
  exfalso. apply L. apply H. left. auto.
Qed.

(** The empirical distribution function is constant between data. *)
Lemma count_le_none : forall l t, (forall x, In x l -> (t < x)%R) -> count_le l t = 0.
Proof.
  induction l as [|x l IH]; intros t H; unfold count_le in *; simpl; auto.
  destruct (Rle_dec x t) as [L|L]; [specialize (H x (or_introl eq_refl)); lra|]. apply IH. intros. apply H. right. auto.
Qed.
Lemma count_le_ext : forall l s t, (forall x, In x l -> (x <= s <-> x <= t)%R) -> count_le l s = count_le l t.
Proof.
  intros l s t H. apply INR_eq. rewrite !count_le_sum. apply Rsum_ext. intros x Hx. specialize (H x Hx).
  destruct (Rle_dec x s), (Rle_dec x t); tauto.
Qed.

(** The greatest datum not above [t], if any. *)
Lemma last_datum : forall (l : list R) t, (forall x, In x l -> (t < x)%R) \/
  exists s, In s l /\ (s <= t)%R /\ forall x, In x l -> (x <= s <-> x <= t)%R.
Proof.
  induction l as [|y l IH]; intros t; [left; intros x []|].
  destruct (IH t) as [H|(s & Hs & Hst & H)].
  - destruct (Rle_dec y t) as [L|L].
    + right. exists y. split; [left; auto|]. split; auto. intros x [<-|Hx]; [lra|]. specialize (H x Hx). lra.
    + left. intros x [<-|Hx]; [lra|]. auto.
  - right. destruct (Rle_dec y t) as [L|L].
    + destruct (Rle_dec y s) as [L'|L'].
      * exists s. split; [right; auto|]. split; auto. intros x [<-|Hx]; [lra|]. auto.
      * exists y. split; [left; auto|]. split; auto. intros x [<-|Hx]; [lra|]. specialize (H x Hx). lra.
    + exists s. split; [right; auto|]. split; auto. intros x [<-|Hx]; [lra|]. auto.
Qed.

(** ** The Kolmogorov-Smirnov statistic is the greatest distance of the distribution functions *)
Lemma ks_spec : forall a b, a <> [] -> b <> [] ->
  (forall t, Rabs (ecdf a t - ecdf b t) <= ks_2samp a b)%R /\
  (exists t, In t (a ++ b) /\ Rabs (ecdf a t - ecdf b t) = ks_2samp a b).
Proof.
  intros a b Ha Hb. unfold ks_2samp. cbv zeta.
  set (diffs := map (fun t => INR (count_le a t) / INR (length a) - INR (count_le b t) / INR (length b))%R (a ++ b)).
  assert (Hd : forall t, In t (a ++ b) -> In (ecdf a t - ecdf b t)%R diffs).
  { intros t Ht. unfold diffs. apply in_map_iff. exists t. rewrite !count_le_ecdf. auto. }
  assert (Hd' : forall d, In d diffs -> exists t, In t (a ++ b) /\ d = (ecdf a t - ecdf b t)%R).
  { intros d H. unfold diffs in H. apply in_map_iff in H. destruct H as (t & <- & Ht). exists t. rewrite !count_le_ecdf. auto. }
  assert (Hab : a ++ b <> []) by (destruct a; simpl; congruence).
  assert (Hn : diffs <> []) by (intros E; apply Hab; apply map_eq_nil in E; auto).
  destruct (minl_spec diffs Hn) as [Im Lm]. destruct (maxl_spec diffs Hn) as [IM LM].
  set (m := minl diffs) in *. set (M := maxl diffs) in *.
  assert (Hz : In 0%R diffs).
  { destruct (maxl_spec (a ++ b) Hab) as [It Lt].
    replace 0%R with (ecdf a (maxl (a ++ b)) - ecdf b (maxl (a ++ b)))%R; [apply Hd; auto|].
    rewrite <- !count_le_ecdf. rewrite !count_le_all by (intros; apply Lt, in_or_app; auto).
    pose proof (INR_length_pos R a Ha). pose proof (INR_length_pos R b Hb). field. lra. }
  pose proof (Lm 0%R Hz) as Hm0. pose proof (LM 0%R Hz) as HM0.
  assert (B : forall d, In d diffs -> (-1 <= d <= 1)%R).
  { intros d H. destruct (Hd' d H) as (t & _ & ->). pose proof (ecdf_01 a t Ha). pose proof (ecdf_01 b t Hb). lra. }
  pose proof (B m Im) as Bm. pose proof (B M IM) as BM.
  assert (ES : Rmin 1 (Rmax 0 (- m)) = (- m)%R) by (rewrite Rmax_right by lra; rewrite Rmin_right; lra).
  rewrite ES. split.
  - assert (K : forall t, In t (a ++ b) -> (Rabs (ecdf a t - ecdf b t) <= if Rlt_dec M (- m) then - m else M)%R).
    { intros t Ht. pose proof (Lm _ (Hd t Ht)). pose proof (LM _ (Hd t Ht)). unfold Rabs.
      destruct (Rcase_abs _), (Rlt_dec M (- m)); lra. }
    intros t. destruct (last_datum (a ++ b) t) as [H|(s & Hs & _ & H)].
    + assert (E : (ecdf a t - ecdf b t = 0)%R).
      { rewrite <- !count_le_ecdf. rewrite !count_le_none by (intros; apply H, in_or_app; auto). simpl. unfold Rdiv. ring. }
      rewrite E, Rabs_R0. destruct (Rlt_dec M (- m)); lra.
    + assert (E : (ecdf a t - ecdf b t = ecdf a s - ecdf b s)%R).
      { rewrite <- !count_le_ecdf. rewrite (count_le_ext a s t), (count_le_ext b s t); auto; intros; apply H, in_or_app; auto. }
      rewrite E. apply K. auto.
  - destruct (Rlt_dec M (- m)) as [L|L].
    + destruct (Hd' m Im) as (t & Ht & E). exists t. split; auto. rewrite <- E. apply Rabs_left1. auto.
    + destruct (Hd' M IM) as (t & Ht & E). exists t. split; auto. rewrite <- E. apply Rabs_pos_eq. auto.
Qed.

Lemma ks_of_diffs : forall a b a' b', a <> [] -> b <> [] -> a' <> [] -> b' <> [] ->
  (forall t, exists t', ecdf a' t' = ecdf a t /\ ecdf b' t' = ecdf b t) ->
  (forall t', exists t, ecdf a' t' = ecdf a t /\ ecdf b' t' = ecdf b t) ->
  ks_2samp a' b' = ks_2samp a b.
Proof.
  intros a b a' b' Ha Hb Ha' Hb' H1 H2.
  destruct (ks_spec a b Ha Hb) as [U (t & _ & E)]. destruct (ks_spec a' b' Ha' Hb') as [U' (t' & _ & E')].
  apply Rle_antisym.
  - rewrite <- E'. destruct (H2 t') as (s & -> & ->). apply U.
  - rewrite <- E. destruct (H1 t) as (s & <- & <-). apply U'.
Qed.

Lemma ecdf_perm : forall l l' t, Permutation l l' -> ecdf l t = ecdf l' t.
Proof. intros l l' t H. rewrite <- !count_le_ecdf. rewrite (count_le_perm l l' t H), (Permutation_length H). reflexivity. Qed.

Lemma ks_perm : forall a b a' b', a <> [] -> b <> [] -> Permutation a a' -> Permutation b b' -> ks_2samp a' b' = ks_2samp a b.
Proof.
  intros a b a' b' Ha Hb Pa Pb. apply ks_of_diffs; auto.
  - intros ->. apply Permutation_sym, Permutation_nil in Pa. auto.
  - intros ->. apply Permutation_sym, Permutation_nil in Pb. auto.
  - intros t. exists t. rewrite (ecdf_perm a a' t), (ecdf_perm b b' t); auto.
  - intros t. exists t. rewrite (ecdf_perm a a' t), (ecdf_perm b b' t); auto.
Qed.

Lemma ecdf_map : forall g l t, (forall x, In x l -> (g x <= g t <-> x <= t)%R) -> ecdf (map g l) (g t) = ecdf l t.
Proof.
  intros g l t H. unfold ecdf. rewrite map_map. f_equal. apply map_ext_in. intros x Hx. specialize (H x Hx).
  destruct (Rle_dec (g x) (g t)), (Rle_dec x t); tauto.
Qed.

(** Only the order of the values matters. *)
Lemma ks_increasing : forall g a b, a <> [] -> b <> [] -> (forall x y, x < y -> g x < g y)%R ->
  ks_2samp (map g a) (map g b) = ks_2samp a b.
Proof.
  intros g a b Ha Hb Hg.
  assert (HM : forall x y, (g x <= g y <-> x <= y)%R).
  { intros x y. split; intros H.
    - destruct (Rle_lt_dec x y); auto. specialize (Hg y x r). lra.
    - destruct (Rle_lt_or_eq_dec x y H) as [L| ->]; [specialize (Hg x y L)|]; lra. }
  assert (Ha' : map g a <> []) by (intros E; apply map_eq_nil in E; auto).
  assert (Hb' : map g b <> []) by (intros E; apply map_eq_nil in E; auto).
  destruct (ks_spec a b Ha Hb) as [U (t & _ & E)]. destruct (ks_spec _ _ Ha' Hb') as [U' (t' & I' & E')].
  apply Rle_antisym.
  - rewrite <- E'. rewrite <- map_app in I'. apply in_map_iff in I'. destruct I' as (s & <- & _).
    rewrite !ecdf_map by auto. apply U.
  - rewrite <- E. rewrite <- (ecdf_map g a t), <- (ecdf_map g b t) by auto. apply U'.
Qed.

Lemma ks_range : forall a b, a <> [] -> b <> [] -> (0 <= ks_2samp a b <= 1)%R.
Proof.
  intros a b Ha Hb. destruct (ks_spec a b Ha Hb) as [_ (t & _ & <-)]. split; [apply Rabs_pos|].
  pose proof (ecdf_01 a t Ha). pose proof (ecdf_01 b t Hb). unfold Rabs. destruct (Rcase_abs _); lra.
Qed.

(** Against a sample that contains it, the statistic is at most the share of the other values. *)
Lemma ks_part : forall a c b, a <> [] -> Permutation (a ++ c) b -> (ks_2samp a b <= INR (length c) / INR (length b))%R.
Proof.
  intros a c b Ha HP.
  assert (Hb : b <> []). { intros ->. apply Permutation_sym, Permutation_nil in HP. apply app_eq_nil in HP. tauto. }
  destruct (ks_spec a b Ha Hb) as [_ (t & _ & <-)].
  pose proof (INR_length_pos R a Ha) as La. pose proof (INR_length_pos R b Hb) as Lb.
  assert (EL : INR (length b) = (INR (length a) + INR (length c))%R).
  { rewrite <- (Permutation_length HP), app_length, plus_INR. auto. }
  assert (EC : INR (count_le b t) = (INR (count_le a t) + INR (count_le c t))%R).
  { rewrite !count_le_sum. rewrite <- Rsum_app, <- map_app. apply Rsum_perm, Permutation_map, Permutation_sym. auto. }
  rewrite <- !count_le_ecdf, EC.
  pose proof (le_INR _ _ (count_le_length a t)). pose proof (le_INR _ _ (count_le_length c t)).
  pose proof (pos_INR (count_le a t)). pose proof (pos_INR (count_le c t)). pose proof (pos_INR (length c)).
  set (p := INR (count_le a t)) in *. set (q := INR (count_le c t)) in *. set (n := INR (length a)) in *. set (m := INR (length c)) in *.
  rewrite EL.
  assert (E : (p / n - (p + q) / (n + m) = (p * m - q * n) / n * / (n + m))%R) by (field; lra).
  assert (Hi : (0 < / (n + m))%R) by (apply Rinv_0_lt_compat; lra).
  rewrite E. unfold Rdiv at 2. rewrite Rabs_mult, (Rabs_pos_eq (/ (n + m))) by lra. apply Rmult_le_compat_r; [lra|].
  unfold Rdiv. rewrite Rabs_mult, (Rabs_pos_eq (/ n)) by (apply Rlt_le, Rinv_0_lt_compat; auto).
  apply Rmult_le_reg_r with n; auto. rewrite Rmult_assoc, Rinv_l by lra.
  unfold Rabs. destruct (Rcase_abs _); nra.
Qed.
