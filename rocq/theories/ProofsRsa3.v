(** * RSA: the Cramer-von Mises statistic as a distance, and invariances. *)
From Coq Require Import Reals String List Arith ZArith Bool Lia Lra Permutation Sorting.Sorted.
From Verif Require Import Base Arrays ListFacts ModelGroups SpecGroups ProofsGroups ModelScale ProofsScale Stats Sums ModelFast ModelMorris ModelMorrisAnalyze
  SpecSobol ProofsSobol Quant ModelPawn SpecPawn ProofsPawn ProofsPawn2 ProofsPawn3 ProofsRbd3 ModelRsa SpecRsa ProofsRsa ProofsRsa2.
Import ListNotations.
Local Open Scope nat_scope.

Lemma NoDup_app_remove_l : forall A (l l' : list A), NoDup (l ++ l') -> NoDup l'.
Proof. induction l as [|x l IH]; simpl; intros l' H; auto. inversion H; auto. Qed.
Lemma NoDup_app_remove_r : forall A (l l' : list A), NoDup (l ++ l') -> NoDup l.
Proof. induction l as [|x l IH]; simpl; intros l' H; constructor; inversion H; subst; eauto. intros I. apply H2. apply in_or_app. auto. Qed.

(** ** Without ties *)
Definition sq (x : R) : R := (x ^ 2)%R.
Fixpoint squares (n : nat) : R := match n with 0 => 0%R | S k => (squares k + INR (S k) ^ 2)%R end.
Lemma squares_formula : forall n, squares n = (INR n * (INR n + 1) * (2 * INR n + 1) / 6)%R.
Proof. induction n as [|n IH]; [simpl; field|]. cbn [squares]. rewrite IH, S_INR. field. Qed.

Lemma rank_no_tie : forall z v, NoDup z -> In v z -> rank_in z v = INR (count_le z v).
Proof.
  intros z v ND Hi. unfold rank_in. rewrite count_le_sum.
  assert (E : (Rsum (map (fun w => if Rlt_dec w v then 1 else if Req_EM_T w v then 1/2 else 0) z) + 1/2 * Rsum (map (fun w => if Req_EM_T w v then 1 else 0) z)
     = Rsum (map (fun x => if Rle_dec x v then 1 else 0) z))%R).
  { clear. induction z as [|w z IH]; simpl; [lra|]. rewrite <- IH. destruct (Rlt_dec w v), (Req_EM_T w v), (Rle_dec w v); lra. }
  rewrite <- E. clear E.
  assert (O : Rsum (map (fun w => if Req_EM_T w v then 1 else 0)%R z) = 1%R).
  { induction z as [|w z IH]; [destruct Hi|]. inversion ND; subst. cbn [map].
    match goal with |- Rsum (?a :: ?l) = _ => change (Rsum (a :: l)) with (a + Rsum l)%R end. destruct (Req_EM_T w v) as [->|N].
    - assert (Z : Rsum (map (fun w => if Req_EM_T w v then 1 else 0)%R z) = 0%R).
      { rewrite (Rsum_ext _ _ (fun _ => 0%R)), Rsum_const; [ring|]. intros u Hu. destruct (Req_EM_T u v) as [->|]; auto. contradiction. }
      rewrite Z. ring.
    - destruct Hi as [->|Hi]; [congruence|]. rewrite IH by auto. ring. }
  rewrite O. lra.
Qed.

Lemma strict_sorted : forall l, StronglySorted Rle l -> NoDup l -> StronglySorted Rlt l.
Proof.
  induction l as [|x l IH]; intros S N; constructor; inversion S; inversion N; subst; auto.
  apply Forall_forall. intros y Hy. rewrite Forall_forall in H2. destruct (Rle_lt_or_eq_dec x y (H2 y Hy)) as [|E]; auto. subst y. contradiction.
Qed.
Lemma count_le_app : forall a b t, count_le (a ++ b) t = count_le a t + count_le b t.
Proof. intros. unfold count_le. rewrite filter_app, app_length. auto. Qed.
Lemma count_strict : forall l i, StronglySorted Rlt l -> i < length l -> count_le l (nth i l 0%R) = i + 1.
Proof.
  induction l as [|x l IH]; intros i S Hi; simpl in Hi; [lia|]. inversion S; subst. rewrite Forall_forall in H2.
  change (x :: l) with ([x] ++ l) at 1. rewrite count_le_app. destruct i as [|i]; simpl nth.
  - rewrite (count_le_none l x) by auto. unfold count_le. simpl. destruct (Rle_dec x x); simpl; auto; exfalso; lra.
  - rewrite IH by (auto; lia). unfold count_le. simpl. destruct (Rle_dec x (nth i l 0%R)) as [|C]; simpl; [lia|].
    exfalso. apply C. left. apply H2. apply nth_In. lia.
Qed.
Lemma count_squares : forall x, NoDup x -> Rsum (map (fun v => INR (count_le x v) ^ 2)%R x) = squares (length x).
Proof.
  intros x ND. rewrite (Rsum_perm _ (map (fun v => INR (count_le (sortR x) v) ^ 2)%R (sortR x))).
  2: { rewrite (map_ext (fun v => INR (count_le x v) ^ 2)%R (fun v => INR (count_le (sortR x) v) ^ 2)%R).
       - apply Permutation_map, Permutation_sym, sortR_perm.
       - intros v. rewrite (count_le_perm _ _ v (sortR_perm x)). auto. }
  rewrite (sum_list_map _ 0%R). rewrite sortR_length.
  assert (SS : StronglySorted Rlt (sortR x)).
  { apply strict_sorted; [apply sortR_sorted|]. eapply Permutation_NoDup; [apply Permutation_sym, sortR_perm|auto]. }
  rewrite (sum_ext _ _ (fun i => INR (i + 1) ^ 2)%R).
  2: { intros i Hi. rewrite count_strict; auto. rewrite sortR_length. auto. }
  clear. induction (length x) as [|n IH]; auto. rewrite sum_S, IH. cbn [squares]. rewrite Nat.add_1_r. auto.
Qed.

Lemma gap_no_tie : forall x y a, NoDup (x ++ y) -> ascending a -> Permutation a x ->
  Rsum (map (fun i => (rank_in (x ++ y) (nth i a 0) - INR (i + 1)) ^ 2)%R (seq 0 (length a))) = Rsum (map (fun v => INR (count_le y v) ^ 2)%R x).
Proof.
  intros x y a ND A P. assert (NA : NoDup a) by (eapply Permutation_NoDup; [apply Permutation_sym; eauto|]; eapply NoDup_app_remove_r; eauto).
  assert (EA : a = sortR x) by (apply ascending_perm_sort; auto). 
  assert (SS : StronglySorted Rlt a) by (apply strict_sorted; auto; rewrite EA; apply sortR_sorted).
  rewrite <- (Rsum_perm _ _ (Permutation_map (fun v => INR (count_le y v) ^ 2)%R P)).
  rewrite (sum_list_map _ 0%R (fun v => INR (count_le y v) ^ 2)%R a). unfold sum. apply Rsum_ext. intros i Hi. apply in_seq in Hi.
  rewrite rank_no_tie; auto.
  - rewrite count_le_app, plus_INR. rewrite <- (count_le_perm _ _ (nth i a 0%R) P). rewrite count_strict by (auto; lia). f_equal. ring.
  - apply in_or_app. left. eapply Permutation_in; eauto. apply nth_In. lia.
Qed.

Lemma cvm_distance : forall x y v, x <> [] -> y <> [] -> NoDup (x ++ y) -> cvm_is x y v ->
  v = (INR (length x) * INR (length y) / (INR (length x) + INR (length y)) ^ 2 * Rsum (map (fun w => (ecdf x w - ecdf y w) ^ 2) (x ++ y)))%R.
Proof.
  intros x y v Hx Hy ND (a & b & Aa & Pa & Ab & Pb & ->). cbv zeta.
  rewrite (gap_no_tie x y a) by auto.
  assert (ND' : NoDup (y ++ x)) by (eapply Permutation_NoDup; [apply Permutation_app_comm|auto]).
  rewrite (Rsum_ext _ _ (fun i => (rank_in (y ++ x) (nth i b 0) - INR (i + 1)) ^ 2)%R (seq 0 (length b))).
  2: { intros i _. rewrite (rank_perm (x ++ y) (y ++ x)); auto. apply Permutation_app_comm. }
  rewrite (gap_no_tie y x b) by auto.
  pose proof (INR_length_pos _ x Hx) as Px. pose proof (INR_length_pos _ y Hy) as Py.
  set (n := INR (length x)) in *. set (m := INR (length y)) in *.
  set (cx := fun v => INR (count_le x v)). set (cy := fun v => INR (count_le y v)).
  change (Rsum (map (fun v => INR (count_le y v) ^ 2)%R x)) with (Rsum (map (fun v => cy v ^ 2)%R x)).
  change (Rsum (map (fun v => INR (count_le x v) ^ 2)%R y)) with (Rsum (map (fun v => cx v ^ 2)%R y)).
  assert (E1 : forall l, Rsum (map (fun w => (ecdf x w - ecdf y w) ^ 2)%R l) =
     (/ n ^ 2 * Rsum (map (fun w => cx w ^ 2) l) + (- (2 / (n * m)) * Rsum (map (fun w => cx w * cy w) l) + / m ^ 2 * Rsum (map (fun w => cy w ^ 2) l)))%R).
  { intros l. rewrite <- !Rsum_map_scal, <- !Rsum_map_plus. apply Rsum_ext. intros w _. rewrite <- !count_le_ecdf. fold n m. fold (cx w) (cy w). field. lra. }
  assert (E2 : forall l, Rsum (map (fun w => INR (count_le (x ++ y) w) ^ 2)%R l) =
     (Rsum (map (fun w => cx w ^ 2) l) + (2 * Rsum (map (fun w => cx w * cy w) l) + Rsum (map (fun w => cy w ^ 2) l)))%R).
  { intros l. rewrite <- !Rsum_map_scal, <- !Rsum_map_plus. apply Rsum_ext. intros w _. rewrite count_le_app, plus_INR. unfold cx, cy. ring. }
  pose proof (count_squares x (NoDup_app_remove_r _ _ _ ND)) as SX. pose proof (count_squares y (NoDup_app_remove_l _ _ _ ND)) as SY.
  pose proof (count_squares (x ++ y) ND) as SZ. rewrite E2 in SZ. rewrite E1. rewrite !map_app, !Rsum_app in *.
  rewrite squares_formula in SX, SY, SZ. rewrite app_length, plus_INR in SZ. fold n in SX, SZ. fold m in SY, SZ.
  change (Rsum (map (fun v => INR (count_le x v) ^ 2)%R x)) with (Rsum (map (fun v => cx v ^ 2)%R x)) in SX.
  change (Rsum (map (fun v => INR (count_le y v) ^ 2)%R y)) with (Rsum (map (fun v => cy v ^ 2)%R y)) in SY.
  set (A := Rsum (map (fun v => cx v ^ 2)%R x)) in *. set (B := Rsum (map (fun v => cx v * cy v)%R x)) in *. set (C := Rsum (map (fun v => cy v ^ 2)%R x)) in *.
  set (D := Rsum (map (fun v => cx v ^ 2)%R y)) in *. set (E := Rsum (map (fun v => cx v * cy v)%R y)) in *. set (G := Rsum (map (fun v => cy v ^ 2)%R y)) in *.
  assert (EB : B = (((n + m) * (n + m + 1) * (2 * (n + m) + 1) / 6 - A - C - D - G) / 2 - E)%R) by lra.
  rewrite EB, SX, SY. field. lra.
Qed.

Lemma cvm_symmetric : forall x y v, cvm_is x y v -> cvm_is y x v.
Proof.
  intros x y v (a & b & Aa & Pa & Ab & Pb & ->). exists b, a. repeat split; auto. cbv zeta.
  assert (E : forall l, Rsum (map (fun i => (rank_in (x ++ y) (nth i l 0) - INR (i + 1)) ^ 2)%R (seq 0 (length l)))
    = Rsum (map (fun i => (rank_in (y ++ x) (nth i l 0) - INR (i + 1)) ^ 2)%R (seq 0 (length l)))).
  { intros l. apply Rsum_ext. intros i _. rewrite (rank_perm (x ++ y) (y ++ x)); auto. apply Permutation_app_comm. }
  rewrite !E. f_equal; f_equal; ring.
Qed.

(** ** Invariances *)
Lemma increasing_lt : forall g, increasing g -> forall x y, (g x < g y)%R <-> (x < y)%R.
Proof.
  intros g H x y. split; auto. intros L. destruct (Rtotal_order x y) as [|[->|T]]; auto; [lra|]. apply H in T. lra.
Qed.
Lemma increasing_le : forall g, increasing g -> forall x y, (g x <= g y)%R <-> (x <= y)%R.
Proof. intros g H x y. pose proof (increasing_lt g H y x). lra. Qed.

Lemma filter_map_length : forall A B (g : A -> B) f f' l, (forall x, f' (g x) = f x) -> length (filter f' (map g l)) = length (filter f l).
Proof. intros A B g f f' l H. induction l as [|x l IH]; simpl; auto. rewrite H. destruct (f x); simpl; auto. Qed.
Lemma midrank_map : forall g z v, increasing g -> midrank (map g z) (g v) = midrank z v.
Proof.
  intros g z v H. unfold midrank, count_lt, count_le.
  rewrite (filter_map_length _ _ g (fun x => if Rlt_dec x v then true else false)).
  2: { intros x. pose proof (increasing_lt g H x v). destruct (Rlt_dec (g x) (g v)), (Rlt_dec x v); tauto. }
  rewrite (filter_map_length _ _ g (fun x => if Rle_dec x v then true else false)); auto.
  intros x. pose proof (increasing_le g H x v). destruct (Rle_dec (g x) (g v)), (Rle_dec x v); tauto.
Qed.
Lemma cvm_increasing : forall g x y, increasing g -> cvm_2samp (map g x) (map g y) = cvm_2samp x y.
Proof.
  intros g x y H. unfold cvm_2samp. rewrite !map_length.
  rewrite !sortR_map_mono by (intros; apply increasing_le; auto). rewrite <- map_app.
  assert (E : forall l, rank_gap (map g (sortR x ++ sortR y)) (map g l) = rank_gap (sortR x ++ sortR y) l).
  { intros l. unfold rank_gap. rewrite map_length. apply Rsum_ext. intros i Hi. apply in_seq in Hi.
    rewrite (nth_indep _ 0%R (g 0%R)) by (rewrite map_length; lia). rewrite map_nth, midrank_map; auto. }
  rewrite !E. reflexivity.
Qed.
Lemma distinct_inj : forall g l, (forall x y, g x = g y -> x = y) -> distinct (map g l) = distinct l.
Proof.
  intros g l H. induction l as [|x l IH]; simpl; auto. rewrite IH. f_equal.
  destruct (in_dec Req_EM_T (g x) (map g l)) as [I|I], (in_dec Req_EM_T x l) as [J|J]; auto; exfalso.
  - apply in_map_iff in I. destruct I as (u & E & Hu). apply H in E. subst. auto.
  - apply I. apply in_map. auto.
Qed.
Lemma select_map : forall A B (g : A -> B) b (l : list A), select b (map g l) = match select b l with Ok r => Ok (map g r) | Err e => Err e end.
Proof.
  intros A B g b l. unfold select. rewrite map_length. destruct (length b =? length l); auto. f_equal.
  revert l. induction b as [|u b IH]; intros [|x l]; simpl; auto. destruct u; simpl; rewrite IH; auto.
Qed.
Lemma increasing_inj : forall g, increasing g -> forall x y, g x = g y -> x = y.
Proof. intros g H x y E. apply Rle_antisym; apply (increasing_le g H); lra. Qed.

Lemma cell_map : forall g h y m b, increasing g -> increasing h -> rsa_cell (map g y) (map h m) b = rsa_cell y m b.
Proof.
  intros g h y m b Hg Hh. unfold rsa_cell, has_samples. destruct (existsb (fun x => x) b); [|reflexivity].
  rewrite !select_map. destruct (select (map negb b) y) as [o|]; cbn [bind]; [|reflexivity]. rewrite map_length.
  destruct (length o =? 0); [reflexivity|]. destruct (select b y) as [i|]; cbn [bind]; [|reflexivity].
  rewrite (distinct_inj g) by (apply increasing_inj; auto). destruct (1 <? distinct i); [|reflexivity].
  destruct (select b m) as [mi|]; cbn [bind]; [|reflexivity]. destruct (select (map negb b) m) as [mo|]; cbn [bind]; [|reflexivity].
  rewrite cvm_increasing by auto. reflexivity.
Qed.

Lemma bin_affine : forall t bins a b s, (0 < a)%R -> t <> [] -> s < bins ->
  rsa_bin (fun k => quantile (map (fun x => a * x + b)%R t) (INR k / INR bins)) (map (fun x => a * x + b)%R t) s
  = rsa_bin (fun k => quantile t (INR k / INR bins)) t s.
Proof.
  intros t bins a b s Ha Ht Hs. unfold rsa_bin. rewrite map_map. apply map_ext. intros x.
  assert (Q : forall k, k <= bins -> quantile (map (fun x => a * x + b)%R t) (INR k / INR bins) = (a * quantile t (INR k / INR bins) + b)%R).
  { intros k Hk. apply quantile_affine; auto. apply frac; auto. lia. }
  rewrite (Q 0), (Q s), (Q (s + 1)) by lia.
  assert (D : forall u w, (if Rle_dec (a * u + b) (a * w + b) then true else false) = (if Rle_dec u w then true else false)).
  { intros u w. destruct (Rle_dec (a * u + b) (a * w + b)), (Rle_dec u w); auto; exfalso; nra. }
  assert (D' : forall u w, (if Rlt_dec (a * u + b) (a * w + b) then true else false) = (if Rlt_dec u w then true else false)).
  { intros u w. destruct (Rlt_dec (a * u + b) (a * w + b)), (Rlt_dec u w); auto; exfalso; nra. }
  rewrite !D, !D'. reflexivity.
Qed.

Lemma affine_increasing : forall a b, (0 < a)%R -> increasing (fun x => a * x + b)%R.
Proof. intros a b Ha x y H. nra. Qed.

Lemma recol_wf : forall g X, wf_mat (recol g X).
Proof. intros g X. unfold wf_mat, recol. simpl. apply Forall_forall. intros r Hr. apply in_map_iff in Hr. destruct Hr as (u & <- & _). rewrite map_length, seq_length. auto. Qed.
Lemma recol_col : forall g X d, d < cols X -> col (rows (recol g X)) d = map (g d) (col (rows X) d).
Proof.
  intros g X d Hd. unfold col, recol. simpl. rewrite !map_map. apply map_ext. intros r.
  rewrite (nth_indep _ 0%R (g 0 (nth 0 r 0%R))) by (rewrite map_length, seq_length; auto). rewrite (map_nth (fun d => g d (nth d r 0%R))). rewrite seq_nth; auto.
Qed.

Lemma rsa_rescale : forall X y bins target (g : nat -> R -> R) (h : R -> R), rsa_input X y ->
  ((target = "X"%string /\ increasing h /\ exists a b, forall d, (0 < a d)%R /\ g d = (fun x => a d * x + b d)%R) \/
   (target = "Y"%string /\ (forall d, increasing (g d)) /\ exists a b, (0 < a)%R /\ h = (fun x => a * x + b)%R)) ->
  rsa (recol g X) (map h y) bins target = rsa X y bins target.
Proof.
  intros X y bins target g h (W & L & N) HT. unfold rsa. destruct (Nat.eqb_spec bins 0); auto. simpl cols. apply mapM_ext.
  intros d Hd. apply in_seq in Hd. rewrite !col_get by (auto; try apply recol_wf; simpl; lia). cbn [bind]. rewrite recol_col by lia.
  assert (NC : col (rows X) d <> []) by (intros E; apply (f_equal (@length R)) in E; rewrite col_length, L in E; destruct y; auto; discriminate).
  destruct HT as [(-> & Hh & a & b & Hg)|(-> & Hg & a & b & Ha & ->)]; unfold rsa_column; cbn [String.eqb Ascii.eqb Bool.eqb bind].
  - destruct (Hg d) as [Ha E]. rewrite E. destruct (col (rows X) d) as [|c0 cr] eqn:EC; [congruence|]. rewrite <- EC in *.
    destruct (map (fun x => a d * x + b d)%R (col (rows X) d)) as [|u ur] eqn:EM; [rewrite EC in EM; discriminate|]. rewrite <- EM.
    cbv zeta. apply mapM_ext. intros s Hs. apply in_seq in Hs. rewrite bin_affine by (auto; lia).
    rewrite (cell_map h h); auto.
  - destruct y as [|c0 cr] eqn:EC; [congruence|]. rewrite <- EC in *.
    destruct (map (fun x => a * x + b)%R y) as [|u ur] eqn:EM; [rewrite EC in EM; discriminate|]. rewrite <- EM.
    cbv zeta. apply mapM_ext. intros s Hs. apply in_seq in Hs. rewrite bin_affine by (auto; lia).
    rewrite (cell_map (fun x => a * x + b)%R (g d)); auto. apply affine_increasing. auto.
Qed.

(** *** Order of the runs *)
Lemma cvm_perm : forall x y x' y', Permutation x x' -> Permutation y y' -> cvm_2samp x' y' = cvm_2samp x y.
Proof.
  intros x y x' y' Px Py. unfold cvm_2samp. rewrite (Permutation_length Px), (Permutation_length Py).
  rewrite (sortR_perm_eq _ _ Px), (sortR_perm_eq _ _ Py). reflexivity.
Qed.
Lemma distinct_perm : forall l l', Permutation l l' -> distinct l = distinct l'.
Proof.
  intros l l' P. rewrite !distinct_nodup. apply Permutation_length. apply NoDup_Permutation; try apply NoDup_nodup.
  intros x. rewrite !nodup_In. split; intros; [eapply Permutation_in; eauto|eapply Permutation_in; [apply Permutation_sym|]; eauto].
Qed.
Lemma inside_perm : forall f t m t' m', Permutation (combine t m) (combine t' m') -> Permutation (inside f t m) (inside f t' m').
Proof. intros f t m t' m' P. unfold inside. apply Permutation_map. induction P; simpl; repeat match goal with |- context [f ?x] => destruct (f x) end; eauto using Permutation. Qed.
Lemma existsb_perm : forall (f : R -> bool) t t', Permutation t t' -> existsb (fun b => b) (map f t) = existsb (fun b => b) (map f t').
Proof.
  intros f t t' P. induction P; simpl; auto; [f_equal; auto| |congruence].
  destruct (f x), (f y); auto.
Qed.
Lemma cell_perm : forall (f : R -> bool) (t y m t' y' m' : list R), length t = length y -> length t = length m -> length t' = length y' -> length t' = length m' ->
  Permutation t t' -> Permutation (combine t y) (combine t' y') -> Permutation (combine t m) (combine t' m') ->
  rsa_cell y' m' (map f t') = rsa_cell y m (map f t).
Proof.
  intros f t y m t' y' m' L1 L2 L3 L4 P Py Pm. unfold rsa_cell, has_samples. rewrite <- (existsb_perm f _ _ P).
  destruct (existsb (fun b => b) (map f t)); [|reflexivity].
  rewrite !select_outside, !select_inside by auto. cbn [bind].
  pose proof (inside_perm f _ _ _ _ Py) as Q1. pose proof (inside_perm (fun x => negb (f x)) _ _ _ _ Py) as Q2.
  pose proof (inside_perm f _ _ _ _ Pm) as Q3. pose proof (inside_perm (fun x => negb (f x)) _ _ _ _ Pm) as Q4.
  change (Permutation (outside f t y) (outside f t' y')) in Q2. change (Permutation (outside f t m) (outside f t' m')) in Q4.
  rewrite (Permutation_length Q2). destruct (length (outside f t' y') =? 0); [reflexivity|]. cbn [bind].
  rewrite (distinct_perm _ _ Q1). rewrite (cvm_perm _ _ _ _ Q3 Q4). reflexivity.
Qed.

Lemma match_ne : forall B (l : list R) (e u : B), l <> [] -> match l with [] => e | _ => u end = u.
Proof. intros B [|x l] e u H; congruence. Qed.
Lemma same_length_ne : forall (y l : list R), y <> [] -> length l = length y -> l <> [].
Proof. intros [|a y] [|b l] H L; simpl in *; congruence. Qed.
Lemma rsa_row_order : forall X y bins target s, rsa_input X y -> Permutation s (seq 0 (length y)) ->
  rsa (mkMat (cols X) (map (fun k => nth k (rows X) []) s)) (map (fun k => nth k y 0%R) s) bins target = rsa X y bins target.
Proof.
  intros X y bins target s (W & L & N) HP. unfold rsa. destruct (Nat.eqb_spec bins 0); auto. simpl cols. simpl rows. apply mapM_ext.
  intros d Hd. apply in_seq in Hd.
  assert (W' : wf_mat (mkMat (cols X) (map (fun k => nth k (rows X) []) s))).
  { unfold wf_mat in *. simpl. apply Forall_forall. intros r Hr. apply in_map_iff in Hr. destruct Hr as (k & <- & Hk).
    eapply Permutation_in in Hk; eauto. apply in_seq in Hk. rewrite Forall_forall in W. apply W. apply nth_In. lia. }
  pose proof (col_get (mkMat (cols X) (map (fun k => nth k (rows X) []) s)) d W' ltac:(simpl; lia)) as E. simpl rows in E. rewrite E.
  rewrite col_get by (auto; lia). cbn [bind].
  assert (EC : col (map (fun k => nth k (rows X) []) s) d = map (fun k => nth k (col (rows X) d) 0%R) s).
  { unfold col. rewrite map_map. apply map_ext_in. intros k Hk. eapply Permutation_in in Hk; eauto. apply in_seq in Hk.
    rewrite (nth_map_lt _ _ _ (rows X) k []) by lia. auto. }
  rewrite EC. set (xs := col (rows X) d). assert (LX : length xs = length y) by (unfold xs; rewrite col_length; auto).
  set (xs' := map (fun k => nth k xs 0%R) s). set (y' := map (fun k => nth k y 0%R) s).
  assert (LS : length s = length y) by (rewrite (Permutation_length HP), seq_length; auto).
  assert (L1 : length xs' = length y) by (unfold xs'; rewrite map_length; auto). assert (L2 : length y' = length y) by (unfold y'; rewrite map_length; auto).
  assert (PS : forall (z : list R), length z = length y -> Permutation z (map (fun k => nth k z 0%R) s)).
  { intros z Lz. apply Permutation_sym. eapply Permutation_trans; [apply Permutation_map; eauto|]. rewrite <- Lz.
    assert (EQ : map (fun k => nth k z 0%R) (seq 0 (length z)) = z); [|rewrite EQ; auto].
    apply nth_error_ext'. intros i. rewrite nth_error_map', nth_error_seq. destruct (Nat.ltb_spec i (length z)); simpl.
    - symmetry. apply nth_error_nth'. auto.
    - symmetry. apply nth_error_None. auto. }
  assert (PC : forall (u w : list R), length u = length y -> length w = length y ->
     Permutation (combine u w) (combine (map (fun k => nth k u 0%R) s) (map (fun k => nth k w 0%R) s))).
  { intros u w Lu Lw. apply Permutation_sym. apply (combine_select _ _ 0%R 0%R u w s); [congruence|rewrite Lw; auto]. }
  unfold rsa_column. destruct (String.eqb target "X"); [|destruct (String.eqb target "Y")]; cbn [bind]; [| |reflexivity].
  - rewrite !match_ne by (apply same_length_ne with y; auto). cbv zeta.
    apply mapM_ext. intros b _. unfold rsa_bin.
    assert (QE : forall q, quantile xs' q = quantile xs q) by (intros q; symmetry; apply quantile_perm; subst xs'; auto).
    rewrite !QE. apply cell_perm; try lia; try (subst xs' y'; auto).
  - rewrite !match_ne by (apply same_length_ne with y; auto). cbv zeta.
    apply mapM_ext. intros b _. unfold rsa_bin.
    assert (QE : forall q, quantile y' q = quantile y q) by (intros q; symmetry; apply quantile_perm; subst y'; auto).
    rewrite !QE. apply cell_perm; try lia; try (subst xs' y'; auto).
Qed.
