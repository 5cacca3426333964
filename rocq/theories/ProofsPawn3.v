(** * PAWN: what the figures do not depend on. *)
From Coq Require Import Reals String List Arith ZArith Bool Lia Lra Permutation.
From Verif Require Import Base Arrays ListFacts ModelGroups ProofsGroups ModelScale ProofsScale Stats Sums ModelFast ModelMorris ModelMorrisAnalyze ProofsFast2 ProofsMorris3 ProofsMorris7
  Quant ModelPawn SpecPawn ProofsPawn ProofsPawn2.
Import ListNotations.
Local Open Scope nat_scope.

Lemma analyze_rows_eq : forall p X Y X' Y' n, pawn_input (p_num_vars p) X Y -> pawn_input (p_num_vars p) X' Y' ->
  (forall d, d < p_num_vars p -> row_of (column_of X' d) Y' n = row_of (column_of X d) Y n) ->
  pawn_analyze p X' Y' n = pawn_analyze p X Y n.
Proof.
  intros p X Y X' Y' n HI HI' H. destruct (Nat.eq_dec n 0) as [->|Hn]; [reflexivity|].
  rewrite !analyze_eq by (auto; lia).
  rewrite (map_ext_in (fun d => row_of (column_of X' d) Y' n) (fun d => row_of (column_of X d) Y n)); auto.
  intros d Hd. apply in_seq in Hd. apply H. lia.
Qed.

Lemma row_cells : forall xs Y xs' Y' n, (forall s, s < n -> cell_of xs' Y' n s = cell_of xs Y n s) -> row_of xs' Y' n = row_of xs Y n.
Proof.
  intros xs Y xs' Y' n H. unfold row_of. f_equal. apply map_ext_in. intros s Hs. apply in_seq in Hs. apply H. lia.
Qed.

Lemma where_map : forall (f : fval -> bool) (g : R -> R) xs Y, outputs_where f xs (map g Y) = map g (outputs_where f xs Y).
Proof.
  unfold outputs_where. induction xs as [|x xs IH]; intros [|y Y]; simpl; auto. destruct (f x); simpl; rewrite IH; auto.
Qed.

(** ** Increasing transformations of the outputs *)
Lemma pawn_increasing : forall p X Y n (g : R -> R), pawn_input (p_num_vars p) X Y -> (forall x y, x < y -> g x < g y)%R ->
  pawn_analyze p X (map g Y) n = pawn_analyze p X Y n.
Proof.
  intros p X Y n g HI Hg. apply analyze_rows_eq; auto.
  - destruct HI as [A B]. split; auto. rewrite map_length. auto.
  - intros d Hd. apply row_cells. intros s Hs. unfold cell_of. cbv zeta. rewrite where_map.
    destruct (outputs_where (keep_slice (column_of X d) n s) (column_of X d) Y) as [|y ys] eqn:E; [reflexivity|].
    cbn [map]. f_equal. apply (ks_increasing g (y :: ys) Y); auto; try discriminate.
    intros ->. unfold outputs_where in E. destruct (column_of X d); discriminate.
Qed.

(** ** Order of the rows *)
Lemma somes_perm : forall l l', Permutation l l' -> Permutation (somes l) (somes l').
Proof.
  intros l l' H. unfold somes. apply Permutation_map. induction H; simpl; auto.
  - destruct x; auto.
  - destruct x, y; auto. apply perm_swap.
  - etransitivity; eauto.
Qed.
Lemma where_perm : forall f xs Y xs' Y', Permutation (combine xs Y) (combine xs' Y') ->
  Permutation (outputs_where f xs Y) (outputs_where f xs' Y').
Proof.
  intros f xs Y xs' Y' H. unfold outputs_where. apply Permutation_map. induction H; simpl; auto.
  - destruct (f (fst x)); auto.
  - destruct (f (fst x)), (f (fst y)); auto. apply perm_swap.
  - etransitivity; eauto.
Qed.
Lemma combine_select : forall A B (da : A) (db : B) xs Y s, length xs = length Y -> Permutation s (seq 0 (length Y)) ->
  Permutation (combine (map (fun k => nth k xs da) s) (map (fun k => nth k Y db) s)) (combine xs Y).
Proof.
  intros A B da db xs Y s HL HP.
  assert (E : combine (map (fun k => nth k xs da) s) (map (fun k => nth k Y db) s) = map (fun k => nth k (combine xs Y) (da, db)) s).
  { clear HP. induction s as [|k s IH]; simpl; auto. rewrite IH, combine_nth by auto. reflexivity. }
  rewrite E. etransitivity; [apply Permutation_map, HP|].
  replace (length Y) with (length (combine xs Y)) by (rewrite combine_length; lia).
  rewrite <- (list_nth_seq (A * B) (da, db) (combine xs Y)). auto.
Qed.
Lemma nanquantile_perm : forall l l' q, Permutation l l' -> nanquantile l q = nanquantile l' q.
Proof.
  intros l l' q H. apply somes_perm in H. unfold nanquantile. rewrite !numbers_somes.
  destruct (somes l) as [|a r] eqn:E; destruct (somes l') as [|a' r'] eqn:E'; auto.
  - apply Permutation_nil in H. discriminate.
  - apply Permutation_sym, Permutation_nil in H. discriminate.
  - f_equal. apply quantile_perm. auto.
Qed.

Lemma pawn_row_order : forall p X Y n s, pawn_input (p_num_vars p) X Y -> Permutation s (seq 0 (length Y)) ->
  pawn_analyze p (map (fun k => nth k X []) s) (map (fun k => nth k Y 0%R) s) n = pawn_analyze p X Y n.
Proof.
  intros p X Y n s HI HP. assert (Ls : length s = length Y) by (rewrite (Permutation_length HP), seq_length; auto).
  apply analyze_rows_eq; auto.
  - destruct HI as [A B]. split; [|rewrite !map_length; auto]. rewrite Forall_forall in *. intros r Hr. apply in_map_iff in Hr.
    destruct Hr as (k & <- & Hk). apply A. apply nth_In. apply (Permutation_in _ HP) in Hk. apply in_seq in Hk. lia.
  - intros d Hd. set (X' := map (fun k => nth k X []) s). set (Y' := map (fun k => nth k Y 0%R) s). apply row_cells. intros t Ht.
    destruct HI as [HX HL].
    assert (EC : column_of X' d = map (fun k => nth k (column_of X d) None) s).
    { unfold column_of, X'. rewrite map_map. apply map_ext_in. intros k Hk. apply (Permutation_in _ HP) in Hk. apply in_seq in Hk.
      rewrite (nth_indep (map _ X) None ((fun r : list fval => nth d r None) [])) by (rewrite map_length; lia).
      rewrite (map_nth (fun r : list fval => nth d r None)). reflexivity. }
    assert (PC : Permutation (column_of X' d) (column_of X d)).
    { rewrite EC. etransitivity; [apply Permutation_map, HP|].
      replace (length Y) with (length (column_of X d)) by (rewrite column_of_length; auto).
      rewrite <- (list_nth_seq fval None (column_of X d)). auto. }
    assert (PP : Permutation (combine (column_of X' d) Y') (combine (column_of X d) Y)).
    { rewrite EC. apply combine_select; auto. rewrite column_of_length. auto. }
    assert (PY : Permutation Y' Y).
    { unfold Y'. etransitivity; [apply Permutation_map, HP|]. rewrite <- (list_nth_seq R 0%R Y). auto. }
    assert (EK : keep_slice (column_of X' d) n t = keep_slice (column_of X d) n t).
    { unfold keep_slice. rewrite !(nanquantile_perm _ _ _ PC). reflexivity. }
    unfold cell_of. cbv zeta. rewrite EK.
    pose proof (where_perm (keep_slice (column_of X d) n t) _ _ _ _ PP) as PW.
    destruct (outputs_where _ (column_of X' d) Y') as [|y ys] eqn:E1; destruct (outputs_where _ (column_of X d) Y) as [|z zs] eqn:E2; auto.
    + apply Permutation_nil in PW. discriminate.
    + apply Permutation_sym, Permutation_nil in PW. discriminate.
    + f_equal. apply ks_perm; auto using Permutation_sym; try discriminate.
      intros EY. rewrite EY in E2. unfold outputs_where in E2. destruct (column_of X d); discriminate.
Qed.

(** ** Shifting and positive scaling of the parameters *)
Definition fscale (a b : R) (v : fval) : fval := option_map (fun x => a * x + b)%R v.
Lemma somes_fscale : forall a b l, somes (map (fscale a b) l) = map (fun x => a * x + b)%R (somes l).
Proof. unfold somes. induction l as [|[x|] l IH]; simpl; auto. f_equal. auto. Qed.
Lemma nanquantile_fscale : forall a b l q, (0 < a)%R -> (0 <= q <= 1)%R -> nanquantile (map (fscale a b) l) q = fscale a b (nanquantile l q).
Proof.
  intros a b l q Ha Hq. unfold nanquantile. rewrite !numbers_somes, somes_fscale. destruct (somes l) as [|x r]; [reflexivity|].
  cbn [map]. cbn [fscale option_map]. f_equal. apply (quantile_affine (x :: r)); auto. discriminate.
Qed.
Lemma keep_fscale : forall a b xs n s v, (0 < a)%R -> s < n ->
  keep_slice (map (fscale a b) xs) n s (fscale a b v) = keep_slice xs n s v.
Proof.
  intros a b xs n s v Ha Hs. unfold keep_slice.
  rewrite !nanquantile_fscale by (auto; apply frac; lia).
  destruct (nanquantile xs (INR s / INR n)) as [lo|]; simpl; auto.
  destruct v as [x|]; simpl; auto. destruct (nanquantile xs (INR (s + 1) / INR n)) as [hi|]; simpl; [|rewrite !andb_false_r; auto].
  f_equal.
  - destruct (Rle_dec _ _), (Rle_dec _ _); auto; exfalso; nra.
  - destruct (Rlt_dec _ _), (Rlt_dec _ _); auto; exfalso; nra.
Qed.
Lemma where_fscale : forall (f f' : fval -> bool) h xs Y, (forall v, f' (h v) = f v) -> outputs_where f' (map h xs) Y = outputs_where f xs Y.
Proof.
  intros f f' h xs Y H. unfold outputs_where. revert Y. induction xs as [|x xs IH]; intros [|y Y]; simpl; auto.
  rewrite H. destruct (f x); simpl; rewrite IH; auto.
Qed.

Lemma pawn_rescaled : forall p X Y n (a b : nat -> R), pawn_input (p_num_vars p) X Y -> (forall d, (0 < a d)%R) ->
  pawn_analyze p (map (fun r => map (fun d => option_map (fun x => a d * x + b d)%R (nth d r None)) (seq 0 (p_num_vars p))) X) Y n
  = pawn_analyze p X Y n.
Proof.
  intros p X Y n a b HI Ha. apply analyze_rows_eq; auto.
  - destruct HI as [A B]. split; [|rewrite map_length; auto]. rewrite Forall_forall. intros r Hr. apply in_map_iff in Hr.
    destruct Hr as (k & <- & Hk). rewrite map_length, seq_length. lia.
  - intros d Hd. apply row_cells. intros s Hs.
    assert (EC : column_of (map (fun r => map (fun d => option_map (fun x => a d * x + b d)%R (nth d r None)) (seq 0 (p_num_vars p))) X) d
                 = map (fscale (a d) (b d)) (column_of X d)).
    { unfold column_of. rewrite !map_map. apply map_ext. intros r.
      set (h := fun d0 => option_map (fun x => a d0 * x + b d0)%R (nth d0 r None)).
      rewrite (nth_indep _ None (h 0)) by (rewrite map_length, seq_length; auto). rewrite map_nth, seq_nth by auto. reflexivity. }
    rewrite EC. unfold cell_of. cbv zeta. rewrite (where_fscale (keep_slice (column_of X d) n s)); auto.
    intros v. apply keep_fscale; auto.
Qed.

(** ** Constant parameter *)
Lemma where_none : forall keep xs Y, (forall u, In u xs -> keep u = false) -> outputs_where keep xs Y = [].
Proof.
  unfold outputs_where. induction xs as [|x xs IH]; intros [|y Y] H; simpl; auto. rewrite (H x) by (left; auto). apply IH. intros u Hu. apply H. right. auto.
Qed.
Lemma pawn_constant : forall xs Y n x0, (forall x, In (Some x) xs -> x = x0) -> length xs = length Y -> 0 < n -> row_of xs Y n = repeat None 6.
Proof.
  intros xs Y n x0 H HL Hn. destruct (row_spec xs Y n HL Hn) as (cells & L & HC & [HS _] & _). apply HS.
  assert (K : forall v, In v cells -> v = None).
  { intros v Hv. apply in_nth_error in Hv. destruct Hv as [s Hs]. assert (Hsn : s < n) by (rewrite <- L; eapply nth_error_Some_lt; eauto).
    destruct (HC s v Hs) as (keep & HK & H0 & _). apply H0.
    assert (KF : forall u, In u xs -> keep u = false).
    { intros u Hu. destruct (keep u) eqn:E; auto. exfalso. apply HK in E. destruct E as (x & -> & Hin).
      pose proof (H x Hu) as ->. assert (Hne : somes xs <> []).
      { intros E. assert (I : In x0 (somes xs)); [|rewrite E in I; auto]. unfold somes. apply in_map_iff. exists (Some x0). split; auto. apply filter_In. auto. }
      assert (Hall : forall x, In x (somes xs) -> x = x0).
      { intros x Hx. apply H. unfold somes in Hx. apply in_map_iff in Hx. destruct Hx as (u & E & Hu'). apply filter_In in Hu'. destruct Hu' as [Hu' K].
        destruct u; [|discriminate]. subst. auto. }
      unfold in_slice in Hin.
      pose proof (slices_partition (somes xs) n (fun k => quantile (somes xs) (INR k / INR n)) Hne Hn) as SP.
      destruct (SP) with (x := x0) as [_ HM].
      - intros k Hk. apply quantile_spec; auto. apply frac; auto.
      - destruct (maxl_spec (somes xs) Hne) as [I _]. rewrite <- (Hall _ I). auto.
      - destruct (maxl_spec (somes xs) Hne) as [I _]. apply (HM (eq_sym (Hall _ I)) s Hsn). exact Hin. }
    exact (where_none _ _ _ KF). }
  unfold somes. clear - K. induction cells as [|v cells IH]; simpl; auto. rewrite (K v) by (left; auto). apply IH. intros u Hu. apply K. right. auto.
Qed.

(** ** One group label for several parameters *)
Lemma pawn_one_label : forall p X Y n g, 0 < n -> pawn_input (p_num_vars p) X Y -> p_groups p = Some (repeat g (p_num_vars p)) ->
  2 <= p_num_vars p -> exists out, pawn_analyze p X Y n = Ok out /\ pw_names out = [g] /\ length (pw_rows out) = p_num_vars p.
Proof.
  intros p X Y n g Hn HI Hg HD.
  assert (Et : truthy_groups p = Some (repeat g (p_num_vars p))).
  { unfold truthy_groups. rewrite Hg. destruct (p_num_vars p); [lia|]. reflexivity. }
  assert (EC : check_groups p = None).
  { unfold check_groups. rewrite Et. destruct (list_eqb _ _); auto.
    assert (S1 : set_size (repeat g (p_num_vars p)) = 1).
    { apply set_size_1. split; [destruct (p_num_vars p); [lia|discriminate]|]. intros x y Hx Hy. apply repeat_spec in Hx, Hy. congruence. }
    rewrite S1. reflexivity. }
  assert (EN : fst (extract_group_names p) = [g]).
  { unfold extract_group_names. rewrite Et. cbn [fst]. destruct (p_num_vars p) as [|m]; [lia|].
    assert (K : forall m seen, mem g seen = true -> pd_unique_from seen (repeat g m) = []).
    { induction m0 as [|m0 IH]; intros seen Hs; simpl; auto. rewrite Hs. auto. }
    simpl. unfold pd_unique. simpl. f_equal. apply K. simpl. rewrite String.eqb_refl. reflexivity. }
  destruct (pawn_plain p X Y n Hn HI EC) as (out & E & L & N & _). exists out. split; auto. rewrite N, EN. auto.
Qed.
