(** * Enhanced HDMR: the columns of each term. *)
From Coq Require Import Reals String List Arith ZArith Bool Lia Lra Sorted Permutation.
From Verif Require Import Base Arrays ListFacts ModelGroups ModelScale Stats Sums Det ModelFast ModelMorris ModelMorrisAnalyze ModelDgsm ModelPawn
  SpecMorris ProofsMorris3 ModelHdmr SpecHdmr ProofsHdmr ModelEhdmr SpecEhdmr ProofsEhdmr.
Import ListNotations.
Local Open Scope nat_scope.

Lemma comb_length : forall A k (l : list A), length (combinations k l) = comb (length l) k.
Proof.
  induction k; intros l; [destruct l; reflexivity|]. induction l as [|x l IHl]; [reflexivity|].
  rewrite combinations_cons, app_length, map_length, IHk, IHl. reflexivity.
Qed.

(** ** Slices of concatenations *)

Lemma slice_app_r : forall A (a b : list A) i j, slice (a ++ b) (length a + i) (length a + j) = slice b i j.
Proof. intros. unfold slice. replace (length a + j - (length a + i)) with (j - i) by lia. rewrite skipn_app. rewrite skipn_all2 by lia. replace (length a + i - length a) with i by lia. reflexivity. Qed.
Lemma slice_app_l : forall A (a b : list A) i j, j <= length a -> slice (a ++ b) i j = slice a i j.
Proof.
  intros. unfold slice. rewrite skipn_app, firstn_app, skipn_length. destruct (Nat.le_gt_cases i j).
  - replace (j - i - (length a - i)) with 0 by lia. rewrite firstn_O, app_nil_r. auto.
  - replace (j - i) with 0 by lia. rewrite !firstn_O. auto.
Qed.
Lemma skipn_twice : forall A (l : list A) a b, skipn a (skipn b l) = skipn (a + b) l.
Proof. intros A l a b. revert l. induction b; intros l; [rewrite Nat.add_0_r; auto|]. rewrite Nat.add_succ_r. destruct l; simpl; [apply skipn_nil|auto]. Qed.
Lemma slice_whole : forall A (a : list A) n, length a = n -> slice a 0 n = a.
Proof. intros. unfold slice. rewrite Nat.sub_0_r, skipn_O, <- H. apply firstn_all. Qed.

Lemma slice_concat : forall A (bs : list (list A)) w i, (forall b, In b bs -> length b = w) -> i < length bs ->
  slice (concat bs) (i * w) ((i + 1) * w) = nth i bs [].
Proof.
  induction bs as [|b bs IH]; intros w i H Hi; [simpl in Hi; lia|].
  assert (Lb : length b = w) by (apply H; left; auto). destruct i as [|i].
  - cbn [concat nth]. replace (0 * w) with 0 by lia. replace ((0 + 1) * w) with w by lia. rewrite slice_app_l by lia. apply slice_whole; auto.
  - cbn [concat nth]. replace (S i * w) with (length b + i * w) by lia. replace ((S i + 1) * w) with (length b + (i + 1) * w) by lia.
    rewrite slice_app_r. apply IH; [intros; apply H; right; auto|simpl in Hi; lia].
Qed.

Lemma nth_concat : forall A (d : A) (bs : list (list A)) w i q, (forall b, In b bs -> length b = w) -> i < length bs -> q < w ->
  nth (i * w + q) (concat bs) d = nth q (nth i bs []) d.
Proof.
  induction bs as [|b bs IH]; intros w i q H Hi Hq; [simpl in Hi; lia|].
  assert (Lb : length b = w) by (apply H; left; auto). destruct i as [|i]; cbn [concat nth].
  - rewrite app_nth1 by lia. auto.
  - replace (S i * w + q) with (length b + (i * w + q)) by lia. rewrite app_nth2_plus. apply IH; [intros; apply H; right; auto|simpl in Hi; lia|auto].
Qed.
Lemma length_concat_w : forall A (bs : list (list A)) w, (forall b, In b bs -> length b = w) -> length (concat bs) = w * length bs.
Proof. induction bs as [|b bs IH]; intros w H; simpl; [lia|]. rewrite app_length, (IH w) by (intros; apply H; right; auto). rewrite (H b) by (left; auto). lia. Qed.

(** ** Products *)

Section Basis.
Variable c : core.
Variable first : list (list (list R)).
Hypothesis Lfirst : length first = c_d c.
Hypothesis Wfirst : forall b, In b first -> length b = c_p c.
Let phi (a : nat) : list (list R) := nth a first [].

Lemma phi_length : forall a, a < c_d c -> length (phi a) = c_p c.
Proof. intros. apply Wfirst. unfold phi. apply nth_In. lia. Qed.
Lemma first_length : length (concat first) = c_tnt1 c.
Proof. rewrite (length_concat_w _ _ (c_p c)) by auto. rewrite Lfirst. reflexivity. Qed.

Lemma first_block_phi : forall rest i, i < c_d c -> first_block c (concat first ++ rest) i = phi i.
Proof.
  intros rest i Hi. unfold first_block. rewrite slice_app_l.
  - apply slice_concat; auto. lia.
  - rewrite first_length. unfold c_tnt1, c_nt1, c_nc1. nia.
Qed.
Lemma nth_first : forall rest i q, i < c_d c -> q < c_p c -> nth (i * c_p c + q) (concat first ++ rest) [] = nth q (phi i) [].
Proof.
  intros rest i q Hi Hq. rewrite app_nth1.
  - apply nth_concat; auto. lia.
  - rewrite first_length. unfold c_tnt1, c_nt1, c_nc1. nia.
Qed.

Lemma range_shift : forall i w, range (i * w) ((i + 1) * w) = map (fun q => i * w + q) (seq 0 w).
Proof. intros. unfold range. replace ((i + 1) * w - i * w) with w by lia. rewrite <- (Nat.add_0_r (i * w)) at 1. generalize (i * w). intros a. 
  generalize 0. induction w; intros z; auto. simpl. rewrite <- Nat.add_succ_r. f_equal. apply IHw. Qed.

Lemma map_nth_seq : forall A B (f : A -> B) d (l : list A), map (fun q => f (nth q l d)) (seq 0 (length l)) = map f l.
Proof. intros. rewrite <- (map_map (fun q => nth q l d) f). f_equal. apply nth_error_ext'. intros i. rewrite nth_error_map', nth_error_seq.
  destruct (Nat.ltb_spec i (length l)); cbn [option_map].
  - rewrite Nat.add_0_l. symmetry. apply nth_error_nth'; auto.
  - symmetry. apply nth_error_None. auto.
Qed.
Lemma flat_map_nth_seq : forall A B (f : A -> list B) d (l : list A), flat_map (fun q => f (nth q l d)) (seq 0 (length l)) = flat_map f l.
Proof. intros. rewrite !flat_map_concat_map. f_equal. apply map_nth_seq. Qed.

Lemma cartesian2 : forall A B, cartesian [A; B] = flat_map (fun x => map (fun y => [x; y]) B) A.
Proof.
  intros A B. cbn [cartesian]. induction A as [|x A IH]; cbn [flat_map]; auto. f_equal; auto.
  clear. induction B; cbn [flat_map map app]; auto. f_equal. auto.
Qed.
Lemma cartesian3 : forall A B C, cartesian [A; B; C] = flat_map (fun x => flat_map (fun y => map (fun z => [x; y; z]) C) B) A.
Proof.
  intros A B C. transitivity (flat_map (fun x => map (cons x) (cartesian [B; C])) A); [reflexivity|]. rewrite cartesian2.
  rewrite !flat_map_concat_map. f_equal. apply map_ext. intros x. rewrite !flat_map_concat_map, concat_map, map_map. f_equal.
  apply map_ext. intros y. rewrite map_map. auto.
Qed.
Lemma flat_map_map : forall A B C (f : A -> B) (g : B -> list C) l, flat_map g (map f l) = flat_map (fun x => g (f x)) l.
Proof. induction l; simpl; auto. f_equal; auto. Qed.
Lemma map_flat_map : forall A B C (f : A -> list B) (g : B -> C) l, map g (flat_map f l) = flat_map (fun x => map g (f x)) l.
Proof. induction l; simpl; auto. rewrite map_app. f_equal; auto. Qed.
Lemma flat_flat_map : forall A B C (f : A -> list B) (g : B -> list C) l, flat_map g (flat_map f l) = flat_map (fun x => flat_map g (f x)) l.
Proof. induction l; simpl; auto. rewrite flat_map_app. f_equal; auto. Qed.
Lemma flat_map_ext_in : forall A B (f g : A -> list B) l, (forall x, In x l -> f x = g x) -> flat_map f l = flat_map g l.
Proof. induction l; intros H; simpl; auto. rewrite H by (left; auto). f_equal. apply IHl. intros; apply H; right; auto. Qed.

Lemma products_pair : forall rest i j, i < j -> j < c_d c ->
  map (fun k => match k with [k1; k2] => vmul (nth k1 (concat first ++ rest) []) (nth k2 (concat first ++ rest) []) | _ => [] end)
      (uprod [block_range c i; block_range c j]) = products (phi i) (phi j).
Proof.
  intros rest i j L Hj. rewrite uprod_blocks2 by auto. unfold block_range. rewrite cartesian2, !range_shift.
  unfold products. rewrite <- (flat_map_nth_seq _ _ _ [] (phi i)). rewrite (phi_length i) by lia.
  rewrite flat_map_map, map_flat_map. apply flat_map_ext_in. intros q Hq. apply in_seq in Hq.
  rewrite !map_map. rewrite <- (map_nth_seq _ _ _ [] (phi j)), (phi_length j) by lia.
  apply map_ext_in. intros r Hr. apply in_seq in Hr. rewrite !nth_first by lia. reflexivity.
Qed.

Lemma products_triple : forall rest i j k, i < j -> j < k -> k < c_d c ->
  map (fun l => match l with [l1; l2; l3] => vmul (vmul (nth l1 (concat first ++ rest) []) (nth l2 (concat first ++ rest) [])) (nth l3 (concat first ++ rest) []) | _ => [] end)
      (uprod [block_range c i; block_range c j; block_range c k]) = products (products (phi i) (phi j)) (phi k).
Proof.
  intros rest i j k L1 L2 Hk. rewrite uprod_blocks3 by auto. unfold block_range. rewrite cartesian3, !range_shift.
  unfold products. rewrite <- (flat_map_nth_seq _ _ _ [] (phi i)). rewrite (phi_length i) by lia.
  rewrite flat_flat_map, flat_map_map, map_flat_map.
  apply flat_map_ext_in. intros q Hq. apply in_seq in Hq. rewrite !flat_map_map, map_flat_map.
  rewrite <- (flat_map_nth_seq _ _ _ [] (phi j)), (phi_length j) by lia.
  apply flat_map_ext_in. intros r Hr. apply in_seq in Hr. rewrite !map_map.
  rewrite <- (map_nth_seq _ _ _ [] (phi k)), (phi_length k) by lia. apply map_ext_in. intros z Hz. apply in_seq in Hz.
  rewrite !nth_first by lia. reflexivity.
Qed.

Lemma add_pair_spec : forall rest i j, i < j -> j < c_d c ->
  add_pair c (concat first ++ rest) [i; j] = concat first ++ rest ++ own_columns (c_ext c) phi [i; j].
Proof.
  intros rest i j L Hj. cbn [add_pair own_columns]. rewrite products_pair by auto. rewrite !first_block_phi by lia.
  rewrite <- !app_assoc. reflexivity.
Qed.

Lemma fold_pairs : forall ts rest, (forall t, In t ts -> exists i j, t = [i; j] /\ i < j /\ j < c_d c) ->
  fold_left (add_pair c) ts (concat first ++ rest) = concat first ++ rest ++ concat (map (own_columns (c_ext c) phi) ts).
Proof.
  induction ts as [|t ts IH]; intros rest H; cbn [fold_left map concat]; [rewrite app_nil_r; auto|].
  destruct (H t (or_introl eq_refl)) as (i & j & -> & L & Hj). rewrite add_pair_spec by auto. rewrite IH by (intros; apply H; right; auto).
  rewrite <- !app_assoc. reflexivity.
Qed.

Definition second_terms := combinations 2 (seq 0 (c_d c)).
Definition third_terms := combinations 3 (seq 0 (c_d c)).
Lemma second_In : forall t, In t second_terms -> exists i j, t = [i; j] /\ i < j /\ j < c_d c.
Proof.
  intros t H. apply combinations_seq in H. destruct H as (L & B & S1). destruct t as [|i [|j [|]]]; try discriminate. exists i, j.
  inversion S1 as [|? ? _ F]; subst. rewrite Forall_forall in F. split; auto. split; [apply F; left; auto|]. specialize (B j ltac:(simpl; auto)). lia.
Qed.
Lemma third_In : forall t, In t third_terms -> exists i j k, t = [i; j; k] /\ i < j /\ j < k /\ k < c_d c.
Proof.
  intros t H. apply combinations_seq in H. destruct H as (L & B & S1). destruct t as [|i [|j [|k [|]]]]; try discriminate. exists i, j, k.
  inversion S1 as [|? ? S2 F]; subst. inversion S2 as [|? ? _ F2]; subst. rewrite Forall_forall in F, F2. split; auto.
  split; [apply F; left; auto|]. split; [apply F2; left; auto|]. specialize (B k ltac:(simpl; auto)). lia.
Qed.

(** The columns the extended third-order blocks take for the pairs: those of pairs number i, j and k. *)
Definition pair_products (n : nat) : list (list R) := match nth n second_terms [] with [a; b] => products (phi a) (phi b) | _ => [] end.
Definition third_columns (t : list nat) : list (list R) :=
  match t with
  | [i; j; k] => (if c_ext c then phi i ++ phi j ++ phi k ++ pair_products i ++ pair_products j ++ pair_products k else [])
                 ++ products (products (phi i) (phi j)) (phi k)
  | _ => []
  end.

Lemma products_length : forall A B, length (products A B) = length A * length B.
Proof. intros A B. unfold products. induction A; simpl; auto. rewrite app_length, map_length, IHA. auto. Qed.
Lemma pair_columns_length : forall t, In t second_terms -> length (own_columns (c_ext c) phi t) = c_p c ^ 2 + (if c_ext c then 2 * c_p c else 0).
Proof.
  intros t H. apply second_In in H. destruct H as (i & j & -> & L & Hj). cbn [own_columns]. rewrite app_length, products_length, !phi_length by lia.
  destruct (c_ext c); cbn [length]; [rewrite app_length, !phi_length by lia|]; simpl; lia.
Qed.

Lemma pair_block_spec : forall rest n, c_ext c = true -> n < length second_terms ->
  pair_block c (concat first ++ concat (map (own_columns (c_ext c) phi) second_terms) ++ rest) n = pair_products n.
Proof.
  intros rest n E Hn. unfold pair_block. set (w := c_p c ^ 2 + 2 * c_p c).
  assert (W : forall b, In b (map (own_columns (c_ext c) phi) second_terms) -> length b = w).
  { intros b Hb. apply in_map_iff in Hb. destruct Hb as (t & <- & Ht). rewrite pair_columns_length by auto. rewrite E. unfold w. lia. }
  rewrite <- first_length. unfold c_nt1.
  replace (length (concat first) + 2 * c_p c * (n + 1) + n * c_p c ^ 2) with (length (concat first) + (n * w + 2 * c_p c)) by (unfold w; nia).
  fold w. replace (c_p c ^ 2 + 2 * c_p c) with w by reflexivity. rewrite slice_app_r.
  rewrite slice_app_l by (rewrite (length_concat_w _ _ w) by auto; rewrite map_length; nia).
  pose proof (slice_concat _ (map (own_columns (c_ext c) phi) second_terms) w n W ltac:(rewrite map_length; auto)) as SL.
  rewrite (nth_indep _ _ (own_columns (c_ext c) phi [])), map_nth in SL by (rewrite map_length; auto).
  assert (SS : forall A (l : list A) a b m, a + m <= b -> slice l (a + m) b = skipn m (slice l a b)).
  { intros A l a b m Hm. unfold slice. rewrite skipn_firstn_comm, skipn_twice. f_equal; [lia|f_equal; lia]. }
  rewrite SS by (unfold w; nia). rewrite SL. unfold pair_products.
  destruct (second_In (nth n second_terms []) ltac:(apply nth_In; auto)) as (i & j & -> & L & Hj). cbn [own_columns]. rewrite E.
  rewrite skipn_app, skipn_all2 by (rewrite app_length, !phi_length by lia; lia). rewrite app_length, !phi_length by lia.
  replace (2 * c_p c - (c_p c + c_p c)) with 0 by lia. reflexivity.
Qed.

Lemma add_triple_spec : forall rest i j k, 1 < c_order c -> i < j -> j < k -> k < c_d c ->
  add_triple c (concat first ++ concat (map (own_columns (c_ext c) phi) second_terms) ++ rest) [i; j; k] =
  concat first ++ concat (map (own_columns (c_ext c) phi) second_terms) ++ rest ++ third_columns [i; j; k].
Proof.
  intros rest i j k O L1 L2 Hk. cbn [add_triple third_columns]. rewrite products_triple by auto. rewrite !first_block_phi by lia.
  assert (C : 2 * length second_terms = c_d c * (c_d c - 1)) by (apply combinations_count).
  destruct (c_ext c) eqn:E; [|rewrite <- !app_assoc; reflexivity].
  rewrite <- E. rewrite !pair_block_spec by (auto; nia). rewrite <- !app_assoc. reflexivity.
Qed.

Lemma fold_triples : forall ts rest, 1 < c_order c -> (forall t, In t ts -> exists i j k, t = [i; j; k] /\ i < j /\ j < k /\ k < c_d c) ->
  fold_left (add_triple c) ts (concat first ++ concat (map (own_columns (c_ext c) phi) second_terms) ++ rest) =
  concat first ++ concat (map (own_columns (c_ext c) phi) second_terms) ++ rest ++ concat (map third_columns ts).
Proof.
  induction ts as [|t ts IH]; intros rest O H; cbn [fold_left map concat]; [rewrite app_nil_r; auto|].
  destruct (H t (or_introl eq_refl)) as (i & j & k & -> & L & L2 & Hk). rewrite add_triple_spec by auto. rewrite IH by (auto; intros; apply H; right; auto).
  rewrite <- !app_assoc. reflexivity.
Qed.

(** The whole basis: the columns of each term, one after the other. *)
Definition term_blocks : list (list (list R)) :=
  map phi (seq 0 (c_d c)) ++ (if 1 <? c_order c then map (own_columns (c_ext c) phi) second_terms else [])
  ++ (if c_order c =? 3 then map third_columns third_terms else []).

Lemma concat_phi : concat (map phi (seq 0 (c_d c))) = concat first.
Proof. f_equal. unfold phi. rewrite <- Lfirst. rewrite (map_nth_seq _ _ (fun x => x) [] first). apply map_id. Qed.

Lemma extend_basis_spec : extend_basis c (concat first) = concat term_blocks.
Proof.
  unfold extend_basis, term_blocks. rewrite !concat_app, concat_phi. rewrite pairs_of, triples_of. fold second_terms third_terms.
  destruct (Nat.ltb_spec 1 (c_order c)) as [O|O].
  - pose proof (fold_pairs second_terms [] second_In) as F. rewrite app_nil_r, app_nil_l in F. rewrite F.
    destruct (c_order c =? 3) eqn:E; [|cbn [concat]; rewrite app_nil_r; auto].
    pose proof (fold_triples third_terms [] O third_In) as G. rewrite app_nil_r, app_nil_l in G. exact G.
  - destruct (Nat.eqb_spec (c_order c) 3); [lia|]. cbn [concat]. rewrite !app_nil_r. auto.
Qed.

Lemma second_length : 1 < c_order c -> length second_terms = c_nc2 c.
Proof. intros O. unfold c_nc2. apply Nat.ltb_lt in O. rewrite O. unfold second_terms. rewrite comb_length, seq_length. auto. Qed.
Lemma third_length : c_order c = 3 -> length third_terms = c_nc3 c.
Proof. intros O. unfold c_nc3. rewrite O. cbn [Nat.eqb]. unfold third_terms. rewrite comb_length, seq_length. auto. Qed.
Lemma pair_products_length : forall n, n < length second_terms -> length (pair_products n) = c_p c ^ 2.
Proof.
  intros n Hn. unfold pair_products. destruct (second_In (nth n second_terms []) ltac:(apply nth_In; auto)) as (i & j & -> & L & Hj).
  rewrite products_length, !phi_length by lia. simpl. lia.
Qed.
Lemma third_columns_length : forall t, In t third_terms -> length (third_columns t) = c_p c ^ 3 + (if c_ext c then 3 * c_p c + 3 * c_p c ^ 2 else 0).
Proof.
  intros t H. apply third_In in H. destruct H as (i & j & k & -> & L & L2 & Hj). cbn [third_columns].
  assert (C : 2 * length second_terms = c_d c * (c_d c - 1)) by (apply combinations_count).
  rewrite app_length, !products_length, !phi_length by lia.
  destruct (c_ext c); cbn [length]; [rewrite !app_length, !phi_length, !pair_products_length by nia|]; simpl; lia.
Qed.

Lemma blocks1_length : forall b, In b (map phi (seq 0 (c_d c))) -> length b = c_p c.
Proof. intros b H. apply in_map_iff in H. destruct H as (a & <- & H). apply in_seq in H. apply phi_length. lia. Qed.

Lemma term_columns_spec : forall i, 1 <= c_order c <= 3 -> i < c_nc_t c ->
  term_columns c (extend_basis c (concat first)) i = nth i term_blocks [].
Proof.
  intros i O Hi. rewrite extend_basis_spec. unfold term_columns, term_blocks. rewrite !concat_app.
  assert (L1 : length (concat (map phi (seq 0 (c_d c)))) = c_tnt1 c).
  { rewrite (length_concat_w _ _ (c_p c)) by apply blocks1_length. rewrite map_length, seq_length. reflexivity. }
  destruct (Nat.ltb_spec i (c_nc1 c)) as [H1|H1]; unfold c_nc1 in H1.
  - rewrite slice_app_l by (rewrite L1; unfold c_tnt1, c_nt1, c_nc1; nia).
    rewrite (slice_concat _ _ (c_p c)) by (try apply blocks1_length; rewrite map_length, seq_length; auto).
    rewrite app_nth1 by (rewrite map_length, seq_length; auto). reflexivity.
  - rewrite app_nth2 by (rewrite map_length, seq_length; auto). rewrite map_length, seq_length.
    assert (W2 : forall b, In b (map (own_columns (c_ext c) phi) second_terms) -> 1 < c_order c -> length b = c_nt2 c).
    { intros b Hb O2. apply in_map_iff in Hb. destruct Hb as (t & <- & Ht). rewrite pair_columns_length by auto. unfold c_nt2.
      apply Nat.ltb_lt in O2. rewrite O2. auto. }
    destruct (Nat.ltb_spec i (c_nc1 c + c_nc2 c)) as [H2|H2]; unfold c_nc1 in H2; cbv zeta.
    + assert (O2 : 1 < c_order c). { unfold c_nc2 in H2. destruct (Nat.ltb_spec 1 (c_order c)); auto. lia. }
      replace (1 <? c_order c) with true by (symmetry; apply Nat.ltb_lt; auto).
      rewrite <- L1, slice_app_r.
      rewrite slice_app_l.
      * rewrite (slice_concat _ _ (c_nt2 c)) by (auto; rewrite map_length, second_length by auto; unfold c_nc1; lia).
        rewrite app_nth1 by (rewrite map_length, second_length by auto; lia). reflexivity.
      * rewrite (length_concat_w _ _ (c_nt2 c)) by auto. rewrite map_length, second_length by auto. unfold c_nc1. nia.
    + assert (O3 : c_order c = 3). { unfold c_nc_t, c_nc1, c_nc3 in Hi. destruct (Nat.eqb_spec (c_order c) 3); auto. lia. }
      replace (1 <? c_order c) with true by (symmetry; apply Nat.ltb_lt; lia). rewrite O3. cbn [Nat.eqb].
      assert (L2 : length (concat (map (own_columns (c_ext c) phi) second_terms)) = c_tnt2 c).
      { rewrite (length_concat_w _ _ (c_nt2 c)) by (intros; apply W2; auto; lia). rewrite map_length, second_length by lia. reflexivity. }
      rewrite <- L1, <- L2, <- !Nat.add_assoc, slice_app_r, slice_app_r.
      assert (W3 : forall b, In b (map third_columns third_terms) -> length b = c_nt3 c).
      { intros b Hb. apply in_map_iff in Hb. destruct Hb as (t & <- & Ht). rewrite third_columns_length by auto. unfold c_nt3. rewrite O3. reflexivity. }
      rewrite (slice_concat _ _ (c_nt3 c)).
      * rewrite app_nth2 by (rewrite map_length, second_length by lia; lia). rewrite map_length, second_length by lia. reflexivity.
      * auto.
      * rewrite map_length, third_length by auto. unfold c_nc_t, c_nc1 in *. lia.
Qed.

Lemma third_own : forall t, c_ext c = false -> third_columns t = match t with [_; _; _] => own_columns (c_ext c) phi t | _ => [] end.
Proof. intros t E. unfold third_columns, own_columns. rewrite E. destruct t as [|i [|j [|k [|]]]]; auto. Qed.
Lemma third_own3 : c_d c = 3 -> map third_columns third_terms = map (own_columns (c_ext c) phi) third_terms.
Proof. intros D. unfold third_terms, third_columns, pair_products, second_terms. rewrite D. cbn. destruct (c_ext c); reflexivity. Qed.

(** All terms in the order of their blocks. *)
Definition all_terms : list (list nat) :=
  map (fun i => [i]) (seq 0 (c_d c)) ++ (if 1 <? c_order c then second_terms else []) ++ (if c_order c =? 3 then third_terms else []).
Lemma term_blocks_own : c_order c <> 3 \/ c_ext c = false \/ c_d c = 3 -> term_blocks = map (own_columns (c_ext c) phi) all_terms.
Proof.
  intros H. unfold term_blocks, all_terms. rewrite !map_app, map_map. f_equal. f_equal.
  - destruct (1 <? c_order c); auto.
  - destruct (Nat.eqb_spec (c_order c) 3); [|auto]. destruct H as [H|[H|H]]; [contradiction| |apply third_own3; auto].
    apply map_ext_in. intros t Ht. rewrite third_own by auto. apply third_In in Ht. destruct Ht as (i & j & k & -> & _). auto.
Qed.
Lemma all_terms_length : 1 <= c_order c <= 3 -> length all_terms = c_nc_t c.
Proof.
  intros O. unfold all_terms, c_nc_t, c_nc1. rewrite !app_length, map_length, seq_length.
  destruct (Nat.ltb_spec 1 (c_order c)); destruct (Nat.eqb_spec (c_order c) 3); cbn [length]; rewrite ?second_length, ?third_length by auto;
    unfold c_nc2, c_nc3; try (rewrite (proj2 (Nat.ltb_lt 1 (c_order c))) by auto);
    try (replace (1 <? c_order c) with false by (symmetry; apply Nat.ltb_ge; auto)); try (rewrite (proj2 (Nat.eqb_neq (c_order c) 3)) by auto); lia.
Qed.
End Basis.
