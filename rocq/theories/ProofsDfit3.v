(** * Hierarchical costs of functions of pairs. *)
From Coq Require Import Reals List Arith Bool Lia Lra Psatz.
From Verif Require Import Base Stats Sums ModelMorrisAnalyze ModelHdmr SpecRidge ProofsRidge ProofsRidge2 SpecEhdmr SpecEfit SpecDfit ProofsEfit ProofsEfit2 ProofsEfit3 ProofsEhdmr ProofsEhdmr8 ProofsDfit.
Import ListNotations.
Local Open Scope nat_scope.

Definition tab (Bs : list (list (list R))) (g : nat -> nat -> R) : list (list R) := map (fun z => map (g z) (seq 0 (width Bs z))) (seq 0 (length Bs)).
Lemma tab_shape : forall Bs g, shape Bs (tab Bs g).
Proof. intros Bs g. unfold tab, shape. rewrite map_length, seq_length. split; auto. intros z Hz. rewrite nth_map_seq by auto. rewrite map_length, seq_length. reflexivity. Qed.
Lemma tab_at : forall Bs g z i, z < length Bs -> i < width Bs z -> at2 (tab Bs g) z i = g z i.
Proof. intros Bs g z i Hz Hi. unfold at2, tab. rewrite nth_map_seq by auto. rewrite nth_map_seq by auto. reflexivity. Qed.
Lemma shape_over : forall Bs xs z i, shape Bs xs -> z < length Bs -> width Bs z <= i -> at2 xs z i = 0%R.
Proof. intros Bs xs z i (_ & H) Hz Hi. unfold at2. apply nth_overflow. rewrite H; auto. Qed.
Lemma shape_ext : forall Bs xs es, shape Bs xs -> shape Bs es -> (forall z i, z < length Bs -> i < width Bs z -> at2 xs z i = at2 es z i) -> xs = es.
Proof.
  intros Bs xs es (L & H) (L' & H') E. apply (nth_ext _ _ [] []); [lia|]. intros z Hz. rewrite L in Hz. apply (nth_ext _ _ 0%R 0%R); [rewrite H, H'; auto|]. intros i Hi. rewrite H in Hi by auto. apply E; auto.
Qed.
Lemma total_sq_zero : forall n f, total n (fun r => f r ^ 2)%R = 0%R -> forall r, r < n -> f r = 0%R.
Proof.
  intros n f H r Hr. assert (Q : (f r ^ 2 = 0)%R).
  { apply (Rsum_zero_nonneg (map (fun r => f r ^ 2)%R (seq 0 n))); auto.
    - intros x Hx. apply in_map_iff in Hx as (i & <- & _). apply pow2_ge_0.
    - apply (in_map (fun r => f r ^ 2)%R). apply in_seq. lia. }
  apply Rsqr_0_uniq. unfold Rsqr. lra.
Qed.
Lemma Rsum_map_total : forall A (d : A) (f : A -> R) l, Rsum (map f l) = total (length l) (fun i => f (nth i l d)).
Proof.
  intros A d f l. unfold total. induction l as [|a l IH]; auto. cbn [map length seq]. rewrite !Rsum_cons, IH. f_equal. rewrite <- seq_shift, map_map. reflexivity.
Qed.
Lemma total_nonneg : forall n f, (forall i, i < n -> (0 <= f i)%R) -> (0 <= total n f)%R.
Proof. intros n f H. unfold total. apply Rsum_nonneg. intros x Hx. apply in_map_iff in Hx as (i & <- & Hi). apply in_seq in Hi. apply H. lia. Qed.
Lemma total_nonneg_zero : forall n f, (forall i, i < n -> (0 <= f i)%R) -> total n f = 0%R -> forall i, i < n -> f i = 0%R.
Proof.
  intros n f H Z i Hi. apply (Rsum_zero_nonneg (map f (seq 0 n))); auto.
  - intros x Hx. apply in_map_iff in Hx as (j & <- & Hj). apply in_seq in Hj. apply H. lia.
  - apply in_map. apply in_seq. lia.
Qed.

Section Pairs.
Variables (d p n : nat) (phi : nat -> list (list R)) (prs : list (list nat)).
Hypothesis PL : forall a, a < d -> length (phi a) = p.
Hypothesis PN : forall a col, In col (phi a) -> length col = n.
Hypothesis PR : forall t, In t prs -> exists a b, t = [a; b] /\ a < d /\ b < d /\ a <> b.
Notation ts := (map (fun i => [i]) (seq 0 d) ++ prs).
Notation Bx := (map (own_columns true phi) ts).
Notation B0 := (map (own_columns false phi) ts).
Notation N := (length prs).
Definition fa (i : nat) : nat := nth 0 (nth i prs []) 0.
Definition fb (i : nat) : nat := nth 1 (nth i prs []) 0.
Definition F (a q r : nat) : R := nth r (nth q (phi a) []) 0%R.
Definition P (i l r : nat) : R := nth r (nth l (products (phi (fa i)) (phi (fb i))) []) 0%R.

Lemma pair_ends : forall i, i < N -> nth i prs [] = [fa i; fb i] /\ fa i < d /\ fb i < d /\ fa i <> fb i.
Proof. intros i Hi. destruct (PR _ (nth_In prs [] Hi)) as (a & b & E & H). unfold fa, fb. rewrite E. cbn. auto. Qed.
Lemma ts_length : length ts = d + N.
Proof. rewrite app_length, map_length, seq_length. auto. Qed.
Lemma ts_single : forall z, z < d -> nth z ts [] = [z].
Proof. intros z Hz. rewrite app_nth1 by (rewrite map_length, seq_length; auto). rewrite nth_map_seq by auto. reflexivity. Qed.
Lemma ts_pair : forall i, nth (d + i) ts [] = nth i prs [].
Proof. intros i. rewrite app_nth2 by (rewrite map_length, seq_length; lia). rewrite map_length, seq_length. f_equal. lia. Qed.
Lemma block_of : forall ext z, z < d + N -> nth z (map (own_columns ext phi) ts) [] = own_columns ext phi (nth z ts []).
Proof. intros ext z Hz. rewrite (nth_indep _ [] (own_columns ext phi [])) by (rewrite map_length, ts_length; auto). apply map_nth. Qed.
Lemma prods_length : forall i, i < N -> length (products (phi (fa i)) (phi (fb i))) = p * p.
Proof.
  intros i Hi. destruct (pair_ends i Hi) as (_ & A & B & _). rewrite <- (PL _ A) at 1. rewrite <- (PL _ B). unfold products. induction (phi (fa i)) as [|c l IH]; auto.
  cbn [flat_map length]. rewrite app_length, map_length, IH. reflexivity.
Qed.
Lemma pair_block : forall i, i < N -> own_columns true phi (nth (d + i) ts []) = (phi (fa i) ++ phi (fb i)) ++ products (phi (fa i)) (phi (fb i)).
Proof. intros i Hi. rewrite ts_pair. destruct (pair_ends i Hi) as (-> & _). reflexivity. Qed.
Lemma pair_block0 : forall i, i < N -> own_columns false phi (nth (d + i) ts []) = products (phi (fa i)) (phi (fb i)).
Proof. intros i Hi. rewrite ts_pair. destruct (pair_ends i Hi) as (-> & _). reflexivity. Qed.
Lemma width_single : forall ext z, z < d -> width (map (own_columns ext phi) ts) z = p.
Proof. intros ext z Hz. unfold width. rewrite block_of by lia. rewrite ts_single by auto. apply PL; auto. Qed.
Lemma width_pair : forall i, i < N -> width Bx (d + i) = 2 * p + p * p.
Proof. intros i Hi. unfold width. rewrite block_of, pair_block, !app_length, prods_length by lia. destruct (pair_ends i Hi) as (_ & A & B & _). rewrite !PL by auto. lia. Qed.
Lemma width_pair0 : forall i, i < N -> width B0 (d + i) = p * p.
Proof. intros i Hi. unfold width. rewrite block_of, pair_block0, prods_length by lia. lia. Qed.

(** The function of a pair. *)
Definition pairf (u v w : nat -> R) (i r : nat) : R :=
  (total p (fun q => F (fa i) q r * u q) + total p (fun q => F (fb i) q r * v q) + total (p * p) (fun l => P i l r * w l))%R.
Lemma pair_total : forall i r g, i < N -> total (width Bx (d + i)) (fun l => at3 Bx (d + i) l r * g l)%R = pairf g (fun q => g (p + q)) (fun l => g (2 * p + l)) i r.
Proof.
  intros i r g Hi. destruct (pair_ends i Hi) as (_ & A & B & _). rewrite width_pair by auto. replace (2 * p + p * p) with (p + p + p * p) by lia. rewrite !total_add. unfold pairf. f_equal; [f_equal|].
  - apply total_ext. intros q Hq. f_equal. unfold at3, at2. rewrite block_of, pair_block by lia. rewrite app_nth1 by (rewrite app_length, !PL; lia). rewrite app_nth1 by (rewrite PL; auto). reflexivity.
  - apply total_ext. intros q Hq. f_equal. unfold at3, at2. rewrite block_of, pair_block by lia. rewrite app_nth1 by (rewrite app_length, !PL; lia). rewrite app_nth2 by (rewrite PL; auto; lia).
    rewrite PL by auto. replace (p + q - p) with q by lia. reflexivity.
  - apply total_ext. intros l Hl. unfold at3, at2. rewrite block_of, pair_block by lia. rewrite app_nth2 by (rewrite app_length, !PL; lia). rewrite app_length, !PL by auto.
    replace (p + p + l - (p + p)) with l by lia. replace (p + p + l) with (2 * p + l) by lia. reflexivity.
Qed.
Lemma pair_total0 : forall i r g, i < N -> total (width B0 (d + i)) (fun l => at3 B0 (d + i) l r * g l)%R = total (p * p) (fun l => P i l r * g l)%R.
Proof. intros i r g Hi. rewrite width_pair0 by auto. apply total_ext. intros l Hl. f_equal. unfold at3, at2. rewrite block_of, pair_block0 by lia. reflexivity. Qed.
Lemma single_total : forall ext z r g, z < d -> total (width (map (own_columns ext phi) ts) z) (fun l => at3 (map (own_columns ext phi) ts) z l r * g l)%R = total p (fun q => F z q r * g q)%R.
Proof. intros ext z r g Hz. rewrite width_single by auto. apply total_ext. intros q Hq. f_equal. unfold at3, at2. rewrite block_of by lia. rewrite ts_single by auto. reflexivity. Qed.

Definition at_u (g : nat -> nat -> R) (i : nat) : nat -> R := g (d + i).
Definition values (g : nat -> nat -> R) (r : nat) : R :=
  (total d (fun a => total p (fun q => F a q r * g a q)) + total N (fun i => pairf (g (d + i)%nat) (fun q => g (d + i)%nat (p + q)%nat) (fun l => g (d + i)%nat (2 * p + l)%nat) i r))%R.
Lemma values_spec : forall g r, total (length Bx) (fun z => total (width Bx z) (fun l => at3 Bx z l r * g z l))%R = values g r.
Proof.
  intros g r. rewrite map_length, ts_length, total_add. unfold values. f_equal.
  - apply total_ext. intros a Ha. apply single_total; auto.
  - apply total_ext. intros i Hi. apply (pair_total i r (g (d + i))); auto.
Qed.
Lemma explained_values : forall xs r, explained Bx xs r = values (at2 xs) r.
Proof. intros xs r. apply (values_spec (at2 xs)). Qed.

(** All coefficients of the same column together. *)
Definition collect (g : nat -> nat -> R) (z l : nat) : R :=
  (if z <? d then g z l + total N (fun i => (if fa i =? z then g (d + i)%nat l else 0) + (if fb i =? z then g (d + i)%nat (p + l)%nat else 0)) else g z (2 * p + l)%nat)%R.
Lemma spread : forall (e : nat -> nat) (h : nat -> nat -> R) r, (forall i, i < N -> e i < d) ->
  total N (fun i => total p (fun q => F (e i) q r * h i q))%R = total d (fun a => total p (fun q => F a q r * total N (fun i => if e i =? a then h i q else 0)))%R.
Proof.
  intros e h r He. rewrite (total_ext N _ (fun i => total d (fun a => if e i =? a then total p (fun q => F a q r * h i q) else 0))%R).
  - rewrite total_swap. apply total_ext. intros a Ha. rewrite (total_ext N _ (fun i => total p (fun q => F a q r * (if e i =? a then h i q else 0)))%R).
    + rewrite total_swap. apply total_ext. intros q Hq. rewrite total_scal. reflexivity.
    + intros i Hi. destruct (e i =? a); auto. rewrite (total_ext p _ (fun _ => 0)%R) by (intros; ring). rewrite total_zero. auto.
  - intros i Hi. symmetry. apply (total_delta d (e i) (fun a => total p (fun q => F a q r * h i q))%R). auto.
Qed.
Lemma values_collect : forall g r, values g r = total (length B0) (fun z => total (width B0 z) (fun l => at3 B0 z l r * collect g z l))%R.
Proof.
  intros g r. rewrite map_length, ts_length, total_add. unfold values, pairf. rewrite !total_plus.
  rewrite (spread fa (fun i q => g (d + i) q)) by (intros; apply pair_ends; auto). rewrite (spread fb (fun i q => g (d + i) (p + q))) by (intros; apply pair_ends; auto).
  rewrite (total_ext d (fun z => total (width B0 z) _) (fun a => total p (fun q => F a q r * g a q) + (total p (fun q => F a q r * total N (fun i => if fa i =? a then g (d + i)%nat q else 0))
     + total p (fun q => F a q r * total N (fun i => if fb i =? a then g (d + i)%nat (p + q)%nat else 0))))%R).
  - rewrite !total_plus. rewrite (total_ext N (fun i => total (width B0 (d + i)) _) (fun i => total (p * p) (fun l => P i l r * g (d + i)%nat (2 * p + l)%nat))%R); [ring|].
    intros i Hi. rewrite (pair_total0 i r (collect g (d + i))) by auto. apply total_ext. intros l Hl. unfold collect. destruct (Nat.ltb_spec (d + i) d); [lia|]. reflexivity.
  - intros a Ha. rewrite (single_total false a r (collect g a)) by auto. rewrite <- !total_plus. apply total_ext. intros q Hq. unfold collect. destruct (Nat.ltb_spec a d); [|lia]. rewrite total_plus. ring.
Qed.

(** The function of a pair as a list, its mean and its inner products. *)
Definition fpair (xs : list (list R)) (i r : nat) : R := pairf (at2 xs (d + i)) (fun q => at2 xs (d + i) (p + q)) (fun l => at2 xs (d + i) (2 * p + l)) i r.
Lemma combination_pair : forall xs i, shape Bx xs -> i < N -> combination n (own_columns true phi (nth (d + i) ts [])) (nth (d + i) xs []) = map (fpair xs i) (seq 0 n).
Proof.
  intros xs i (L & H) Hi. unfold combination. apply map_ext. intros r. rewrite (map2_total (fun b => nth r b 0%R)).
  - unfold fpair. rewrite <- (pair_total i r (at2 xs (d + i))) by auto. unfold width. rewrite block_of by lia. apply total_ext. intros l Hl. f_equal. unfold at3, at2. rewrite block_of by lia. reflexivity.
  - rewrite H by (rewrite map_length, ts_length; lia). unfold width. rewrite block_of by lia. reflexivity.
Qed.
Lemma mean_seq : forall f, mean (map f (seq 0 n)) = (total n f / INR n)%R.
Proof. intros f. unfold mean. rewrite map_length, seq_length. reflexivity. Qed.
Lemma inner_seq : forall a f, length a = n -> inner a (map f (seq 0 n)) = (total n (fun r => nth r a 0 * f r) / INR n)%R.
Proof.
  intros a f L. unfold inner. rewrite L. f_equal. change (dot a (map f (seq 0 n)) = total n (fun r => nth r a 0 * f r)%R). rewrite dot_total by (rewrite map_length, seq_length; auto). rewrite L. apply total_ext. intros r Hr. rewrite nth_map_seq by auto. reflexivity.
Qed.
Definition pair_cost (f : nat -> R) (i : nat) : R :=
  ((total n f / INR n) ^ 2 + (total p (fun q => (total n (fun r => F (fa i) q r * f r) / INR n) ^ 2) + total p (fun q => (total n (fun r => F (fb i) q r * f r) / INR n) ^ 2)))%R.
Lemma pair_cost_spec : forall f i, i < N -> let c := map f (seq 0 n) in (mean c ^ 2 + Rsum (map (fun a => inner a c ^ 2) (lower_columns phi (nth i prs []))))%R = pair_cost f i.
Proof.
  intros f i Hi c. destruct (pair_ends i Hi) as (E & A & B & _). rewrite E. cbn [lower_columns]. unfold pair_cost. f_equal; [unfold c; rewrite mean_seq; auto|].
  rewrite map_app, Rsum_app. rewrite !(Rsum_map_total _ []), !PL by auto. f_equal; apply total_ext; intros q Hq; f_equal; unfold c; apply inner_seq.
  - apply (PN (fa i)). apply nth_In. rewrite PL; auto.
  - apply (PN (fb i)). apply nth_In. rewrite PL; auto.
Qed.
Lemma hierarchy_spec : forall xs, shape Bx xs -> hierarchy n phi ts xs = total N (fun i => pair_cost (fpair xs i) i).
Proof.
  intros xs S. unfold hierarchy. rewrite ts_length, total_add. rewrite (total_ext d _ (fun _ => 0%R)).
  - rewrite total_zero, Rplus_0_l. apply total_ext. intros i Hi. cbv zeta. rewrite combination_pair by auto. rewrite ts_pair. destruct (pair_ends i Hi) as (E & _). rewrite E at 1. cbn [length Nat.eqb].
    apply pair_cost_spec; auto.
  - intros z Hz. cbv zeta. rewrite ts_single by auto. reflexivity.
Qed.
Lemma pair_cost_nonneg : forall f i, (0 <= pair_cost f i)%R.
Proof.
  intros f i. unfold pair_cost. repeat apply Rplus_le_le_0_compat; try apply pow2_ge_0; apply total_nonneg; intros; apply pow2_ge_0.
Qed.

(** Coefficients that predict zero and cost nothing are zero. *)
Hypothesis IND : independent B0 n.
Hypothesis NP : 0 < n.
Lemma inrn : (INR n <> 0)%R. Proof. apply not_0_INR. lia. Qed.

Lemma two_terms_zero : forall i u v, i < N -> (forall r, r < n -> (total p (fun q => F (fa i) q r * u q) + total p (fun q => F (fb i) q r * v q) = 0)%R) ->
  forall q, q < p -> u q = 0%R /\ v q = 0%R.
Proof.
  intros i u v Hi H q Hq. destruct (pair_ends i Hi) as (_ & A & B & NE).
  set (g := fun z l => if z =? fa i then u l else if z =? fb i then v l else 0%R).
  assert (G : forall z l, z < length B0 -> l < width B0 z -> g z l = 0%R).
  { apply IND. intros r Hr. rewrite map_length, ts_length, total_add.
    rewrite (total_ext N _ (fun _ => 0)%R).
    2: { intros j Hj. rewrite (total_ext _ _ (fun _ => 0)%R); [apply total_zero|]. intros l Hl. unfold g. destruct (Nat.eqb_spec (d + j) (fa i)); [lia|]. destruct (Nat.eqb_spec (d + j) (fb i)); [lia|]. ring. }
    rewrite total_zero, Rplus_0_r.
    rewrite (total_ext d _ (fun z => (if fa i =? z then total p (fun q => F z q r * u q) else 0) + (if fb i =? z then total p (fun q => F z q r * v q) else 0))%R).
    - rewrite total_plus, (total_delta d (fa i) (fun z => total p (fun q => F z q r * u q))%R), (total_delta d (fb i) (fun z => total p (fun q => F z q r * v q))%R) by auto. apply H; auto.
    - intros z Hz. rewrite (single_total false z r (g z)) by auto. unfold g. rewrite (Nat.eqb_sym z (fa i)), (Nat.eqb_sym z (fb i)). destruct (Nat.eqb_spec (fa i) z), (Nat.eqb_spec (fb i) z); try lia; try ring.
      rewrite (total_ext p _ (fun _ => 0)%R) by (intros; ring). rewrite total_zero. ring. }
  split.
  - rewrite <- (G (fa i) q); [unfold g; rewrite Nat.eqb_refl; auto|rewrite map_length, ts_length; lia|rewrite width_single by auto; auto].
  - rewrite <- (G (fb i) q); [unfold g; rewrite Nat.eqb_refl; destruct (Nat.eqb_spec (fb i) (fa i)); [lia|auto]|rewrite map_length, ts_length; lia|rewrite width_single by auto; auto].
Qed.

Lemma costless_zero : forall xs, shape Bx xs -> (forall r, r < n -> explained Bx xs r = 0%R) -> hierarchy n phi ts xs = 0%R -> forall z i, at2 xs z i = 0%R.
Proof.
  intros xs S E H.
  assert (CZ : forall z l, z < length B0 -> l < width B0 z -> collect (at2 xs) z l = 0%R).
  { apply IND. intros r Hr. rewrite <- values_collect, <- explained_values. auto. }
  rewrite hierarchy_spec in H by auto. assert (LB : length Bx = d + N) by (rewrite map_length; apply ts_length). assert (LB0 : length B0 = d + N) by (rewrite map_length; apply ts_length).
  assert (WZ : forall i l, i < N -> l < p * p -> at2 xs (d + i) (2 * p + l) = 0%R).
  { intros i l Hi Hl. specialize (CZ (d + i) l). rewrite LB0, width_pair0 in CZ by auto. specialize (CZ ltac:(lia) Hl). unfold collect in CZ. destruct (Nat.ltb_spec (d + i) d); [lia|]. exact CZ. }
  assert (UZ : forall i q, i < N -> q < p -> at2 xs (d + i) q = 0%R /\ at2 xs (d + i) (p + q) = 0%R).
  { intros i q Hi Hq. assert (C0 : pair_cost (fpair xs i) i = 0%R) by (apply (total_nonneg_zero N (fun i => pair_cost (fpair xs i) i)); auto; intros; apply pair_cost_nonneg).
    set (f := fpair xs i) in *. unfold pair_cost in C0.
    assert (Q1 : (0 <= total p (fun q => (total n (fun r => F (fa i) q r * f r) / INR n) ^ 2))%R) by (apply total_nonneg; intros; apply pow2_ge_0).
    assert (Q2 : (0 <= total p (fun q => (total n (fun r => F (fb i) q r * f r) / INR n) ^ 2))%R) by (apply total_nonneg; intros; apply pow2_ge_0).
    pose proof (pow2_ge_0 (total n f / INR n)) as Q0.
    assert (O : forall h : nat -> R, total p (fun q => (h q / INR n) ^ 2)%R = 0%R -> forall q, q < p -> h q = 0%R).
    { intros h Hh q' Hq'. pose proof (total_sq_zero p (fun q => h q / INR n)%R Hh q' Hq') as Z. cbv beta in Z. apply (f_equal (fun t => t * INR n)%R) in Z. unfold Rdiv in Z. rewrite Rmult_assoc, Rinv_l, Rmult_1_r, Rmult_0_l in Z by apply inrn. auto. }
    pose proof (O (fun q => total n (fun r => F (fa i) q r * f r)%R) ltac:(lra)) as OA. pose proof (O (fun q => total n (fun r => F (fb i) q r * f r)%R) ltac:(lra)) as OB. cbv beta in OA, OB.
    assert (FE : forall r, f r = (total p (fun q => F (fa i) q r * at2 xs (d + i) q) + total p (fun q => F (fb i) q r * at2 xs (d + i) (p + q)%nat))%R).
    { intros r. unfold f, fpair, pairf. rewrite (total_ext (p * p) _ (fun _ => 0)%R) by (intros l Hl; rewrite WZ by auto; ring). rewrite total_zero. ring. }
    assert (SQ : total n (fun r => f r ^ 2)%R = 0%R).
    { rewrite (total_ext n _ (fun r => total p (fun q => at2 xs (d + i) q * (F (fa i) q r * f r)) + total p (fun q => at2 xs (d + i) (p + q)%nat * (F (fb i) q r * f r)))%R).
      - rewrite total_plus, !(total_swap n p). rewrite (total_ext p (fun j => total n (fun i0 => at2 xs (d + i) j * (F (fa i) j i0 * f i0)))%R (fun _ => 0)%R) by (intros j Hj; rewrite total_scal, OA by auto; ring).
        rewrite (total_ext p (fun j => total n (fun i0 => at2 xs (d + i) (p + j)%nat * (F (fb i) j i0 * f i0)))%R (fun _ => 0)%R) by (intros j Hj; rewrite total_scal, OB by auto; ring). rewrite total_zero. ring.
      - intros r Hr. replace (f r ^ 2)%R with (f r * f r)%R by ring. rewrite (FE r) at 1. rewrite Rmult_plus_distr_r. rewrite !(Rmult_comm (total p _) (f r)), <- !total_scal. f_equal; apply total_ext; intros; ring. }
    apply (two_terms_zero i (at2 xs (d + i)) (fun q => at2 xs (d + i) (p + q))); auto. intros r Hr. rewrite <- FE. apply (total_sq_zero n f SQ r Hr). }
  intros z i. destruct (Nat.lt_ge_cases z (d + N)) as [Hz|Hz]; [|unfold at2; rewrite (nth_overflow xs) by (destruct S as (-> & _); rewrite LB; auto); destruct i; auto].
  destruct (Nat.lt_ge_cases i (width Bx z)) as [Hi|Hi]; [|apply (shape_over Bx); auto; rewrite LB; auto].
  destruct (Nat.lt_ge_cases z d) as [Hd|Hd].
  - rewrite width_single in Hi by auto. specialize (CZ z i). rewrite LB0, width_single in CZ by auto. specialize (CZ Hz Hi). unfold collect in CZ. destruct (Nat.ltb_spec z d); [|lia].
    rewrite (total_ext N _ (fun _ => 0)%R) in CZ; [rewrite total_zero in CZ; lra|]. intros j Hj. destruct (UZ j i Hj Hi) as (-> & ->). destruct (fa j =? z), (fb j =? z); ring.
  - replace z with (d + (z - d)) in * by lia. set (j := z - d) in *. assert (Hj : j < N) by lia. rewrite width_pair in Hi by auto.
    destruct (Nat.lt_ge_cases i p) as [H1|H1]; [apply (UZ j i); auto|]. destruct (Nat.lt_ge_cases i (2 * p)) as [H2|H2].
    + replace i with (p + (i - p)) by lia. apply (UZ j (i - p)); auto. lia.
    + replace i with (2 * p + (i - 2 * p)) by lia. apply WZ; auto. lia.
Qed.
End Pairs.
