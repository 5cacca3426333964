(** * Enhanced HDMR: the loops of _first_order and _second_order as sweeps. *)
From Coq Require Import Reals List Arith Bool Lia Lra Psatz.
From Verif Require Import Base Arrays ListFacts Stats Sums ModelScale ModelMorrisAnalyze ModelHdmr SpecRidge ProofsRidge ProofsRidge2 ProofsHdmr3 ModelEhdmr SpecEfit ProofsEfit ProofsEhdmr4 ProofsEhdmr5.
Import ListNotations.
Local Open Scope nat_scope.

Lemma combine_seq : forall A (d : A) (B : list A), combine (seq 0 (length B)) B = map (fun i => (i, nth i B d)) (seq 0 (length B)).
Proof.
  intros A d B. apply (nth_ext _ _ (0, d) (0, d)); [rewrite combine_length, map_length, seq_length; lia|]. intros i Hi.
  rewrite combine_length, seq_length, Nat.min_id in Hi. rewrite combine_nth by apply seq_length. rewrite seq_nth by auto. rewrite nth_map_seq by auto. reflexivity.
Qed.
Lemma gram_row : forall n l2 B i, i < length B ->
  nth i (gram n l2 B) [] = map (fun l => dot (nth i B []) (nth l B []) / INR n + (if i =? l then l2 else 0))%R (seq 0 (length B)).
Proof.
  intros n l2 B i Hi. unfold gram. rewrite (combine_seq _ []), !map_map, nth_map_seq by auto. rewrite map_map. reflexivity.
Qed.
Lemma dot_map_seq : forall f k x, length x = k -> Rsum (map2 Rmult (map f (seq 0 k)) x) = total k (fun l => f l * nth l x 0)%R.
Proof.
  intros f k x L. change (dot (map f (seq 0 k)) x = total k (fun l => f l * nth l x 0)%R). rewrite dot_total by (rewrite map_length, seq_length; auto). rewrite map_length, seq_length.
  apply total_ext. intros l Hl. rewrite nth_map_seq by auto. reflexivity.
Qed.
Lemma nth_rhs : forall n B y i, i < length B -> nth i (rhs n B y) 0%R = (dot (nth i B []) y / INR n)%R.
Proof. intros. unfold rhs. rewrite (nth_indep _ 0%R (dot [] y / INR n)%R) by (rewrite map_length; auto). rewrite (map_nth (fun a => dot a y / INR n)%R). reflexivity. Qed.
Lemma map2_total : forall (f : list R -> R) B x, length x = length B -> Rsum (map2 (fun b v => f b * v)%R B x) = total (length B) (fun i => f (nth i B []) * nth i x 0)%R.
Proof.
  intros f B. unfold total. induction B as [|b B IH]; intros [|v x] L; try discriminate; auto. cbn [map2 length seq map]. rewrite !Rsum_cons. cbn [nth]. f_equal.
  rewrite IH by (injection L; auto). rewrite <- seq_shift, map_map. reflexivity.
Qed.

Lemma app_inj_length : forall A (a b c d : list A), length a = length c -> a ++ b = c ++ d -> a = c /\ b = d.
Proof.
  induction a as [|x a IH]; intros b [|u c] d L E; try discriminate; auto. injection E as -> E. injection L as L. destruct (IH b c d L E) as (-> & ->). auto.
Qed.

Section Loop.
Variable solve : list (list R) -> list R -> result (list R).
Hypothesis S0 : solves solve.

Section Data.
Variables (n : nat) (Bs : list (list (list R))) (y : list R).
Hypothesis W : forall B b, In B Bs -> In b B -> length b = n.
Hypothesis LY : length y = n.
Hypothesis NP : 0 < n.
Notation D := (length Bs).

Definition term_at (xs : list (list R)) (r z : nat) : R := total (width Bs z) (fun i => at3 Bs z i r * at2 xs z i)%R.
Lemma block_in : forall z b, In b (nth z Bs []) -> length b = n.
Proof. intros z b H. destruct (Nat.lt_ge_cases z D); [apply (W (nth z Bs [])); auto; apply nth_In; auto|]. rewrite nth_overflow in H by auto. destruct H. Qed.
Lemma component_nth : forall z x, length x = width Bs z -> length (combine_columns n (nth z Bs []) x) = n /\
  forall r, r < n -> nth r (combine_columns n (nth z Bs []) x) 0%R = total (width Bs z) (fun i => at3 Bs z i r * nth i x 0)%R.
Proof.
  intros z x L. destruct (combine_columns_spec n (nth z Bs []) x (block_in z)) as (L1 & L2). split; auto. intros r Hr. rewrite L2 by auto.
  rewrite (map2_total (fun b => nth r b 0%R)) by auto. reflexivity.
Qed.

Lemma total_filter : forall k z f, Rsum (map f (filter (fun j => negb (j =? z)) (seq 0 k))) = total k (fun j => if z =? j then 0 else f j)%R.
Proof.
  intros k z f. unfold total. induction (seq 0 k) as [|a l IH]; auto. cbn [filter map]. rewrite Rsum_cons, (Nat.eqb_sym z a). destruct (a =? z); cbn [negb map]; rewrite ?Rsum_cons, IH; lra.
Qed.

Lemma without_at : forall xs z r, shape Bs xs -> r < n ->
  length (without n Bs xs y z) = n /\ nth r (without n Bs xs y z) 0%R = (nth r y 0 - total D (fun j => if z =? j then 0 else term_at xs r j))%R.
Proof.
  intros xs z r (LX & WX) Hr. unfold without. set (cs := map _ (filter _ _)).
  assert (C : forall c, In c cs -> length c = n).
  { intros c Hc. apply in_map_iff in Hc as (j & <- & Hj). apply filter_In in Hj as (Hj & _). apply in_seq in Hj. apply component_nth. apply WX. lia. }
  destruct (row_sums_spec n cs C) as (L1 & L2). split; [unfold vsub; rewrite length_map2; lia|]. rewrite nth_vsub by lia. f_equal. rewrite L2 by auto.
  rewrite <- total_filter. unfold cs. rewrite map_map. apply Rsum_ext. intros j Hj. apply filter_In in Hj as (Hj & _). apply in_seq in Hj.
  apply component_nth; auto. apply WX; lia.
Qed.
Lemma without_ext : forall xs xs' z, (forall j, j < D -> j <> z -> nth j xs [] = nth j xs' []) -> without n Bs xs y z = without n Bs xs' y z.
Proof.
  intros xs xs' z H. unfold without. f_equal. f_equal. apply map_ext_in. intros j Hj. apply filter_In in Hj as (Hj & Q). apply in_seq in Hj.
  rewrite H; auto; [lia|]. intros ->. rewrite Nat.eqb_refl in Q. discriminate.
Qed.

(** A solved block: the derivative of the penalised sum of squares vanishes in its directions. *)
Lemma block_half : forall l2 xs z, shape Bs xs -> z < D -> solve_block solve n l2 (nth z Bs []) (without n Bs xs y z) = Ok (nth z xs []) ->
  forall i, i < width Bs z -> half _ _ (pts y) (keys Bs) (val Bs) (out y) (INR n * l2) (co xs) (z, i) = 0%R.
Proof.
  intros l2 xs z SX Hz E i Hi. unfold solve_block in E. destruct (solve _ _) as [x|] eqn:Q; [|discriminate]. cbn [bind] in E.
  destruct (Nat.eqb_spec (length x) (length (nth z Bs []))) as [LX|]; [|discriminate]. injection E as ->. set (x := nth z xs []) in *.
  destruct (S0 _ _ _ Q) as (_ & SOL). specialize (SOL i). unfold rhs in SOL at 1. rewrite map_length in SOL. specialize (SOL Hi).
  rewrite gram_row, nth_rhs, dot_map_seq in SOL by auto.
  assert (NN : (INR n <> 0)%R) by (apply not_0_INR; lia).
  set (w := without n Bs xs y z) in *. assert (LW : length w = n) by (apply (without_at xs z 0 SX); auto).
  assert (LB : forall l, l < width Bs z -> length (nth l (nth z Bs []) []) = n) by (intros l Hl; apply (block_in z), nth_In; auto).
  rewrite (dot_total (nth i (nth z Bs []) []) w), LB in SOL by (rewrite ?LB; auto).
  assert (N1 : (total (width Bs z) (fun l => total n (fun r => at3 Bs z i r * (at3 Bs z l r * nth l x 0))) + INR n * l2 * nth i x 0 = total n (fun r => at3 Bs z i r * nth r w 0))%R).
  { apply (f_equal (fun v => INR n * v)%R) in SOL. replace (INR n * (total n (fun i0 => nth i0 (nth i (nth z Bs []) []) 0 * nth i0 w 0) / INR n))%R with (total n (fun r => at3 Bs z i r * nth r w 0))%R in SOL.
    2: { unfold at3, at2. field. auto. }
    rewrite <- SOL. rewrite <- total_scal. symmetry. apply (eq_trans (y := total (width Bs z) (fun l => total n (fun r => at3 Bs z i r * (at3 Bs z l r * nth l x 0)) + (if i =? l then INR n * l2 * nth l x 0 else 0))%R)).
    - apply total_ext. intros l Hl. rewrite dot_total, LB by (rewrite ?LB; auto).
      replace (total n (fun r => at3 Bs z i r * (at3 Bs z l r * nth l x 0)))%R with (nth l x 0 * total n (fun i0 => nth i0 (nth i (nth z Bs []) []) 0 * nth i0 (nth l (nth z Bs []) []) 0))%R.
      + destruct (i =? l); field; auto.
      + rewrite <- total_scal. apply total_ext. intros r _. unfold at3, at2. ring.
    - rewrite total_plus. f_equal. apply (total_delta _ i (fun l => INR n * l2 * nth l x 0)%R); auto. }
  unfold half. rewrite (Rsum_ext _ (fun r => val Bs r (z, i) * (out y r - fitK _ _ (keys Bs) (val Bs) (co xs) r))%R
     (fun r => at3 Bs z i r * nth r w 0 + (-1) * (at3 Bs z i r * total (width Bs z) (fun l => at3 Bs z l r * nth l x 0)))%R).
  - unfold pts. rewrite LY. change (Rsum (map ?f (seq 0 n))) with (total n f). rewrite total_plus, total_scal. rewrite <- N1. rewrite total_swap.
    rewrite (total_ext n (fun r => at3 Bs z i r * total (width Bs z) (fun l => at3 Bs z l r * nth l x 0))%R (fun j => total (width Bs z) (fun l => at3 Bs z i j * (at3 Bs z l j * nth l x 0)))%R) by (intros; rewrite total_scal; auto).
    unfold co, at2. cbn [fst snd]. fold x. ring.
  - intros r Hr. unfold pts in Hr. rewrite LY in Hr. apply in_seq in Hr. rewrite <- explained_fit. unfold explained. rewrite (total_split D z) by auto.
    destruct (without_at xs z r SX ltac:(lia)) as (_ & EW). fold w in EW. rewrite EW. unfold val, out, term_at. cbn [fst snd]. fold x. unfold at2 at 1. fold x.
    change (total (width Bs z) (fun i0 => at3 Bs z i0 r * at2 xs z i0)%R) with (total (width Bs z) (fun i0 => at3 Bs z i0 r * nth i0 x 0)%R). ring.
Qed.

(** ** A pass *)
Lemma shape_update : forall xs z x, shape Bs xs -> z < D -> length x = width Bs z -> shape Bs (update xs z x).
Proof.
  intros xs z x (L & H) Hz E. split; [rewrite length_update; auto|]. intros j Hj. rewrite nth_updated by lia. destruct (Nat.eqb_spec z j); subst; auto.
Qed.

Lemma pass_blocks : forall k a s s', a + k = D -> shape Bs s ->
  foldM (fun xs i => do x <- solve_block solve n 0 (nth i Bs []) (without n Bs xs y i) ;; Ok (update xs i x)) (seq a k) s = Ok s' ->
  shape Bs s' /\ (forall j, j < a -> nth j s' [] = nth j s []) /\
  forall z v, a <= z < D -> solve_block solve n 0 (nth z Bs []) (without n Bs (mixed z s' v s) y z) = Ok (nth z s' []).
Proof.
  induction k as [|k IH]; intros a s s' A SS E; cbn [seq foldM] in E.
  - injection E as <-. split; auto. split; auto. intros; lia.
  - destruct (solve_block solve n 0 (nth a Bs []) (without n Bs s y a)) as [x|] eqn:Q; [|discriminate]. cbn [bind] in E.
    pose proof (solve_block_length _ _ _ _ _ _ Q) as LX. pose proof SS as (LS & _).
    destruct (IH (S a) (update s a x) s') as (S1 & K1 & Z1); auto; [lia|apply shape_update; auto; lia|]. pose proof S1 as (LS' & _). split; auto.
    assert (K2 : forall j, j < a -> nth j s' [] = nth j s []).
    { intros j Hj. rewrite K1 by lia. rewrite nth_updated by lia. destruct (Nat.eqb_spec a j); [lia|auto]. }
    split; auto. intros z v Hz. destruct (Nat.eq_dec z a) as [->|NE].
    + rewrite K1, nth_updated, Nat.eqb_refl by lia. rewrite <- Q. f_equal. apply without_ext. intros j Hj NJ. rewrite nth_mixed by lia.
      destruct (Nat.ltb_spec j a); [apply K2; auto|]. destruct (Nat.eqb_spec j a); [lia|auto].
    + rewrite <- (Z1 z v) by lia. f_equal. apply without_ext. intros j Hj NJ. rewrite !nth_mixed by (rewrite ?length_update; lia).
      destruct (Nat.ltb_spec j z); auto. destruct (Nat.eqb_spec j z); auto. rewrite nth_updated by lia. destruct (Nat.eqb_spec a j); [lia|auto].
Qed.

Lemma shape_mixed : forall new v old z, shape Bs new -> shape Bs old -> z < D -> length v = width Bs z -> shape Bs (mixed z new v old).
Proof.
  intros new v old z (LN & WN) (LO & WO) Hz LV. split; [unfold mixed; rewrite app_length, firstn_length; cbn [length]; rewrite skipn_length; lia|].
  intros j Hj. rewrite nth_mixed by lia. destruct (j <? z); auto. destruct (Nat.eqb_spec j z); subst; auto.
Qed.

Lemma pass_sweep : forall xs xs', shape Bs xs -> e_pass solve n Bs y xs = Ok xs' -> sweep Bs y xs xs'.
Proof.
  intros xs xs' SX E. destruct (pass_blocks D 0 xs xs' (Nat.add_0_l _) SX E) as (S1 & _ & Z). split; auto. intros z e Hz.
  set (m := mixed z xs' (nth z xs' []) xs). assert (SM : shape Bs m) by (apply shape_mixed; auto; apply S1; auto).
  pose proof SX as (LX & _). pose proof S1 as (LX' & _).
  assert (NZ : nth z m [] = nth z xs' []) by (unfold m; rewrite nth_mixed by lia; rewrite Nat.ltb_irrefl, Nat.eqb_refl; auto).
  pose proof (Z z (nth z xs' []) ltac:(lia)) as Q. fold m in Q. rewrite <- NZ in Q. pose proof (block_half 0 m z SM Hz Q) as HF. rewrite Rmult_0_r in HF.
  rewrite !misfit_obj. rewrite (step_gain _ _ (pts y) (keys Bs) (val Bs) (out y) 0 (co (mixed z xs' e xs)) (co m)).
  - pose proof (sq_nonneg _ (fitK _ _ (keys Bs) (val Bs) (fun k => co (mixed z xs' e xs) k - co m k)%R) (pts y)). lra.
  - intros (l, j) I. apply in_keys in I as (Hl & Hj). destruct (Nat.eq_dec l z) as [->|NE]; [right; auto|left].
    unfold co, at2, m. cbn [fst snd]. rewrite !nth_mixed by lia. destruct (l <? z); auto. destruct (Nat.eqb_spec l z); [lia|auto].
Qed.

(** ** The loop *)
Lemma nth_concat_R : forall (l : list (list R)) x, In x (concat l) -> exists z i, at2 l z i = x /\ z < length l /\ i < length (nth z l []).
Proof.
  intros l x H. apply in_concat in H as (b & Hb & Hx). destruct (In_nth _ _ [] Hb) as (z & Hz & <-). destruct (In_nth _ _ 0%R Hx) as (i & Hi & <-). exists z, i. auto.
Qed.
Lemma concat_pairs : forall (P : R -> R -> Prop) l l', length l = length l' -> (forall z, z < length l -> length (nth z l []) = length (nth z l' [])) ->
  (Forall2 P (concat l) (concat l') <-> forall z i, z < length l -> i < length (nth z l []) -> P (at2 l z i) (at2 l' z i)).
Proof.
  intros P. induction l as [|a l IH]; intros [|a' l'] L H; try discriminate; cbn [concat].
  - split; [intros; simpl in *; lia|constructor].
  - assert (LA : length a = length a') by (apply (H 0); simpl; lia).
    assert (H' : forall z, z < length l -> length (nth z l []) = length (nth z l' [])) by (intros z Hz; apply (H (S z)); simpl; lia).
    injection L as L. specialize (IH l' L H'). split.
    + intros F z i Hz Hi. apply Forall2_app_inv_l in F as (u & v & F1 & F2 & E). assert (u = a' /\ v = concat l') as (-> & ->).
      { apply Forall2_length in F1. apply app_inj_length in E; [destruct E; auto|lia]. }
      destruct z as [|z].
      * unfold at2. cbn [nth] in *. clear - F1 Hi. revert i Hi. induction F1; intros i Hi; [simpl in Hi; lia|]. destruct i; cbn [nth]; auto. apply IHF1. simpl in Hi. lia.
      * apply IH; auto. simpl in Hz. lia.
    + intros F. apply Forall2_app.
      * assert (F0 : forall i, i < length a -> P (nth i a 0%R) (nth i a' 0%R)) by (intros i Hi; apply (F 0 i); simpl; auto; lia).
        clear - F0 LA. revert a' LA F0. induction a as [|u a IHa]; intros [|u' a'] LA F0; try discriminate; constructor; [apply (F0 0); simpl; lia|].
        apply IHa; auto. intros i Hi. apply (F0 (S i)). simpl. lia.
      * apply IH. intros z i Hz Hi. apply (F (S z) i); simpl; auto. lia.
Qed.
Lemma small_changes : forall a b, length a = length b ->
  Rltb (maxl (map Rabs (vsub (map (fun v => v ^ 2)%R a) (map (fun v => v ^ 2)%R b)))) (1 / 10000) = true <-> Forall2 (fun u v => Rabs (u ^ 2 - v ^ 2) < 1 / 10000)%R a b.
Proof.
  intros a b L. set (l := map Rabs _). assert (IN : forall P : R -> Prop, (forall x, In x l -> P x) <-> Forall2 (fun u v => P (Rabs (u ^ 2 - v ^ 2)))%R a b).
  { intros P. unfold l, vsub. clear l. revert b L. induction a as [|u a IH]; intros [|v b] L; try discriminate; cbn [map map2].
    - split; [constructor|intros _ x []].
    - injection L as L. specialize (IH b L). split.
      + intros H. constructor; [apply H; left; auto|]. apply IH. intros; apply H; right; auto.
      + intros H x [<-|Hx]; inversion H; subst; auto. apply IH; auto. }
  rewrite <- (IN (fun t => t < 1 / 10000)%R). clear IN. clearbody l. unfold Rltb. destruct (Rlt_dec (maxl l) (1 / 10000)) as [H|H]; split; auto.
  - intros _ x Hx. destruct l as [|l0 l1]; [destruct Hx|]. destruct (maxl_spec (l0 :: l1)) as (_ & M); [discriminate|]. eapply Rle_lt_trans; [apply M|]; auto.
  - discriminate.
  - intros Q. exfalso. apply H. destruct l as [|l0 l1]; [cbn; lra|]. apply Q. apply maxl_spec. discriminate.
Qed.
Lemma settled_test : forall xs xs', shape Bs xs -> shape Bs xs' ->
  Rltb (maxl (map Rabs (vsub (map (fun v => v ^ 2)%R (concat xs)) (map (fun v => v ^ 2)%R (concat xs'))))) (1 / 10000) = true <-> settled xs xs'.
Proof.
  intros xs xs' (L & H) (L' & H'). rewrite small_changes.
  - rewrite concat_pairs by (try lia; intros z Hz; rewrite H, H' by lia; auto). unfold settled. split; [|intros; auto].
    intros Q z i. destruct (Nat.lt_ge_cases z (length xs)) as [Hz|Hz].
    + destruct (Nat.lt_ge_cases i (length (nth z xs []))) as [Hi|Hi]; auto. unfold at2. rewrite (nth_overflow _ 0%R Hi), nth_overflow.
      * rewrite Rminus_eq_0, Rabs_R0. lra.
      * rewrite H' by lia. rewrite H in Hi by lia. auto.
    + unfold at2. rewrite (nth_overflow xs [] Hz), (nth_overflow xs' []) by lia. destruct i; cbn [nth]; rewrite Rminus_eq_0, Rabs_R0; lra.
  - assert (E : forall a : list (list R), length a = D -> (forall z, z < D -> length (nth z a []) = width Bs z) -> length (concat a) = length (concat Bs)).
    { clear. intros a. generalize Bs. clear Bs. intros Bs. revert Bs. induction a as [|u a IH]; intros [|B Bs] L H; try discriminate; auto. cbn [concat]. rewrite !app_length. f_equal; [apply (H 0); simpl; lia|].
      apply IH; [injection L; auto|]. intros z Hz. apply (H (S z)). simpl. lia. }
    rewrite (E xs), (E xs'); auto.
Qed.

Lemma loop_sweeps : forall fuel xs xs', 0 < fuel -> shape Bs xs -> e_backfit solve fuel n Bs y xs = Ok xs' ->
  exists (h : nat -> list (list R)) p, h 0 = xs /\ 1 <= p <= fuel /\ h p = xs' /\ (forall k, k < p -> sweep Bs y (h k) (h (S k))) /\
    (forall k, S k < p -> ~ settled (h k) (h (S k))) /\ (p < fuel -> settled (h (p - 1)) xs').
Proof.
  induction fuel as [|fuel IH]; intros xs xs' FP SX E; [lia|]. cbn [e_backfit] in E.
  destruct (e_pass solve n Bs y xs) as [x1|] eqn:P; [|discriminate]. cbn [bind] in E. pose proof (pass_sweep xs x1 SX P) as SW. pose proof (proj1 SW) as S1.
  assert (ONE : forall q : Prop, (q -> settled xs x1) -> exists (h : nat -> list (list R)) p, h 0 = xs /\ 1 <= p <= S fuel /\ h p = x1 /\ (forall k, k < p -> sweep Bs y (h k) (h (S k))) /\
    (forall k, S k < p -> ~ settled (h k) (h (S k))) /\ (q -> settled (h (p - 1)) x1) /\ p = 1).
  { intros q Hq. exists (fun k => match k with 0 => xs | _ => x1 end), 1. cbn. split; auto. split; [lia|]. split; auto. split; [|split; [intros; lia|split; auto]]. intros [|k] Hk; [exact SW|lia]. }
  destruct (Rltb _ _) eqn:T in E.
  - injection E as <-. apply (settled_test xs x1) in T; auto. destruct (ONE True (fun _ => T)) as (h & p & H1 & H2 & H3 & H4 & H5 & H6 & _). exists h, p. exact (conj H1 (conj H2 (conj H3 (conj H4 (conj H5 (fun _ => H6 I)))))).
  - destruct fuel as [|f].
    + cbn [e_backfit] in E. injection E as <-. destruct (ONE False (fun H => match H with end)) as (h & p & H1 & H2 & H3 & H4 & H5 & _ & ->). exists h, 1. refine (conj H1 (conj H2 (conj H3 (conj H4 (conj H5 _))))). lia.
    + destruct (IH x1 xs') as (h & p & H1 & H2 & H3 & H4 & H5 & H6); auto; [lia|].
      exists (fun k => match k with 0 => xs | S j => h j end), (S p). split; auto. split; [lia|]. split; auto. split; [|split].
      * intros [|k] Hk; [rewrite H1; auto|apply H4; lia].
      * intros [|k] Hk; [|apply H5; lia]. rewrite H1. intros Q. apply (settled_test xs x1) in Q; auto. congruence.
      * intros HP. replace (S p - 1) with (S (p - 1)) by lia. apply H6. lia.
Qed.
End Data.

(** The start: ridge regressions on single blocks. *)
Lemma ridge_start : forall n l2 B y x, (forall b, In b B -> length b = n) -> length y = n -> 0 < n -> (0 <= l2)%R -> solve_block solve n l2 B y = Ok x -> ridge_alone B y l2 x.
Proof.
  intros n l2 B y x WB LY NP L0 E. pose proof (solve_block_length _ _ _ _ _ _ E) as LX. split; auto. intros e.
  assert (W1 : forall B' b, In B' [B] -> In b B' -> length b = n) by (intros B' b [<-|[]] Hb; auto).
  assert (SX : shape [B] [x]). { split; auto. intros [|z] Hz; [|simpl in Hz; lia]. exact LX. }
  assert (EW : without n [B] [x] y 0 = y).
  { apply (nth_ext _ _ 0%R 0%R); [rewrite LY; apply (without_at n [B] y W1 LY NP [x] 0 0 SX NP)|]. intros r Hr. rewrite (proj1 (without_at n [B] y W1 LY NP [x] 0 0 SX NP)) in Hr.
    rewrite (proj2 (without_at n [B] y W1 LY NP [x] 0 r SX Hr)). unfold total. cbn. lra. }
  assert (Q : solve_block solve n l2 (nth 0 [B] []) (without n [B] [x] y 0) = Ok (nth 0 [x] [])) by (rewrite EW; exact E).
  pose proof (block_half n [B] y W1 LY NP l2 [x] 0 SX ltac:(simpl; lia) Q) as H.
  assert (NN : (0 < INR n)%R) by (apply lt_0_INR; auto).
  assert (M : (misfit [B] y [x] + INR n * l2 * weight [B] [x] <= misfit [B] y [e] + INR n * l2 * weight [B] [e])%R).
  { rewrite !objective_misfit. apply stationary_minimal; [apply Rmult_le_pos; lra|]. intros (z, i) I. apply in_keys in I as (Hz & Hi). destruct z; [|simpl in Hz; lia]. apply H; auto. }
  rewrite LY. apply (Rmult_le_reg_l (INR n)); auto. rewrite !Rmult_plus_distr_l.
  replace (INR n * (misfit [B] y [x] / INR n))%R with (misfit [B] y [x]) by (field; lra). replace (INR n * (misfit [B] y [e] / INR n))%R with (misfit [B] y [e]) by (field; lra). lra.
Qed.

Lemma mapM_nth : forall A B (f : A -> result B) l l' d d' z, mapM f l = Ok l' -> z < length l -> f (nth z l d) = Ok (nth z l' d').
Proof.
  intros A B f. induction l as [|a l IH]; intros l' d d' z E Hz; [simpl in Hz; lia|]. cbn [mapM] in E. destruct (f a) as [b|] eqn:F; [|discriminate]. cbn [bind] in E.
  destruct (mapM f l) as [bs|] eqn:M; [|discriminate]. cbn [bind] in E. injection E as <-. destruct z; cbn [nth]; auto. apply IH; auto. simpl in Hz. lia.
Qed.

Theorem order_backfitted : forall n maxiter l2 Bs y xs res, (forall B b, In B Bs -> In b B -> length b = n) -> length y = n -> 0 < n -> (0 <= l2)%R ->
  e_order solve n maxiter l2 Bs y = Ok (xs, res) ->
  backfitted maxiter l2 Bs y xs /\ shape Bs xs /\ length res = n /\ forall r, r < n -> nth r res 0%R = (nth r y 0 - explained Bs xs r)%R.
Proof.
  intros n mi l2 Bs y xs res W LY NP L0 E. unfold e_order in E. destruct (mapM _ Bs) as [x0|] eqn:M; [|discriminate]. cbn [bind] in E.
  destruct (e_backfit solve (S mi) n Bs y x0) as [x1|] eqn:BF; [|discriminate]. cbn [bind] in E. injection E as -> <-.
  assert (ST : forall z, z < length Bs -> ridge_alone (nth z Bs []) y l2 (nth z x0 [])).
  { intros z Hz. apply (ridge_start n l2); auto; [intros b Hb; apply (W (nth z Bs [])); auto; apply nth_In; auto|]. apply (mapM_nth _ _ _ _ _ [] [] z M Hz). }
  assert (SX : shape Bs x0). { split; [apply (mapM_Ok_length _ _ M)|]. intros z Hz. apply ST; auto. }
  destruct (loop_sweeps n Bs y W LY NP (S mi) x0 xs ltac:(lia) SX BF) as (h & p & H1 & H2 & H3 & H4 & H5 & H6).
  assert (S1 : shape Bs xs). { rewrite <- H3. replace p with (S (p - 1)) by lia. apply (H4 (p - 1)). lia. }
  split; [|split; auto].
  - exists h, p. rewrite H1. split; auto. split; auto. split; auto. split; auto. split; auto. split; auto. intros HP. apply H6. lia.
  - destruct S1 as (LX & WX). set (cs := map2 (combine_columns n) Bs xs).
    assert (EC : cs = map (fun z => combine_columns n (nth z Bs []) (nth z xs [])) (seq 0 (length Bs))).
    { unfold cs. clear - LX. revert xs LX. induction Bs as [|B Bs IH]; intros [|x xs] LX; try discriminate; auto. cbn [map2 length seq map]. f_equal. rewrite <- seq_shift, map_map. apply IH. injection LX; auto. }
    assert (C : forall c, In c cs -> length c = n).
    { rewrite EC. intros c Hc. apply in_map_iff in Hc as (j & <- & Hj). apply in_seq in Hj. apply (component_nth n Bs W). apply WX. lia. }
    destruct (row_sums_spec n cs C) as (L1 & L2). split; [unfold vsub; rewrite length_map2; lia|]. intros r Hr. rewrite nth_vsub by lia. f_equal. rewrite L2 by auto. rewrite EC, map_map.
    unfold explained, total. apply Rsum_ext. intros z Hz. apply in_seq in Hz. apply (component_nth n Bs W); auto. apply WX; lia.
Qed.
End Loop.
