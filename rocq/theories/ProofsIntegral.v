(** * Facts about the integral and averages over a box. *)
From Coq Require Import Reals List Arith Lra Lia.
From Verif Require Import SpecIntegral.
Import ListNotations.
Local Open Scope R_scope.

Lemma integral_unique : forall f a b v w, integral f a b v -> integral f a b w -> v = w.
Proof. intros f a b v w (p & <-) (q & <-). apply RiemannInt_P5. Qed.

Lemma integral_ext : forall f g a b v, a <= b -> (forall x, a <= x <= b -> f x = g x) -> integral f a b v -> integral g a b v.
Proof.
  intros f g a b v L E (p & <-).
  assert (q : Riemann_integrable g a b).
  { apply (@Riemann_integrable_ext f g); [|exact p]. rewrite Rmin_left, Rmax_right by assumption. exact E. }
  exists q. symmetry. apply RiemannInt_P18; [assumption|]. intros x I. apply E. lra.
Qed.

Lemma integral_lin : forall f g a b l v w, integral f a b v -> integral g a b w -> integral (fun x => f x + l * g x) a b (v + l * w).
Proof.
  intros f g a b l v w (p & <-) (q & <-). exists (RiemannInt_P10 l p q). apply RiemannInt_P13.
Qed.

Lemma integral_const : forall c a b, integral (fun _ => c) a b (c * (b - a)).
Proof. intros. exists (RiemannInt_P14 a b c). apply RiemannInt_P15. Qed.

Lemma integral_plus : forall f g a b v w, a <= b -> integral f a b v -> integral g a b w -> integral (fun x => f x + g x) a b (v + w).
Proof.
  intros f g a b v w L F G. replace (v + w) with (v + 1 * w) by ring.
  apply (integral_ext (fun x => f x + 1 * g x)); [assumption|intros; ring|]. apply integral_lin; assumption.
Qed.

Lemma integral_scal : forall f a b c v, a <= b -> integral f a b v -> integral (fun x => c * f x) a b (c * v).
Proof.
  intros f a b c v L F. replace (c * v) with (0 * (b - a) + c * v) by ring.
  apply (integral_ext (fun x => 0 + c * f x)); [assumption|intros; ring|].
  apply (integral_lin (fun _ => 0)); [apply integral_const|assumption].
Qed.

Lemma integral_chasles : forall f a b c v w, integral f a b v -> integral f b c w -> integral f a c (v + w).
Proof.
  intros f a b c v w (p & <-) (q & <-). exists (RiemannInt_P24 p q). symmetry. apply RiemannInt_P26.
Qed.

(** The fundamental theorem. *)
Lemma integral_of : forall F f a b, a <= b -> (forall x, derivable_pt_lim F x (f x)) -> continuity f -> integral f a b (F b - F a).
Proof.
  intros F f a b L D C.
  pose (d := (fun x => exist (fun l => derivable_pt_abs F x l) (f x) (D x)) : derivable F).
  assert (E : forall x, derive F d x = f x) by reflexivity.
  assert (C' : continuity (derive F d)) by exact C.
  pose (c := @mkC1 F d C').
  assert (p : Riemann_integrable (derive F d) a b).
  { apply continuity_implies_RiemannInt; [assumption|]. intros x _. apply C'. }
  apply (integral_ext (derive F d)); [assumption|intros; apply E|].
  exists p. apply (FTC_Riemann c p).
Qed.

Lemma integral_nonneg : forall f a b v, a <= b -> (forall x, a <= x <= b -> 0 <= f x) -> integral f a b v -> 0 <= v.
Proof.
  intros f a b v L P I. assert (Q := integral_const 0 a b). destruct I as (p & <-), Q as (q & E).
  replace (0 * (b - a)) with 0 in E by ring. rewrite <- E. apply RiemannInt_P19; [assumption|]. intros x X. apply P. lra.
Qed.

(** ** Averages *)

Definition proper (b : box) : Prop := Forall (fun i => fst i < snd i) b.

Lemma average_unique : forall b f v w, proper b -> average b f v -> average b f w -> v = w.
Proof.
  induction b as [|[lo hi] b IH]; intros f v w P V W.
  - cbn in V, W. congruence.
  - inversion P as [|? ? L P']; subst. cbn [fst snd] in L.
    cbn [average] in V, W. destruct V as (h & H & V), W as (k & K & W).
    assert (v * (hi - lo) = w * (hi - lo)).
    { apply (integral_unique k lo hi); [|exact W]. apply (integral_ext h); [lra| |exact V].
      intros x X. apply (IH (fun xs => f (x :: xs))); auto. }
    apply Rmult_eq_reg_r with (hi - lo); lra.
Qed.

Lemma average_ext : forall b f g v, proper b -> (forall x, inside b x -> f x = g x) -> average b f v -> average b g v.
Proof.
  induction b as [|[lo hi] b IH]; intros f g v P E V.
  - cbn in *. rewrite <- E; [assumption|constructor].
  - inversion P as [|? ? L P']; subst. cbn [fst snd] in L. cbn [average] in *. destruct V as (h & H & V).
    exists h. split; [|exact V]. intros x X. apply (IH (fun xs => f (x :: xs))); [assumption| |auto].
    intros xs I. apply E. constructor; assumption.
Qed.

Lemma average_const : forall b c, average b (fun _ => c) c.
Proof.
  induction b as [|[lo hi] b IH]; intros c; [reflexivity|].
  cbn [average]. exists (fun _ => c). split; [intros; apply IH|]. apply integral_const.
Qed.

Lemma average_lin : forall b f g l v w, proper b -> average b f v -> average b g w -> average b (fun x => f x + l * g x) (v + l * w).
Proof.
  induction b as [|[lo hi] b IH]; intros f g l v w P V W.
  - cbn in *. subst. reflexivity.
  - inversion P as [|? ? L P']; subst. cbn [fst snd] in L. cbn [average] in *.
    destruct V as (h & H & V), W as (k & K & W).
    exists (fun x => h x + l * k x). split.
    + intros x X. apply (IH (fun xs => f (x :: xs)) (fun xs => g (x :: xs))); auto.
    + replace ((v + l * w) * (hi - lo)) with (v * (hi - lo) + l * (w * (hi - lo))) by ring. apply integral_lin; assumption.
Qed.

Lemma average_plus : forall b f g v w, proper b -> average b f v -> average b g w -> average b (fun x => f x + g x) (v + w).
Proof.
  intros b f g v w P V W. replace (v + w) with (v + 1 * w) by ring.
  apply (average_ext b (fun x => f x + 1 * g x)); [assumption|intros; ring|]. apply average_lin; assumption.
Qed.
Lemma average_scal : forall b f c v, proper b -> average b f v -> average b (fun x => c * f x) (c * v).
Proof.
  intros b f c v P V. replace (c * v) with (0 + c * v) by ring.
  apply (average_ext b (fun x => 0 + c * f x)); [assumption|intros; ring|]. apply (average_lin b (fun _ => 0)); [assumption|apply average_const|assumption].
Qed.

(** The variance from the averages of the function and its square. *)
Lemma variance_moments : forall b f m q, proper b -> average b f m -> average b (fun x => f x ^ 2) q -> variance b f (q - m ^ 2).
Proof.
  intros b f m q P M Q. exists m. split; [exact M|].
  apply (average_ext b (fun x => (f x ^ 2 + (- 2 * m) * f x) + m ^ 2)); [assumption|intros; ring|].
  replace (q - m ^ 2) with ((q + (- 2 * m) * m) + m ^ 2) by ring.
  apply average_plus; [assumption| |apply average_const]. apply average_lin; assumption.
Qed.

Lemma variance_unique : forall b f v w, proper b -> variance b f v -> variance b f w -> v = w.
Proof.
  intros b f v w P (m & M & V) (n & N & W).
  assert (m = n) by (apply (average_unique b f); assumption). subst n. eapply average_unique; eassumption.
Qed.

Lemma variance_ext : forall b f g v, proper b -> (forall x, inside b x -> f x = g x) -> variance b f v -> variance b g v.
Proof.
  intros b f g v P E (m & M & V). exists m. split; [apply (average_ext b f); assumption|].
  apply (average_ext b (fun x => (f x - m) ^ 2)); [assumption| |assumption]. intros x I. rewrite (E x I). reflexivity.
Qed.

Lemma average_nonneg : forall b f v, proper b -> (forall x, inside b x -> 0 <= f x) -> average b f v -> 0 <= v.
Proof.
  induction b as [|[lo hi] b IH]; intros f v P N V.
  - cbn in V. subst. apply N. constructor.
  - inversion P as [|? ? L P']; subst. cbn [fst snd] in L. cbn [average] in V. destruct V as (h & H & V).
    assert (Q : 0 <= v * (hi - lo)).
    { apply (integral_nonneg h lo hi); [lra| |exact V]. intros x X.
      apply (IH (fun xs => f (x :: xs))); [assumption| |auto]. intros xs I. apply N. constructor; assumption. }
    apply Rmult_le_reg_r with (hi - lo); lra.
Qed.
Lemma variance_nonneg : forall b f v, proper b -> variance b f v -> 0 <= v.
Proof. intros b f v P (m & _ & V). apply (average_nonneg b (fun x => (f x - m) ^ 2)); [assumption|intros; apply pow2_ge_0|assumption]. Qed.

(** One coordinate. *)
Lemma average_one : forall lo hi f v, lo < hi -> integral f lo hi (v * (hi - lo)) -> average [(lo, hi)] (fun l => f (hd 0 l)) v.
Proof. intros lo hi f v L I. cbn [average]. exists f. split; [reflexivity|exact I]. Qed.

(** ** Products *)

(** Functions of one coordinate each. *)
Fixpoint product (gs : list (R -> R)) (x : list R) : R :=
  match gs, x with g :: gs, v :: x => g v * product gs x | _, _ => 1 end.

Definition mean_of (i : R * R) (g : R -> R) (m : R) : Prop := integral g (fst i) (snd i) (m * (snd i - fst i)).

Lemma mean_of_scal : forall i c g m, fst i <= snd i -> mean_of i g m -> mean_of i (fun x => c * g x) (c * m).
Proof.
  intros i c g m L M. unfold mean_of in *. replace (c * m * (snd i - fst i)) with (c * (m * (snd i - fst i))) by ring.
  apply integral_scal; assumption.
Qed.

Fixpoint prod (l : list R) : R := match l with [] => 1 | x :: r => x * prod r end.

Lemma average_product : forall b gs ms, proper b -> length gs = length b -> Forall2 (fun ig m => mean_of (fst ig) (snd ig) m) (combine b gs) ms ->
  average b (product gs) (prod ms).
Proof.
  induction b as [|[lo hi] b IH]; intros gs ms P L F.
  - destruct gs; [|discriminate]. inversion F; subst. reflexivity.
  - destruct gs as [|g gs]; [discriminate|]. cbn [combine] in F. inversion F as [|? m ? ms' M F']; subst.
    inversion P as [|? ? Lt P']; subst. cbn [fst snd] in *.
    cbn [average]. exists (fun x => g x * prod ms'). split.
    + intros x X. cbn [product]. apply average_scal; [assumption|]. apply IH; [assumption|cbn in L; lia|assumption].
    + cbn [prod]. unfold mean_of in M. cbn [fst snd] in M.
      apply (integral_ext (fun x => prod ms' * g x)); [lra|intros; ring|].
      replace (m * prod ms' * (hi - lo)) with (prod ms' * (m * (hi - lo))) by ring. apply integral_scal; [lra|exact M].
Qed.

Lemma product_sq : forall gs x, product gs x ^ 2 = product (map (fun g v => g v ^ 2) gs) x.
Proof.
  induction gs as [|g gs IH]; intros [|v x]; cbn [product map]; try (cbn; ring).
  rewrite <- IH. ring.
Qed.

Lemma product_put : forall gs i v x d, (i < length gs)%nat -> length x = (length gs - 1)%nat ->
  product gs (put_at i v x) = nth i gs d v * product (without_at i gs) x.
Proof.
  induction gs as [|g gs IH]; intros i v x d L E; [cbn in L; lia|].
  destruct i as [|i].
  - unfold put_at, without_at. cbn. reflexivity.
  - destruct x as [|y x]; [cbn in *; lia|]. unfold put_at, without_at in *.
    cbn [firstn skipn app product nth]. cbn [length] in L, E.
    rewrite (IH i v x d) by lia. cbn [firstn skipn app product]. ring.
Qed.
Lemma without_at_length : forall A i (l : list A), (i < length l)%nat -> length (without_at i l) = (length l - 1)%nat.
Proof. intros A i l L. unfold without_at. rewrite app_length, firstn_length, skipn_length. lia. Qed.
Lemma without_at_Forall : forall A (P : A -> Prop) i l, Forall P l -> Forall P (without_at i l).
Proof.
  intros A P i l F. rewrite Forall_forall in *. intros x H. apply F. unfold without_at in H. apply in_app_or in H.
  rewrite <- (firstn_skipn i l). apply in_or_app. destruct H as [H|H]; [left; assumption|right].
  rewrite <- (firstn_skipn 1 (skipn i l)). apply in_or_app. right.
  revert l F H. induction i as [|i IH]; intros [|y l] F H; try exact H. cbn [skipn] in *. apply IH; [|exact H].
  intros z Z. apply F. right. exact Z.
Qed.
Lemma without_at_combine : forall A B i (l : list A) (l' : list B), without_at i (combine l l') = combine (without_at i l) (without_at i l').
Proof.
  intros A B i. unfold without_at. induction i as [|i IH]; intros [|x l] [|y l']; try reflexivity.
  - symmetry. apply combine_nil.
  - cbn [combine firstn skipn app]. rewrite <- IH. reflexivity.
Qed.
Lemma without_at_Forall2 : forall A B (P : A -> B -> Prop) i l l', Forall2 P l l' -> Forall2 P (without_at i l) (without_at i l').
Proof.
  intros A B P i. unfold without_at. induction i as [|i IH]; intros l l' F.
  - destruct F; [constructor|assumption].
  - destruct F as [|x y l l' H F]; [constructor|]. cbn [firstn skipn app]. constructor; [assumption|]. apply IH. assumption.
Qed.
Lemma Forall2_nth_error : forall A B (P : A -> B -> Prop) l l' i x, Forall2 P l l' -> nth_error l i = Some x -> exists y, nth_error l' i = Some y /\ P x y.
Proof.
  intros A B P l l' i x F. revert i. induction F as [|a b l l' H F IH]; intros [|i] E; try discriminate.
  - cbn in *. exists b. split; [reflexivity|]. injection E as <-. assumption.
  - cbn in *. apply IH. assumption.
Qed.

Lemma inside_without : forall b i bi x xs, nth_error b i = Some bi -> fst bi <= x <= snd bi -> inside (without_at i b) xs -> inside b (put_at i x xs).
Proof.
  unfold inside, without_at, put_at. induction b as [|c b IH]; intros i bi x xs E X I; [destruct i; discriminate|].
  destruct i as [|i].
  - cbn in *. injection E as ->. constructor; assumption.
  - cbn [firstn skipn app nth_error] in *. inversion I as [|? y ? ys Y I']; subst. constructor; [assumption|]. apply (IH i bi); assumption.
Qed.
Lemma proper_nth : forall b i bi, proper b -> nth_error b i = Some bi -> fst bi < snd bi.
Proof. intros b i bi P E. apply nth_error_In in E. unfold proper in P. rewrite Forall_forall in P. apply P. assumption. Qed.
Lemma inside_one : forall bi x, inside [bi] x -> exists v, x = [v] /\ fst bi <= v <= snd bi.
Proof. intros bi x I. inversion I as [|? v ? l V N]; subst. inversion N; subst. exists v. split; [reflexivity|assumption]. Qed.

Lemma first_effect_unique : forall b f i v w, proper b -> first_effect b f i v -> first_effect b f i w -> v = w.
Proof.
  intros b f i v w P (bi & h & B & H & V) (bj & k & B' & K & W). rewrite B in B'. injection B' as <-.
  apply (variance_unique [bi] (fun l => k (hd 0 l))); [constructor; [apply (proper_nth b i); assumption|constructor]| |assumption].
  apply (variance_ext [bi] (fun l => h (hd 0 l))); [constructor; [apply (proper_nth b i); assumption|constructor]| |assumption].
  intros x I. apply inside_one in I. destruct I as (y & -> & Y). cbn [hd].
  apply (average_unique (without_at i b) (fun xs => f (put_at i y xs))); [apply without_at_Forall; assumption| |]; auto.
Qed.
Lemma total_effect_unique : forall b f i v w, proper b -> total_effect b f i v -> total_effect b f i w -> v = w.
Proof.
  intros b f i v w P (bi & h & B & H & V) (bj & k & B' & K & W). rewrite B in B'. injection B' as <-.
  apply (average_unique (without_at i b) k); [apply without_at_Forall; assumption| |assumption].
  apply (average_ext (without_at i b) h); [apply without_at_Forall; assumption| |assumption].
  intros xs I. apply (variance_unique [bi] (fun l => f (put_at i (hd 0 l) xs))); auto.
  constructor; [apply (proper_nth b i); assumption|constructor].
Qed.
Lemma first_effect_ext : forall b f g i v, proper b -> (forall x, inside b x -> f x = g x) -> first_effect b f i v -> first_effect b g i v.
Proof.
  intros b f g i v P E (bi & h & B & H & V). exists bi, h. split; [assumption|]. split; [|assumption].
  intros x X. apply (average_ext _ (fun xs => f (put_at i x xs))); [apply without_at_Forall; assumption| |auto].
  intros xs I. apply E. apply (inside_without b i bi); assumption.
Qed.
Lemma total_effect_ext : forall b f g i v, proper b -> (forall x, inside b x -> f x = g x) -> total_effect b f i v -> total_effect b g i v.
Proof.
  intros b f g i v P E (bi & h & B & H & V). exists bi, h. split; [assumption|]. split; [|assumption].
  intros xs I. apply (variance_ext _ (fun l => f (put_at i (hd 0 l) xs))); [|intros l L|auto].
  - constructor; [apply (proper_nth b i); assumption|constructor].
  - apply inside_one in L. destruct L as (y & -> & Y). cbn [hd]. apply E. apply (inside_without b i bi); assumption.
Qed.

(** ** Effects of a product *)

Lemma prod_ones : forall n, prod (repeat 1 n) = 1.
Proof. induction n as [|n IH]; cbn; [reflexivity|]. rewrite IH. ring. Qed.

Section Product.
Variable b : box.
Variable gs : list (R -> R).
(** Means 1 and mean squares [qs]. *)
Variable qs : list R.
Hypothesis Hb : proper b.
Hypothesis Hl : length gs = length b.
Hypothesis H1 : Forall (fun ig => mean_of (fst ig) (snd ig) 1) (combine b gs).
Hypothesis H2 : Forall2 (fun ig q => mean_of (fst ig) (fun x => snd ig x ^ 2) q) (combine b gs) qs.

Lemma combine_map_r : forall A B C (f : B -> C) (l : list A) (l' : list B), combine l (map f l') = map (fun p => (fst p, f (snd p))) (combine l l').
Proof. intros A B C f. induction l as [|x l IH]; intros [|y l']; try reflexivity. cbn. rewrite IH. reflexivity. Qed.

Lemma means_ones : forall l : list ((R * R) * (R -> R)), Forall (fun ig => mean_of (fst ig) (snd ig) 1) l ->
  Forall2 (fun ig m => mean_of (fst ig) (snd ig) m) l (repeat 1 (length l)).
Proof. induction 1; cbn; constructor; assumption. Qed.
Lemma squares_map : forall (l : list ((R * R) * (R -> R))) ms, Forall2 (fun ig q => mean_of (fst ig) (fun x => snd ig x ^ 2) q) l ms ->
  Forall2 (fun ig m => mean_of (fst ig) (snd ig) m) (map (fun p => (fst p, fun v => snd p v ^ 2)) l) ms.
Proof. induction 1; cbn; constructor; assumption. Qed.

Lemma product_mean : average b (product gs) 1.
Proof.
  rewrite <- (prod_ones (length (combine b gs))). apply average_product; [assumption|assumption|]. apply means_ones. assumption.
Qed.
Lemma product_square : average b (fun x => product gs x ^ 2) (prod qs).
Proof.
  apply (average_ext b (product (map (fun g v => g v ^ 2) gs))); [assumption|intros; symmetry; apply product_sq|].
  apply average_product; [assumption|rewrite map_length; assumption|].
  rewrite combine_map_r. apply squares_map. assumption.
Qed.
Lemma product_variance : variance b (product gs) (prod qs - 1).
Proof.
  replace (prod qs - 1) with (prod qs - 1 ^ 2) by ring. apply variance_moments; [assumption|apply product_mean|apply product_square].
Qed.

Lemma combine_nth_some : forall A B (l : list A) (l' : list B) i x y, nth_error l i = Some x -> nth_error l' i = Some y -> nth_error (combine l l') i = Some (x, y).
Proof.
  intros A B. induction l as [|a l IH]; intros [|c l'] [|i] x y E F; try discriminate.
  - cbn in *. injection E as ->. injection F as ->. reflexivity.
  - cbn in *. apply IH; assumption.
Qed.

(** The other coordinates. *)
Lemma rest_facts : forall i, proper (without_at i b) /\ Forall (fun ig => mean_of (fst ig) (snd ig) 1) (combine (without_at i b) (without_at i gs))
  /\ Forall2 (fun ig q => mean_of (fst ig) (fun x => snd ig x ^ 2) q) (combine (without_at i b) (without_at i gs)) (without_at i qs).
Proof.
  intros i. split; [apply without_at_Forall; assumption|]. rewrite <- without_at_combine. split.
  - apply without_at_Forall. assumption.
  - apply without_at_Forall2. assumption.
Qed.

Lemma at_facts : forall i, (i < length b)%nat -> exists bi g q, nth_error b i = Some bi /\ nth_error gs i = Some g /\ nth_error qs i = Some q
  /\ mean_of bi g 1 /\ mean_of bi (fun x => g x ^ 2) q /\ fst bi < snd bi.
Proof.
  intros i L. destruct (nth_error b i) as [bi|] eqn:B; [|apply nth_error_None in B; lia].
  destruct (nth_error gs i) as [g|] eqn:G; [|apply nth_error_None in G; lia].
  assert (C := combine_nth_some _ _ _ _ _ _ _ B G).
  destruct (Forall2_nth_error _ _ _ _ _ _ _ H2 C) as (q & Q & M). exists bi, g, q. cbn [fst snd] in M.
  repeat split; try assumption.
  - rewrite Forall_forall in H1. apply (H1 (bi, g)). apply nth_error_In with i. assumption.
  - apply (proper_nth b i); assumption.
Qed.

Lemma one_moments : forall bi g q c, fst bi < snd bi -> mean_of bi g 1 -> mean_of bi (fun x => g x ^ 2) q ->
  variance [bi] (fun l => c * g (hd 0 l)) (c ^ 2 * (q - 1)).
Proof.
  intros [lo hi] g q c L M Q. cbn [fst snd] in *. unfold mean_of in *. cbn [fst snd] in *.
  assert (P : proper [(lo, hi)]) by (constructor; [assumption|constructor]).
  replace (c ^ 2 * (q - 1)) with (c ^ 2 * q - (c * 1) ^ 2) by ring. apply variance_moments; [assumption| |].
  - apply average_scal; [assumption|]. apply (average_one lo hi g); assumption.
  - apply (average_ext [(lo, hi)] (fun l => c ^ 2 * g (hd 0 l) ^ 2)); [assumption|intros; ring|].
    apply average_scal; [assumption|]. apply (average_one lo hi (fun x => g x ^ 2)); assumption.
Qed.

Lemma inside_length : forall (c : box) x, inside c x -> length x = length c.
Proof. induction 1; cbn; congruence. Qed.

Lemma product_first : forall i q, nth_error qs i = Some q -> (i < length b)%nat -> first_effect b (product gs) i (q - 1).
Proof.
  intros i q Q L. destruct (at_facts i L) as (bi & g & q' & B & G & Q' & M & S2 & Lt). rewrite Q in Q'. injection Q' as <-.
  destruct (rest_facts i) as (P & R1 & R2).
  exists bi, (fun x => 1 * g x). split; [assumption|]. split.
  - intros x X. apply (average_ext _ (fun xs => g x * product (without_at i gs) xs)); [assumption| |].
    + intros xs I. rewrite (product_put gs i x xs (fun _ => 1)).
      * rewrite (nth_error_nth gs i _ G). reflexivity.
      * lia.
      * rewrite (inside_length _ _ I), without_at_length; lia.
    + replace (1 * g x) with (g x * 1) by ring. apply average_scal; [assumption|].
      rewrite <- (prod_ones (length (combine (without_at i b) (without_at i gs)))).
      apply average_product; [assumption|rewrite !without_at_length; lia|]. apply means_ones. assumption.
  - replace (q - 1) with (1 ^ 2 * (q - 1)) by ring. apply one_moments; assumption.
Qed.

Lemma product_total : forall i q, nth_error qs i = Some q -> (i < length b)%nat ->
  total_effect b (product gs) i ((q - 1) * prod (without_at i qs)).
Proof.
  intros i q Q L. destruct (at_facts i L) as (bi & g & q' & B & G & Q' & M & S2 & Lt). rewrite Q in Q'. injection Q' as <-.
  destruct (rest_facts i) as (P & R1 & R2).
  exists bi, (fun xs => product (without_at i gs) xs ^ 2 * (q - 1)). split; [assumption|]. split.
  - intros xs I. apply (variance_ext [bi] (fun l => product (without_at i gs) xs * g (hd 0 l))).
    + constructor; [assumption|constructor].
    + intros l _. rewrite (product_put gs i (hd 0 l) xs (fun _ => 1)).
      * rewrite (nth_error_nth gs i _ G). ring.
      * lia.
      * rewrite (inside_length _ _ I), without_at_length; lia.
    + apply one_moments; assumption.
  - apply (average_ext _ (fun xs => (q - 1) * product (map (fun g v => g v ^ 2) (without_at i gs)) xs)); [assumption| |].
    + intros xs _. rewrite <- product_sq. ring.
    + apply average_scal; [assumption|]. apply average_product; [assumption|rewrite map_length, !without_at_length; lia|].
      rewrite combine_map_r. apply squares_map. assumption.
Qed.
End Product.
