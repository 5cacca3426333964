(** * Continuous functions on a box: closure, bounds, existence of averages, limits of grid means. *)
From Coq Require Import Reals String List Arith Lia Lra Psatz.
Require Coquelicot.RInt.
From Verif Require Import Base Stats SpecIntegral ProofsIntegral SpecExpect ProofsExpect SpecLimit ProofsPoincare ProofsPoincare2 ProofsLimit.
Import ListNotations.
Local Open Scope R_scope.

(** ** Closure *)
Lemma near_mono : forall d e x y, d <= e -> near d x y -> near e x y.
Proof. intros d e x y L H. induction H; constructor; auto. lra. Qed.
Lemma near_sym : forall d x y, near d x y -> near d y x.
Proof. intros d x y H. induction H; constructor; auto. rewrite Rabs_minus_sym. auto. Qed.

Lemma continuous_ext : forall b f g, (forall x, inside b x -> f x = g x) -> continuous_on b f -> continuous_on b g.
Proof. intros b f g E C eps He. destruct (C eps He) as (d & D & H). exists d. split; auto. intros x y X Y N. rewrite <- !E; auto. Qed.
Lemma continuous_const : forall b c, continuous_on b (fun _ => c).
Proof. intros b c eps He. exists 1. split; [lra|]. intros. rewrite Rminus_eq_0, Rabs_R0. lra. Qed.
Lemma continuous_lin : forall b f g l, continuous_on b f -> continuous_on b g -> continuous_on b (fun x => f x + l * g x).
Proof.
  intros b f g l F G eps He. pose proof (Rabs_pos l).
  destruct (F (eps / 2)) as (d1 & D1 & H1); [lra|].
  destruct (G (eps / (2 * (Rabs l + 1)))) as (d2 & D2 & H2); [apply Rdiv_lt_0_compat; lra|].
  exists (Rmin d1 d2). split; [apply Rmin_glb_lt; auto|]. intros x y X Y N.
  specialize (H1 x y X Y (near_mono _ _ _ _ (Rmin_l d1 d2) N)). specialize (H2 x y X Y (near_mono _ _ _ _ (Rmin_r d1 d2) N)).
  replace (f x + l * g x - (f y + l * g y)) with ((f x - f y) + l * (g x - g y)) by ring.
  eapply Rle_trans; [apply Rabs_triang|]. rewrite Rabs_mult.
  assert (Rabs l * Rabs (g x - g y) <= eps / 2); [|lra].
  apply Rle_trans with ((Rabs l + 1) * (eps / (2 * (Rabs l + 1)))); [apply Rmult_le_compat; try apply Rabs_pos; lra|]. right. field. lra.
Qed.
Lemma continuous_plus : forall b f g, continuous_on b f -> continuous_on b g -> continuous_on b (fun x => f x + g x).
Proof. intros b f g F G. apply (continuous_ext b (fun x => f x + 1 * g x)); [intros; ring|]. apply continuous_lin; auto. Qed.
Lemma continuous_minus : forall b f g, continuous_on b f -> continuous_on b g -> continuous_on b (fun x => f x - g x).
Proof. intros b f g F G. apply (continuous_ext b (fun x => f x + (-1) * g x)); [intros; ring|]. apply continuous_lin; auto. Qed.
Lemma continuous_scal : forall b c g, continuous_on b g -> continuous_on b (fun x => c * g x).
Proof. intros b c g G. apply (continuous_ext b (fun x => 0 + c * g x)); [intros; ring|]. apply (continuous_lin b (fun _ => 0)); auto. apply continuous_const. Qed.

(** A continuous function is bounded: walk to a point from a corner in steps of bounded length. *)
Fixpoint toward (t : R) (x y : list R) : list R :=
  match x, y with a :: x, c :: y => (a + t * (c - a)) :: toward t x y | _, _ => [] end.

Lemma toward_inside : forall t b x y, 0 <= t <= 1 -> inside b x -> inside b y -> inside b (toward t x y).
Proof.
  intros t b x y T X. revert y. induction X as [|i a b x Ha X IH]; intros y Y; inversion Y; subst; cbn [toward]; constructor; auto; [nra|]. apply IH. auto.
Qed.
Lemma toward_near : forall s t L b x y, inside b x -> inside b y -> Forall (fun i => snd i - fst i <= L) b -> Rabs (s - t) * L >= 0 ->
  near (Rabs (s - t) * L) (toward s x y) (toward t x y).
Proof.
  intros s t L b x y X. revert y. induction X as [|i a b x Ha X IH]; intros y Y W G; inversion Y; subst; cbn [toward]; constructor; auto.
  - inversion W; subst. replace (a + s * (y0 - a) - (a + t * (y0 - a))) with ((s - t) * (y0 - a)) by ring. rewrite Rabs_mult.
    apply Rmult_le_compat_l; [apply Rabs_pos|]. apply Rabs_le. lra.
  - apply IH; auto. inversion W; auto.
Qed.
Lemma toward_0 : forall b x y, inside b x -> inside b y -> toward 0 x y = x.
Proof. intros b x y X. revert y. induction X; intros y' Y; inversion Y; subst; cbn [toward]; auto. f_equal; [ring|auto]. Qed.
Lemma toward_1 : forall b x y, inside b x -> inside b y -> toward 1 x y = y.
Proof. intros b x y X. revert y. induction X; intros y' Y; inversion Y; subst; cbn [toward]; auto. f_equal; [ring|auto]. Qed.

Lemma corner_inside : forall b, proper b -> inside b (map fst b).
Proof. intros b P. induction P; constructor; auto. lra. Qed.

Lemma widths : forall b, proper b -> exists L, 0 < L /\ Forall (fun i => snd i - fst i <= L) b.
Proof.
  intros b P. induction P as [|i b Pi P (L & L0 & H)]; [exists 1; split; [lra|constructor]|].
  exists (Rmax L (snd i - fst i)). split; [eapply Rlt_le_trans; [exact L0|apply Rmax_l]|]. constructor; [apply Rmax_r|].
  revert H. apply Forall_impl. intros j Hj. eapply Rle_trans; [exact Hj|apply Rmax_l].
Qed.

Lemma continuous_bounded : forall b f, proper b -> continuous_on b f -> exists M, 0 < M /\ forall x, inside b x -> Rabs (f x) <= M.
Proof.
  intros b f P C. destruct (C 1 Rlt_0_1) as (d & D & H). destruct (widths b P) as (L & L0 & W).
  destruct (archimed_cor1 (d / L)) as (n & N1 & N0); [apply Rdiv_lt_0_compat; lra|].
  assert (PN : 0 < INR n) by (apply lt_0_INR; auto).
  exists (Rabs (f (map fst b)) + INR n + 1). split; [pose proof (Rabs_pos (f (map fst b))); lra|]. intros x X.
  pose proof (corner_inside b P) as K.
  assert (A : forall k, (k <= n)%nat -> Rabs (f (toward (INR k / INR n) (map fst b) x)) <= Rabs (f (map fst b)) + INR k).
  { induction k as [|k IH]; intros Hk.
    - simpl. unfold Rdiv. rewrite Rmult_0_l, (toward_0 b); auto. lra.
    - assert (0 <= INR k) by apply pos_INR. assert (IK : INR k + 1 <= INR n) by (rewrite <- S_INR; apply le_INR; auto). rewrite S_INR.
      assert (T1 : 0 <= INR k / INR n <= 1).
      { split; [apply Rmult_le_pos; auto; left; apply Rinv_0_lt_compat; auto|]. apply (Rmult_le_reg_r (INR n)); auto. unfold Rdiv. rewrite Rmult_assoc, Rinv_l by lra. lra. }
      assert (T2 : 0 <= (INR k + 1) / INR n <= 1).
      { split; [apply Rmult_le_pos; [lra|]; left; apply Rinv_0_lt_compat; auto|]. apply (Rmult_le_reg_r (INR n)); auto. unfold Rdiv. rewrite Rmult_assoc, Rinv_l by lra. lra. }
      assert (Q : Rabs (f (toward ((INR k + 1) / INR n) (map fst b) x) - f (toward (INR k / INR n) (map fst b) x)) <= 1).
      { apply H; [apply toward_inside; auto|apply toward_inside; auto|].
        assert (QE : Rabs ((INR k + 1) / INR n - INR k / INR n) = / INR n).
        { replace ((INR k + 1) / INR n - INR k / INR n) with (/ INR n) by (field; lra). apply Rabs_right. left. apply Rinv_0_lt_compat; auto. }
        assert (QP : 0 < / INR n) by (apply Rinv_0_lt_compat; auto).
        eapply near_mono; [|apply (toward_near _ _ L b); auto]; [|rewrite QE; nra].
        rewrite QE. apply (Rmult_le_reg_r (/ L)); [apply Rinv_0_lt_compat; auto|]. rewrite Rmult_assoc, Rinv_r by lra. unfold Rdiv in N1. lra. }
      specialize (IH ltac:(lia)). pose proof (Rabs_triang (f (toward ((INR k + 1) / INR n) (map fst b) x) - f (toward (INR k / INR n) (map fst b) x)) (f (toward (INR k / INR n) (map fst b) x))) as T.
      replace (f (toward ((INR k + 1) / INR n) (map fst b) x) - f (toward (INR k / INR n) (map fst b) x) + f (toward (INR k / INR n) (map fst b) x)) with (f (toward ((INR k + 1) / INR n) (map fst b) x)) in T by ring. lra. }
  specialize (A n (le_n n)). unfold Rdiv in A. rewrite Rinv_r in A by lra. rewrite (toward_1 b) in A by auto. lra.
Qed.

Lemma continuous_mult : forall b f g, proper b -> continuous_on b f -> continuous_on b g -> continuous_on b (fun x => f x * g x).
Proof.
  intros b f g P F G eps He. destruct (continuous_bounded b f P F) as (M & M0 & BM). destruct (continuous_bounded b g P G) as (K & K0 & BK).
  destruct (F (eps / (2 * K))) as (d1 & D1 & H1); [apply Rdiv_lt_0_compat; lra|].
  destruct (G (eps / (2 * M))) as (d2 & D2 & H2); [apply Rdiv_lt_0_compat; lra|].
  exists (Rmin d1 d2). split; [apply Rmin_glb_lt; auto|]. intros x y X Y N.
  specialize (H1 x y X Y (near_mono _ _ _ _ (Rmin_l d1 d2) N)). specialize (H2 x y X Y (near_mono _ _ _ _ (Rmin_r d1 d2) N)).
  replace (f x * g x - f y * g y) with (f x * (g x - g y) + (f x - f y) * g y) by ring.
  eapply Rle_trans; [apply Rabs_triang|]. rewrite !Rabs_mult.
  assert (Rabs (f x) * Rabs (g x - g y) <= M * (eps / (2 * M))) by (apply Rmult_le_compat; try apply Rabs_pos; auto).
  assert (Rabs (f x - f y) * Rabs (g y) <= eps / (2 * K) * K) by (apply Rmult_le_compat; try apply Rabs_pos; auto).
  replace (M * (eps / (2 * M))) with (eps / 2) in H by (field; lra). replace (eps / (2 * K) * K) with (eps / 2) in H0 by (field; lra). lra.
Qed.
Lemma continuous_square : forall b f, proper b -> continuous_on b f -> continuous_on b (fun x => f x ^ 2).
Proof. intros b f P F. apply (continuous_ext b (fun x => f x * f x)); [intros; ring|]. apply continuous_mult; auto. Qed.

(** Composition with a map that moves points of one box into the other without spreading them. *)
Lemma continuous_comp : forall b c f (m : list R -> list R), continuous_on b f -> (forall z, inside c z -> inside b (m z)) ->
  (forall d z z', inside c z -> inside c z' -> near d z z' -> near d (m z) (m z')) -> continuous_on c (fun z => f (m z)).
Proof. intros b c f m F I N eps He. destruct (F eps He) as (d & D & H). exists d. split; auto. Qed.

(** ** Averages exist *)
Definition clamp (lo hi x : R) : R := Rmax lo (Rmin x hi).
Lemma clamp_in : forall lo hi x, lo <= hi -> lo <= clamp lo hi x <= hi.
Proof. intros. unfold clamp. split; [apply Rmax_l|]. apply Rmax_lub; auto. apply Rmin_r. Qed.
Lemma clamp_id : forall lo hi x, lo <= x <= hi -> clamp lo hi x = x.
Proof. intros. unfold clamp. rewrite Rmin_left by lra. apply Rmax_right. lra. Qed.
Lemma clamp_near : forall lo hi x y, lo <= hi -> Rabs (clamp lo hi x - clamp lo hi y) <= Rabs (x - y).
Proof.
  intros lo hi x y L. unfold clamp, Rmax, Rmin. repeat destruct Rle_dec; apply Rabs_le; pose proof (Rle_abs (x - y)); pose proof (Rle_abs (y - x)); rewrite (Rabs_minus_sym y x) in *; lra.
Qed.

Fixpoint avg (b : box) (f : list R -> R) : R :=
  match b with
  | [] => f []
  | (lo, hi) :: r => @Coquelicot.RInt.RInt Coquelicot.Hierarchy.R_CompleteNormedModule (fun x => avg r (fun xs => f (clamp lo hi x :: xs))) lo hi / (hi - lo)
  end.

Lemma avg_ok : forall b f, proper b -> continuous_on b f -> average b f (avg b f).
Proof.
  induction b as [|(lo, hi) b IH]; intros f P C; [reflexivity|]. inversion P as [|? ? Pi Pb]; subst. simpl in Pi.
  assert (CX : forall x, continuous_on b (fun xs => f (clamp lo hi x :: xs))).
  { intros x eps He. destruct (C eps He) as (d & D & H). exists d. split; auto. intros a c Ha Hc N.
    pose proof (clamp_in lo hi x ltac:(lra)). apply H; constructor; auto. rewrite Rminus_eq_0, Rabs_R0. lra. }
  set (h := fun x => avg b (fun xs => f (clamp lo hi x :: xs))).
  assert (HC : forall x, lo <= x <= hi -> continuity_pt h x).
  { intros x Hx eps He. destruct (C (eps / 2)) as (d & D & H); [lra|]. exists d. split; auto. intros y (_ & Hy). simpl in *. unfold R_dist in *.
    apply Rle_lt_trans with (eps / 2); [|lra].
    apply (average_near b (fun xs => f (clamp lo hi y :: xs)) (fun xs => f (clamp lo hi x :: xs))); [auto| |apply IH; auto|apply IH; auto].
    intros xs Hxs. pose proof (clamp_in lo hi x ltac:(lra)). pose proof (clamp_in lo hi y ltac:(lra)). apply H; constructor; auto; [|apply near_refl; lra].
    eapply Rle_trans; [apply clamp_near; lra|lra]. }
  exists h. split.
  - intros x Hx. apply (average_ext b (fun xs => f (clamp lo hi x :: xs))); auto; [|apply IH; auto]. intros. rewrite clamp_id; auto.
  - cbn [avg]. fold h. unfold Rdiv. rewrite Rmult_assoc, Rinv_l, Rmult_1_r by lra.
    destruct (integral_continuous h lo hi ltac:(lra) HC) as (v & pr & E). exists pr. symmetry. apply Coquelicot.RInt.RInt_Reals.
Qed.

(** ** Limits of grid means *)
Lemma grid_eventually : forall b d, proper b -> 0 < d -> exists n0, forall n, (n0 <= n)%nat -> Forall (fun i => (snd i - fst i) / INR (S n) <= d) b.
Proof.
  intros b d P D. destruct (widths b P) as (L & L0 & W). destruct (archimed_cor1 (d / L)) as (n0 & N1 & N0); [apply Rdiv_lt_0_compat; lra|].
  exists n0. intros n Hn. revert W. apply Forall_impl. intros i Hi.
  assert (0 < INR n0) by (apply lt_0_INR; auto). assert (INR n0 <= INR (S n)) by (apply le_INR; lia).
  apply Rle_trans with (L / INR (S n)); [apply Rmult_le_compat_r; auto; left; apply Rinv_0_lt_compat; lra|].
  apply Rle_trans with (L * / INR n0); [apply Rmult_le_compat_l; [lra|apply Rinv_le_contravar; lra]|].
  apply (Rmult_le_reg_l (/ L)); [apply Rinv_0_lt_compat; auto|]. rewrite <- Rmult_assoc, Rinv_l, Rmult_1_l by lra. unfold Rdiv in N1. lra.
Qed.

(** Functions that converge uniformly on the box. *)
Definition uconv (b : box) (g : nat -> list R -> R) (h : list R -> R) : Prop :=
  forall eps, 0 < eps -> exists n0, forall n x, (n0 <= n)%nat -> inside b x -> Rabs (g n x - h x) <= eps.

Lemma uconv_same : forall b h, uconv b (fun _ => h) h.
Proof. intros b h eps He. exists O. intros. rewrite Rminus_eq_0, Rabs_R0. lra. Qed.
Lemma uconv_const : forall b c l, Un_cv c l -> uconv b (fun n _ => c n) (fun _ => l).
Proof. intros b c l C eps He. destruct (C eps He) as (n0 & H). exists n0. intros n x Hn _. specialize (H n Hn). unfold R_dist in H. lra. Qed.
Lemma uconv_minus : forall b g h g' h', uconv b g h -> uconv b g' h' -> uconv b (fun n x => g n x - g' n x) (fun x => h x - h' x).
Proof.
  intros b g h g' h' A B eps He. destruct (A (eps / 2)) as (n1 & H1); [lra|]. destruct (B (eps / 2)) as (n2 & H2); [lra|].
  exists (n1 + n2)%nat. intros n x Hn X. specialize (H1 n x ltac:(lia) X). specialize (H2 n x ltac:(lia) X).
  apply Rabs_le_between in H1. apply Rabs_le_between in H2. apply Rabs_le. lra.
Qed.
Lemma uconv_mult : forall b g h g' h', proper b -> continuous_on b h -> continuous_on b h' -> uconv b g h -> uconv b g' h' ->
  uconv b (fun n x => g n x * g' n x) (fun x => h x * h' x).
Proof.
  intros b g h g' h' P C C' A B eps He. destruct (continuous_bounded b h P C) as (M & M0 & BM). destruct (continuous_bounded b h' P C') as (K & K0 & BK).
  destruct (A (Rmin 1 (eps / (2 * (K + 1))))) as (n1 & H1); [apply Rmin_glb_lt; [lra|apply Rdiv_lt_0_compat; lra]|].
  destruct (B (Rmin 1 (eps / (2 * (M + 1))))) as (n2 & H2); [apply Rmin_glb_lt; [lra|apply Rdiv_lt_0_compat; lra]|].
  exists (n1 + n2)%nat. intros n x Hn X. specialize (H1 n x ltac:(lia) X). specialize (H2 n x ltac:(lia) X).
  assert (H1a := Rle_trans _ _ _ H1 (Rmin_l _ _)). assert (H1b := Rle_trans _ _ _ H1 (Rmin_r _ _)).
  assert (H2a := Rle_trans _ _ _ H2 (Rmin_l _ _)). assert (H2b := Rle_trans _ _ _ H2 (Rmin_r _ _)).
  replace (g n x * g' n x - h x * h' x) with ((g n x - h x) * g' n x + h x * (g' n x - h' x)) by ring.
  eapply Rle_trans; [apply Rabs_triang|]. rewrite !Rabs_mult. specialize (BM x X). specialize (BK x X).
  assert (GK : Rabs (g' n x) <= K + 1).
  { replace (g' n x) with ((g' n x - h' x) + h' x) by ring. eapply Rle_trans; [apply Rabs_triang|]. lra. }
  assert (Rabs (g n x - h x) * Rabs (g' n x) <= eps / (2 * (K + 1)) * (K + 1)) by (apply Rmult_le_compat; try apply Rabs_pos; auto).
  assert (Rabs (h x) * Rabs (g' n x - h' x) <= (M + 1) * (eps / (2 * (M + 1)))) by (apply Rmult_le_compat; try apply Rabs_pos; lra).
  replace (eps / (2 * (K + 1)) * (K + 1)) with (eps / 2) in H by (field; lra). replace ((M + 1) * (eps / (2 * (M + 1)))) with (eps / 2) in H0 by (field; lra). lra.
Qed.

Lemma grid_limit : forall b g h v, proper b -> continuous_on b h -> uconv b g h -> average b h v -> Un_cv (fun n => expect (grid (S n) b) (g n)) v.
Proof.
  intros b g h v P C U A eps He. set (L := INR (length b) + 1). assert (L1 : 1 <= L) by (unfold L; pose proof (pos_INR (length b)); lra).
  destruct (C (eps / (4 * L))) as (d & D & H); [apply Rdiv_lt_0_compat; lra|].
  destruct (grid_eventually b d P D) as (n1 & N1). destruct (U (eps / 4)) as (n2 & N2); [lra|].
  exists (n1 + n2)%nat. intros n Hn. unfold R_dist.
  assert (A1 : Rabs (expect (grid (S n) b) h - v) <= INR (length b) * (eps / (4 * L))).
  { apply (grid_near (S n) b h v d); auto; try lia; try lra. - left. apply Rdiv_lt_0_compat; lra. - apply N1. lia. }
  assert (A2 : Rabs (expect (grid (S n) b) (g n) - expect (grid (S n) b) h) <= eps / 4).
  { apply expect_grid_near; auto; [lia|]. intros x X. apply N2; auto. lia. }
  assert (A3 : INR (length b) * (eps / (4 * L)) <= eps / 4).
  { apply Rle_trans with (L * (eps / (4 * L))); [apply Rmult_le_compat_r; [left; apply Rdiv_lt_0_compat; lra|unfold L; lra]|]. right. field. lra. }
  replace (expect (grid (S n) b) (g n) - v) with ((expect (grid (S n) b) (g n) - expect (grid (S n) b) h) + (expect (grid (S n) b) h - v)) by ring.
  eapply Rle_lt_trans; [apply Rabs_triang|]. lra.
Qed.
Lemma grid_cv : forall b h v, proper b -> continuous_on b h -> average b h v -> Un_cv (fun n => expect (grid (S n) b) h) v.
Proof. intros b h v P C A. apply (grid_limit b (fun _ => h) h); auto. apply uconv_same. Qed.

(** Means over one of two points, uniformly in the other. *)
Lemma inner_limit : forall b (K : list R -> list R -> R) h, proper b ->
  (forall eps, 0 < eps -> exists d, 0 < d /\ forall x y y', inside b x -> inside b y -> inside b y' -> near d y y' -> Rabs (K x y - K x y') <= eps) ->
  (forall x, inside b x -> average b (K x) (h x)) -> uconv b (fun n x => expect (grid (S n) b) (K x)) h.
Proof.
  intros b K h P C A eps He. set (L := INR (length b) + 1). assert (L1 : 1 <= L) by (unfold L; pose proof (pos_INR (length b)); lra).
  destruct (C (eps / L)) as (d & D & H); [apply Rdiv_lt_0_compat; lra|]. destruct (grid_eventually b d P D) as (n1 & N1).
  exists n1. intros n x Hn X.
  assert (A1 : Rabs (expect (grid (S n) b) (K x) - h x) <= INR (length b) * (eps / L)).
  { apply (grid_near (S n) b (K x) (h x) d); auto; try lia; try lra. - left. apply Rdiv_lt_0_compat; lra. - intros y y' Y Y' N. apply H; auto. }
  eapply Rle_trans; [exact A1|]. apply Rle_trans with (L * (eps / L)); [apply Rmult_le_compat_r; [left; apply Rdiv_lt_0_compat; lra|unfold L; lra]|]. right. field. lra.
Qed.
