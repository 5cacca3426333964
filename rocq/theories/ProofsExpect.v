(** * Laws of expectations; identities behind the Sobol' estimators. *)
From Coq Require Import Reals List Arith Bool Lia Lra.
From Verif Require Import Base ModelScale Stats SpecExpect.
Import ListNotations.
Local Open Scope R_scope.

Section Expect.
Context {A : Type}.
Implicit Types (ds : list (@law A)) (f g : list A -> R) (u w : nat -> bool).

Lemma expect_cons : forall d ds f, expect (d :: ds) f = Rsum (map (fun vw => snd vw * expect ds (fun x => f (fst vw :: x))) d).
Proof. reflexivity. Qed.

Lemma expect_ext : forall ds f g, (forall x, length x = length ds -> f x = g x) -> expect ds f = expect ds g.
Proof.
  induction ds as [|d ds IH]; intros f g H; [apply H; reflexivity|]. rewrite !expect_cons. apply Rsum_ext. intros vw _. f_equal. apply IH.
  intros x L. apply H. cbn [length]. congruence.
Qed.
Lemma expect_plus : forall ds f g, expect ds (fun x => f x + g x) = expect ds f + expect ds g.
Proof.
  induction ds as [|d ds IH]; intros f g; [reflexivity|]. rewrite !expect_cons, <- Rsum_map_plus. apply Rsum_ext. intros vw _. rewrite IH. ring.
Qed.
Lemma expect_scal : forall ds c f, expect ds (fun x => c * f x) = c * expect ds f.
Proof.
  induction ds as [|d ds IH]; intros c f; [reflexivity|]. rewrite !expect_cons, <- Rsum_map_scal. apply Rsum_ext. intros vw _. rewrite IH. ring.
Qed.
Lemma expect_minus : forall ds f g, expect ds (fun x => f x - g x) = expect ds f - expect ds g.
Proof.
  intros. unfold Rminus. rewrite expect_plus. f_equal. rewrite <- (Rmult_1_l (expect ds g)), Ropp_mult_distr_l, <- expect_scal.
  apply expect_ext. intros. ring.
Qed.
Lemma expect_const : forall ds c, Forall probability ds -> expect ds (fun _ => c) = c.
Proof.
  induction ds as [|d ds IH]; intros c P; [reflexivity|]. inversion P as [|? ? (P1 & P2) P3]; subst. rewrite expect_cons.
  transitivity (Rsum (map (fun vw => c * snd vw) d)).
  { apply Rsum_ext. intros vw _. rewrite IH by assumption. ring. }
  rewrite Rsum_map_scal. unfold total_weight in P2. change (fold_right Rplus 0) with Rsum in P2. rewrite P2. ring.
Qed.
Lemma expect_Rsum : forall B ds (F : B -> list A -> R) l, expect ds (fun x => Rsum (map (fun i => F i x) l)) = Rsum (map (fun i => expect ds (F i)) l).
Proof.
  intros B ds F. induction l as [|i l IH].
  - cbn [map]. change (Rsum []) with 0. rewrite <- (expect_ext ds (fun _ => 0 * 0)); [rewrite expect_scal; ring|]. intros. ring.
  - cbn [map]. change (Rsum (expect ds (F i) :: map (fun i => expect ds (F i)) l)) with (expect ds (F i) + Rsum (map (fun i => expect ds (F i)) l)).
    rewrite <- IH, <- expect_plus. apply expect_ext. reflexivity.
Qed.
Lemma expect_swap : forall ds (es : list (@law A)) (G : list A -> list A -> R), expect ds (fun x => expect es (G x)) = expect es (fun y => expect ds (fun x => G x y)).
Proof.
  induction ds as [|d ds IH]; intros es G; [reflexivity|]. rewrite expect_cons.
  rewrite (expect_ext es (fun y => expect (d :: ds) (fun x => G x y)) (fun y => Rsum (map (fun vw => snd vw * expect ds (fun x => G (fst vw :: x) y)) d)))
    by reflexivity.
  rewrite (expect_Rsum _ es (fun vw y => snd vw * expect ds (fun x => G (fst vw :: x) y))). apply Rsum_ext. intros vw _. rewrite IH, expect_scal. reflexivity.
Qed.
Lemma expect_app : forall ds es f, expect (ds ++ es) f = expect ds (fun x => expect es (fun y => f (x ++ y))).
Proof.
  induction ds as [|d ds IH]; intros es f; [reflexivity|]. cbn [app]. rewrite !expect_cons. apply Rsum_ext. intros vw _. rewrite IH. reflexivity.
Qed.
Lemma expect_nonneg : forall ds f, Forall probability ds -> (forall x, length x = length ds -> 0 <= f x) -> 0 <= expect ds f.
Proof.
  induction ds as [|d ds IH]; intros f P H; [apply H; reflexivity|]. inversion P as [|? ? (P1 & P2) P3]; subst. rewrite expect_cons.
  apply Rsum_nonneg. intros z Z. apply in_map_iff in Z as ([v w] & <- & I). cbn [fst snd]. apply Rmult_le_pos; [apply (P1 v); assumption|].
  apply IH; [assumption|]. intros x L. apply H. cbn [length]. congruence.
Qed.

Lemma variance_alt : forall ds f, Forall probability ds -> variance ds f = expect ds (fun x => f x ^ 2) - expect ds f ^ 2.
Proof.
  intros ds f P. unfold variance. set (m := expect ds f).
  rewrite (expect_ext ds _ (fun x => f x ^ 2 - (2 * m * f x - m ^ 2))) by (intros; ring).
  rewrite expect_minus. rewrite (expect_minus ds (fun x => 2 * m * f x) (fun _ => m ^ 2)). rewrite expect_scal, expect_const by assumption. fold m. ring.
Qed.

Lemma mix_length : forall u (x y : list A), length x = length y -> length (mix u x y) = length x.
Proof. intros u x. revert u. induction x as [|a x IH]; intros u [|b y] L; try discriminate; [reflexivity|]. cbn. rewrite IH; [reflexivity|]. cbn in L. congruence. Qed.

Lemma Rsum_swap : forall B C (K : B -> C -> R) l l2, Rsum (map (fun v => Rsum (map (K v) l2)) l) = Rsum (map (fun v' => Rsum (map (fun v => K v v') l)) l2).
Proof.
  intros B C K l l2. induction l as [|a l IH].
  - cbn [map]. change (Rsum []) with 0. symmetry. rewrite (Rsum_const _ 0 l2). ring.
  - cbn [map]. change (Rsum (Rsum (map (K a) l2) :: map (fun v => Rsum (map (K v) l2)) l)) with (Rsum (map (K a) l2) + Rsum (map (fun v => Rsum (map (K v) l2)) l)).
    rewrite IH, <- Rsum_map_plus. reflexivity.
Qed.

(** Exchanging inputs between two independent copies changes nothing. *)
Lemma expect_exchange : forall ds u (G : list A -> list A -> R),
  expect ds (fun x => expect ds (fun y => G (mix u x y) (mix u y x))) = expect ds (fun x => expect ds (fun y => G x y)).
Proof.
  induction ds as [|d ds IH]; intros u G; [reflexivity|].
  assert (E : forall H : list A -> list A -> R, expect (d :: ds) (fun x => expect (d :: ds) (H x))
    = Rsum (map (fun v => Rsum (map (fun v' => snd v * snd v' * expect ds (fun x => expect ds (fun y => H (fst v :: x) (fst v' :: y)))) d)) d)).
  { intros H. rewrite expect_cons. apply Rsum_ext. intros v _.
    rewrite (expect_ext ds _ (fun x => Rsum (map (fun v' => snd v' * expect ds (fun y => H (fst v :: x) (fst v' :: y))) d))) by reflexivity.
    rewrite (expect_Rsum _ ds (fun v' x => snd v' * expect ds (fun y => H (fst v :: x) (fst v' :: y)))). rewrite <- Rsum_map_scal. apply Rsum_ext. intros v' _.
    rewrite expect_scal. ring. }
  rewrite !E. cbn [mix]. destruct (u 0%nat).
  - apply Rsum_ext. intros v _. apply Rsum_ext. intros v' _. f_equal.
    exact (IH (fun j => u (S j)) (fun x y => G (fst v :: x) (fst v' :: y))).
  - assert (W : forall (K : A * R -> A * R -> R), Rsum (map (fun v => Rsum (map (K v) d)) d) = Rsum (map (fun v' => Rsum (map (fun v => K v v') d)) d)).
    { intros K. apply Rsum_swap. }
    rewrite W. apply Rsum_ext. intros v _. apply Rsum_ext. intros v' _. rewrite (Rmult_comm (snd v')). f_equal.
    exact (IH (fun j => u (S j)) (fun x y => G (fst v :: x) (fst v' :: y))).
Qed.
Lemma expect_mix : forall ds u f, Forall probability ds -> expect ds (fun x => expect ds (fun y => f (mix u x y))) = expect ds f.
Proof.
  intros ds u f P. rewrite (expect_exchange ds u (fun x _ => f x)). apply expect_ext. intros. apply expect_const. assumption.
Qed.

Lemma mix_mix : forall u (x y z : list A), length x = length y -> length y = length z -> mix u (mix u x z) y = mix u x y.
Proof.
  intros u x. revert u. induction x as [|a x IH]; intros u [|b y] [|c z] L1 L2; try discriminate; [reflexivity|]. cbn in *. rewrite IH by congruence.
  destruct (u 0%nat); reflexivity.
Qed.

(** The product of [f] at two points that share the inputs [u]. *)
Lemma expect_shared : forall ds f u, Forall probability ds ->
  expect ds (fun x => conditional ds f u x ^ 2) = expect ds (fun x => expect ds (fun y => f x * f (mix u x y))).
Proof.
  intros ds f u P. set (h := fun x => expect ds (fun y => f x * f (mix u x y))).
  change (expect ds (fun x => conditional ds f u x ^ 2) = expect ds h). rewrite <- (expect_mix ds u h P). apply expect_ext. intros x Lx.
  unfold h, conditional. transitivity (expect ds (fun z => expect ds (fun y => f (mix u x y)) * f (mix u x z))).
  { rewrite expect_scal. ring. }
  apply expect_ext. intros z Lz. rewrite expect_scal, Rmult_comm. f_equal. apply expect_ext. intros y Ly. rewrite mix_mix; congruence.
Qed.
Lemma expect_conditional : forall ds f u, Forall probability ds -> expect ds (conditional ds f u) = expect ds f.
Proof. intros. apply expect_mix. assumption. Qed.
Lemma closed_alt : forall ds f u, Forall probability ds ->
  closed_effect ds f u = expect ds (fun x => expect ds (fun y => f x * f (mix u x y))) - expect ds f ^ 2.
Proof. intros ds f u P. unfold closed_effect. rewrite variance_alt by assumption. rewrite expect_shared, expect_conditional by assumption. reflexivity. Qed.

Lemma expect_product : forall ds f g, expect ds (fun x => expect ds (fun y => f x * g y)) = expect ds f * expect ds g.
Proof.
  intros ds f g. rewrite (expect_ext ds _ (fun x => expect ds g * f x)); [rewrite expect_scal; ring|]. intros x _. rewrite expect_scal. ring.
Qed.

(** Two independent points. *)
Definition expect2 ds (G : list A -> list A -> R) : R := expect ds (fun x => expect ds (G x)).
Lemma expect2_ext : forall ds G H, (forall x y, length x = length ds -> length y = length ds -> G x y = H x y) -> expect2 ds G = expect2 ds H.
Proof. intros ds G H E. apply expect_ext. intros x L. apply expect_ext. intros y L'. apply E; assumption. Qed.
Lemma expect2_plus : forall ds G H, expect2 ds (fun x y => G x y + H x y) = expect2 ds G + expect2 ds H.
Proof. intros. unfold expect2. rewrite <- expect_plus. apply expect_ext. intros. apply expect_plus. Qed.
Lemma expect2_minus : forall ds G H, expect2 ds (fun x y => G x y - H x y) = expect2 ds G - expect2 ds H.
Proof. intros. unfold expect2. rewrite <- expect_minus. apply expect_ext. intros. apply expect_minus. Qed.
Lemma expect2_scal : forall ds c G, expect2 ds (fun x y => c * G x y) = c * expect2 ds G.
Proof. intros. unfold expect2. rewrite <- expect_scal. apply expect_ext. intros. apply expect_scal. Qed.
Lemma expect2_swap : forall ds G, expect2 ds G = expect2 ds (fun x y => G y x).
Proof. intros. unfold expect2. apply expect_swap. Qed.
Lemma expect2_fst : forall ds f, Forall probability ds -> expect2 ds (fun x _ => f x) = expect ds f.
Proof. intros. apply expect_ext. intros. apply expect_const. assumption. Qed.
Lemma expect2_snd : forall ds f, Forall probability ds -> expect2 ds (fun _ y => f y) = expect ds f.
Proof. intros ds f P. unfold expect2. exact (expect_const ds (expect ds f) P). Qed.
Lemma expect2_exchange : forall ds u G, expect2 ds (fun x y => G (mix u x y) (mix u y x)) = expect2 ds G.
Proof. intros. apply expect_exchange. Qed.
Lemma expect2_mix : forall ds u f, Forall probability ds -> expect2 ds (fun x y => f (mix u x y)) = expect ds f.
Proof. intros. apply expect_mix. assumption. Qed.
Lemma expect2_product : forall ds f g, expect2 ds (fun x y => f x * g y) = expect ds f * expect ds g.
Proof. intros. apply expect_product. Qed.
Lemma closed_alt2 : forall ds f u, Forall probability ds -> closed_effect ds f u = expect2 ds (fun x y => f x * f (mix u x y)) - expect ds f ^ 2.
Proof. intros. apply closed_alt. assumption. Qed.

(** Saltelli's first-order term: [a], [b] and [a] with the inputs [u] of [b]. *)
Lemma first_identity : forall ds f u c, Forall probability ds ->
  expect2 ds (fun a b => (f b - c) * (f (mix u b a) - f a)) = closed_effect ds f u.
Proof.
  intros ds f u c P. rewrite closed_alt2, expect2_swap by assumption.
  rewrite (expect2_ext ds _ (fun b a => f b * f (mix u b a) - f b * f a - c * (f (mix u b a) - f a))) by (intros; ring).
  rewrite (expect2_minus ds (fun b a => f b * f (mix u b a) - f b * f a)), (expect2_minus ds (fun b a => f b * f (mix u b a))).
  rewrite expect2_scal, (expect2_minus ds (fun b a => f (mix u b a)) (fun b a => f a)).
  rewrite expect2_mix, expect2_snd, expect2_product by assumption. ring.
Qed.

(** Jansen's total-order term. *)
Lemma mix_self : forall u (x : list A), mix u x x = x.
Proof. intros u x. revert u. induction x as [|a x IH]; intros u; [reflexivity|]. cbn. rewrite IH. destruct (u 0%nat); reflexivity. Qed.
Lemma total_identity : forall ds f u, Forall probability ds ->
  expect2 ds (fun a b => (f a - f (mix u b a)) ^ 2) = 2 * total_effect ds f u.
Proof.
  intros ds f u P.
  assert (T : total_effect ds f u = expect ds (fun x => f x ^ 2) - expect ds (fun x => expect ds (fun y => f (mix u y x)) ^ 2)).
  { unfold total_effect. rewrite (expect_ext ds _ (fun x => expect ds (fun y => f (mix u y x) ^ 2) - expect ds (fun y => f (mix u y x)) ^ 2))
      by (intros; apply variance_alt; assumption).
    rewrite expect_minus. f_equal. change (expect2 ds (fun x y => f (mix u y x) ^ 2) = expect ds (fun x => f x ^ 2)). rewrite expect2_swap.
    apply (expect2_mix ds u (fun x => f x ^ 2)). assumption. }
  assert (N : forall x y : list A, length x = length y -> mix u y x = mix (fun j => negb (u j)) x y).
  { clear. revert u. intros u x. revert u. induction x as [|a x IH]; intros u [|b y] L; try discriminate; [reflexivity|]. cbn in *.
    rewrite (IH (fun j => u (S j)) y) by congruence. destruct (u 0%nat); reflexivity. }
  assert (K : expect ds (fun x => expect ds (fun y => f (mix u y x)) ^ 2) = expect2 ds (fun x y => f x * f (mix u y x))).
  { rewrite (expect_ext ds _ (fun x => conditional ds f (fun j => negb (u j)) x ^ 2)).
    2:{ intros x L. unfold conditional. f_equal. apply expect_ext. intros y L'. rewrite N; congruence. }
    rewrite expect_shared by assumption. apply expect2_ext. intros x y L L'. rewrite N; congruence. }
  rewrite T, K. rewrite (expect2_ext ds _ (fun a b => f a ^ 2 + f (mix u b a) ^ 2 - 2 * (f a * f (mix u b a)))) by (intros; ring).
  rewrite (expect2_minus ds (fun a b => f a ^ 2 + f (mix u b a) ^ 2)), expect2_plus, expect2_scal.
  rewrite (expect2_fst ds (fun a => f a ^ 2)) by assumption. rewrite (expect2_swap ds (fun a b => f (mix u b a) ^ 2)).
  rewrite (expect2_mix ds u (fun x => f x ^ 2)) by assumption. ring.
Qed.

(** The second-order term: [b] with [u] of [a], and [a] with [w] of [b]. *)
Lemma mix_two : forall u w (x y : list A), (forall j, u j = true -> w j = false) -> length x = length y ->
  mix w (mix u y x) (mix u x y) = mix (fun j => u j || w j) x y.
Proof.
  intros u w x. revert u w. induction x as [|a x IH]; intros u w [|b y] D L; try discriminate; [reflexivity|]. cbn in *.
  rewrite IH; [|intros j; apply D|congruence]. f_equal. specialize (D 0%nat). destruct (u 0%nat), (w 0%nat); try reflexivity. discriminate (D eq_refl).
Qed.
Lemma second_identity : forall ds f u w c, Forall probability ds -> (forall j, u j = true -> w j = false) ->
  expect2 ds (fun a b => (f (mix u a b) - c) * (f (mix w b a) - c) - (f a - c) * (f b - c))
  = closed_effect ds f (fun j => u j || w j).
Proof.
  intros ds f u w c P D. rewrite closed_alt2 by assumption.
  rewrite (expect2_ext ds _ (fun a b => f (mix u a b) * f (mix w b a) - c * f (mix u a b) - c * f (mix w b a) - (f a * f b - c * f a - c * f b)))
    by (intros; ring).
  rewrite !(expect2_minus ds). rewrite !expect2_scal. rewrite expect2_mix, expect2_fst, expect2_snd, expect2_product by assumption.
  rewrite (expect2_swap ds (fun a b => f (mix w b a))), expect2_mix by assumption.
  rewrite <- (expect2_exchange ds u (fun x y => f (mix u x y) * f (mix w y x))).
  rewrite (expect2_ext ds _ (fun x y => f x * f (mix (fun j => u j || w j) x y))); [ring|].
  intros x y Lx Ly. rewrite (mix_two u w) by (congruence || assumption). f_equal. f_equal.
  rewrite <- (mix_self u x) at 2. clear -Lx Ly. revert u y Ly. revert Lx. generalize (length ds). induction x as [|a x IH]; intros n Lx u [|b y] Ly; try (cbn in *; congruence).
  cbn in *. destruct n; [discriminate|]. rewrite (IH n) by congruence. destruct (u 0%nat); reflexivity.
Qed.
End Expect.
