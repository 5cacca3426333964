(** * The mean and the variance of averages over a shuffled grid. *)
From Coq Require Import Reals List Arith Lia Lra Permutation Factorial.
From Verif Require Import Base Arrays ListFacts Stats Sums SpecExpect SpecMorris2 SpecLatin2 ProofsExpect ProofsMorris12 ProofsLatin2.
Import ListNotations.
Local Open Scope R_scope.

(** The cells of row [s]. *)
Definition cells (s : nat) (ps : list (list nat)) : list nat := map (fun p => nth s p 0%nat) ps.

Lemma arrangements_length : forall N, length (arrangements (seq 0 N)) = fact N.
Proof. intros N. unfold arrangements. rewrite seq_length. apply arrange_length. apply seq_length. Qed.
Lemma arrangements_nonempty : forall N, arrangements (seq 0 N) <> [].
Proof. intros N E. pose proof (arrangements_length N) as L. rewrite E in L. pose proof (lt_O_fact N). cbn in L. lia. Qed.
Lemma shuffles_probability : forall N G, Forall probability (shuffles N G).
Proof. intros N G. apply Forall_forall. intros l I. apply repeat_spec in I. subst l. apply uniform_probability, arrangements_nonempty. Qed.

Lemma uniform_cells : forall N (g : nat -> R) s, (s < N)%nat ->
  / INR (length (arrangements (seq 0 N))) * Rsum (map (fun p => g (nth s p 0%nat)) (arrangements (seq 0 N))) = / INR N * Rsum (map g (seq 0 N)).
Proof.
  intros N g s Sb. destruct N as [|n]; [lia|]. rewrite arrangements_length. unfold arrangements. rewrite seq_length.
  rewrite (one_position nat 0%nat n (seq 0 (S n)) s g (seq_length _ _)) by lia. change (fact (S n)) with (S n * fact n)%nat. rewrite mult_INR.
  pose proof (not_0_INR _ (fact_neq_0 n)). assert (INR (S n) <> 0) by (apply not_0_INR; lia). field. split; assumption.
Qed.

(** Every row is uniformly distributed over the cells. *)
Theorem row_law : forall N G s (F : list nat -> R), (s < N)%nat -> expect (shuffles N G) (fun ps => F (cells s ps)) = expect (grid_law N G) F.
Proof.
  intros N G s. unfold shuffles, grid_law. induction G as [|G IH]; intros F Sb; [reflexivity|]. cbn [repeat]. rewrite !uniform_expect.
  rewrite seq_length. rewrite (Rsum_ext _ _ (fun p => expect (repeat (uniform (seq 0 N)) G) (fun x => F (nth s p 0%nat :: x)))).
  - apply (uniform_cells N (fun k => expect (repeat (uniform (seq 0 N)) G) (fun x => F (k :: x))) s Sb).
  - intros p _. cbn [cells map]. apply (IH (fun x => F (nth s p 0%nat :: x)) Sb).
Qed.

(** Two rows. *)
Section Two.
Variables (N : nat).
Hypothesis HN : (2 <= N)%nat.

Definition both (G : nat) (f h : list nat -> R) : R := expect (shuffles N G) (fun ps => f (cells 0 ps) * h (cells 1 ps)).

Lemma N_pos : INR N > 0 /\ INR N - 1 > 0.
Proof. assert (2 <= INR N) by (change 2 with (INR 2); apply le_INR; exact HN). lra. Qed.

Lemma pairs_uniform : forall (g : nat -> nat -> R) s t, (s < N)%nat -> (t < N)%nat -> s <> t ->
  / INR (length (arrangements (seq 0 N))) * Rsum (map (fun p => g (nth s p 0%nat) (nth t p 0%nat)) (arrangements (seq 0 N)))
  = / (INR N * (INR N - 1)) * pair_sum g (seq 0 N).
Proof.
  intros g s t Sb Tb ST. destruct N_pos as (P1 & P2). destruct N as [|[|n]]; try lia. rewrite arrangements_length. unfold arrangements. rewrite seq_length.
  rewrite (two_positions nat 0%nat n (seq 0 (S (S n))) s t g (seq_length _ _)) by lia.
  change (fact (S (S n))) with (S (S n) * (S n * fact n))%nat. rewrite !mult_INR.
  pose proof (not_0_INR _ (fact_neq_0 n)). replace (INR (S n)) with (INR (S (S n)) - 1) by (rewrite (S_INR (S n)); ring).
  field. lra.
Qed.

Lemma two_rows : forall G f h s t, (s < N)%nat -> (t < N)%nat -> s <> t -> expect (shuffles N G) (fun ps => f (cells s ps) * h (cells t ps)) = both G f h.
Proof.
  induction G as [|G IH]; intros f h s t Sb Tb ST; [reflexivity|]. unfold both, shuffles. cbn [repeat]. rewrite !uniform_expect. cbn [cells map].
  fold (shuffles N G).
  assert (E : forall s t, (s < N)%nat -> (t < N)%nat -> s <> t ->
    Rsum (map (fun v => expect (shuffles N G) (fun x => f (nth s v 0%nat :: map (fun p => nth s p 0%nat) x) * h (nth t v 0%nat :: map (fun p => nth t p 0%nat) x))) (arrangements (seq 0 N)))
    = Rsum (map (fun v => both G (fun x => f (nth s v 0%nat :: x)) (fun x => h (nth t v 0%nat :: x))) (arrangements (seq 0 N)))).
  { clear s t Sb Tb ST. intros s t Sb Tb ST. apply Rsum_ext. intros v _. apply (IH (fun x => f (nth s v 0%nat :: x)) (fun x => h (nth t v 0%nat :: x)) s t Sb Tb ST). }
  rewrite (E s t Sb Tb ST), (E 0%nat 1%nat) by lia.
  rewrite (pairs_uniform (fun k k' => both G (fun x => f (k :: x)) (fun x => h (k' :: x))) s t Sb Tb ST).
  rewrite (pairs_uniform (fun k k' => both G (fun x => f (k :: x)) (fun x => h (k' :: x))) 0 1) by lia. reflexivity.
Qed.

Lemma both_S : forall G f h, both (S G) f h = / (INR N * (INR N - 1)) * pair_sum (fun k k' => both G (fun x => f (k :: x)) (fun x => h (k' :: x))) (seq 0 N).
Proof.
  intros G f h. unfold both at 1, shuffles. cbn [repeat]. rewrite uniform_expect. cbn [cells map]. fold (shuffles N G).
  rewrite <- (pairs_uniform (fun k k' => both G (fun x => f (k :: x)) (fun x => h (k' :: x))) 0 1) by lia. reflexivity.
Qed.

(** The mean over the first coordinate. *)
Definition first_mean (f : list nat -> R) (x : list nat) : R := / INR N * Rsum (map (fun k => f (k :: x)) (seq 0 N)).
Definition dev (f : list nat -> R) (k : nat) (x : list nat) : R := f (k :: x) - first_mean f x.

Lemma dev_algebra : forall (a b : nat -> R), let m c := / INR N * Rsum (map c (seq 0 N)) in
  Rsum (map (fun k => (a k - m a) * (b k - m b)) (seq 0 N)) = Rsum (map (fun k => a k * b k) (seq 0 N)) - INR N * (m a * m b).
Proof.
  intros a b m. destruct N_pos as (P1 & _).
  rewrite (Rsum_ext _ _ (fun k => a k * b k - (m b * a k + (m a * b k - m a * m b)))) by (intros; ring).
  rewrite Rsum_map_minus, Rsum_map_plus, Rsum_map_minus, !Rsum_map_scal, Rsum_const, seq_length. unfold m. field. lra.
Qed.

Lemma both_step : forall G f, both (S G) f f
  = both G (first_mean f) (first_mean f) - / (INR N - 1) * (/ INR N * Rsum (map (fun k => both G (dev f k) (dev f k)) (seq 0 N))).
Proof.
  intros G f. destruct N_pos as (P1 & P2). rewrite both_S. unfold pair_sum, both.
  rewrite <- (expect_Rsum nat (shuffles N G) (fun k ps => dev f k (cells 0 ps) * dev f k (cells 1 ps))).
  rewrite <- (expect_Rsum nat (shuffles N G) (fun k ps => f (k :: cells 0 ps) * f (k :: cells 1 ps))).
  rewrite (Rsum_ext _ _ (fun x => expect (shuffles N G) (fun ps => Rsum (map (fun k' => f (x :: cells 0 ps) * f (k' :: cells 1 ps)) (seq 0 N))))).
  2: { intros k _. symmetry. apply (expect_Rsum nat (shuffles N G) (fun k' ps => f (k :: cells 0 ps) * f (k' :: cells 1 ps))). }
  rewrite <- (expect_Rsum nat (shuffles N G) (fun k ps => Rsum (map (fun k' => f (k :: cells 0 ps) * f (k' :: cells 1 ps)) (seq 0 N)))).
  rewrite <- expect_minus, <- !expect_scal, <- expect_minus. apply expect_ext. intros ps _.
  unfold dev, first_mean. rewrite (dev_algebra (fun k => f (k :: cells 0 ps)) (fun k => f (k :: cells 1 ps))).
  rewrite (Rsum_ext _ (fun k => Rsum (map (fun k' => f (k :: cells 0 ps) * f (k' :: cells 1 ps)) (seq 0 N))) (fun k => Rsum (map (fun k' => f (k' :: cells 1 ps)) (seq 0 N)) * f (k :: cells 0 ps))).
  2: { intros k _. rewrite Rsum_map_scal. ring. }
  rewrite Rsum_map_scal. field. lra.
Qed.

Definition average (G : nat) (f : list nat -> R) : R := expect (grid_law N G) f.
Definition square (G : nat) (f : list nat -> R) : R := expect (grid_law N G) (fun x => f x ^ 2).

Lemma average_step : forall G f, average (S G) f = average G (first_mean f).
Proof.
  intros G f. unfold average, grid_law, first_mean. cbn [repeat]. rewrite uniform_expect, seq_length.
  rewrite expect_scal, (expect_Rsum nat _ (fun k x => f (k :: x))). reflexivity.
Qed.
Lemma square_step : forall G f, square (S G) f = square G (first_mean f) + / INR N * Rsum (map (fun k => square G (dev f k)) (seq 0 N)).
Proof.
  intros G f. destruct N_pos as (P1 & _). unfold square, grid_law. cbn [repeat]. rewrite uniform_expect, seq_length.
  rewrite <- (expect_Rsum nat _ (fun k x => f (k :: x) ^ 2)), <- (expect_Rsum nat _ (fun k x => dev f k x ^ 2)), <- !expect_scal, <- expect_plus.
  apply expect_ext. intros x _. unfold dev, first_mean.
  rewrite (Rsum_ext _ (fun k => (f (k :: x) - / INR N * Rsum (map (fun k => f (k :: x)) (seq 0 N))) ^ 2) (fun k => (f (k :: x) - / INR N * Rsum (map (fun k => f (k :: x)) (seq 0 N))) * (f (k :: x) - / INR N * Rsum (map (fun k => f (k :: x)) (seq 0 N))))) by (intros; ring).
  rewrite (dev_algebra (fun k => f (k :: x)) (fun k => f (k :: x))).
  rewrite (Rsum_ext _ (fun k => f (k :: x) ^ 2) (fun k => f (k :: x) * f (k :: x))) by (intros; ring). field. lra.
Qed.
Lemma square_nonneg : forall G f, 0 <= square G f.
Proof. intros. apply expect_nonneg; [apply grid_probability; lia|]. intros. apply pow2_ge_0. Qed.
Lemma Rsum_le : forall A (f g : A -> R) l, (forall x, In x l -> f x <= g x) -> Rsum (map f l) <= Rsum (map g l).
Proof.
  intros A f g l H. induction l as [|a l IH]; [apply Rle_refl|]. cbn [map]. change (f a + Rsum (map f l) <= g a + Rsum (map g l)).
  apply Rplus_le_compat; [apply H; left; reflexivity|apply IH; intros; apply H; right; assumption].
Qed.

Lemma both_bounds : forall G f, - / (INR N - 1) * square G f <= both G f f <= square G f.
Proof.
  destruct N_pos as (P1 & P2). assert (I1 : 0 < / INR N) by (apply Rinv_0_lt_compat; lra). assert (I2 : 0 < / (INR N - 1)) by (apply Rinv_0_lt_compat; lra).
  assert (I3 : / (INR N - 1) <= 1).
  { assert (2 <= INR N) by (change 2 with (INR 2); apply le_INR; exact HN). rewrite <- Rinv_1. apply Rinv_le_contravar; lra. }
  induction G as [|G IH]; intros f.
  - unfold square, both. cbn. assert (0 <= f [] * f []) by nra. split; nra.
  - rewrite both_step, square_step.
    set (D1 := / INR N * Rsum (map (fun k => both G (dev f k) (dev f k)) (seq 0 N))). set (D2 := / INR N * Rsum (map (fun k => square G (dev f k)) (seq 0 N))).
    destruct (IH (first_mean f)) as (A & B).
    assert (D0 : 0 <= D2) by (apply Rmult_le_pos; [lra|apply Rsum_nonneg; intros z Z; apply in_map_iff in Z as (k & <- & _); apply square_nonneg]).
    assert (U : D1 <= D2) by (apply Rmult_le_compat_l; [lra|apply Rsum_le; intros; apply IH]).
    assert (L : - / (INR N - 1) * D2 <= D1).
    { unfold D1, D2. rewrite <- Rmult_assoc, (Rmult_comm _ (/ INR N)), Rmult_assoc. apply Rmult_le_compat_l; [lra|]. rewrite <- Rsum_map_scal. apply Rsum_le. intros; apply IH. }
    pose proof (square_nonneg G (first_mean f)). split; nra.
Qed.
Lemma both_upper : forall G f, both G f f <= average G f ^ 2 + / (INR N - 1) ^ 2 * (square G f - average G f ^ 2).
Proof.
  destruct N_pos as (P1 & P2). assert (I1 : 0 < / INR N) by (apply Rinv_0_lt_compat; lra). assert (I2 : 0 < / (INR N - 1)) by (apply Rinv_0_lt_compat; lra).
  induction G as [|G IH]; intros f.
  - unfold square, both, average. cbn. apply Req_le. ring.
  - rewrite both_step, square_step, average_step. specialize (IH (first_mean f)).
    set (D1 := / INR N * Rsum (map (fun k => both G (dev f k) (dev f k)) (seq 0 N))). set (D2 := / INR N * Rsum (map (fun k => square G (dev f k)) (seq 0 N))).
    assert (L : - / (INR N - 1) * D2 <= D1).
    { unfold D1, D2. rewrite <- Rmult_assoc, (Rmult_comm _ (/ INR N)), Rmult_assoc. apply Rmult_le_compat_l; [lra|]. rewrite <- Rsum_map_scal. apply Rsum_le. intros; apply both_bounds. }
    set (w := / (INR N - 1)) in *. assert (W : / (INR N - 1) ^ 2 = w * w) by (unfold w; field; lra). rewrite W in *. nra.
Qed.

(** ** The sample mean *)
Definition sample_mean (f : list nat -> R) (ps : list (list nat)) : R := mean (map (fun s => f (cells s ps)) (seq 0 N)).

Lemma Rsum_except : forall (a b : R) s, (s < N)%nat -> Rsum (map (fun t => if (t =? s)%nat then a else b) (seq 0 N)) = a + (INR N - 1) * b.
Proof.
  intros a b s Sb. rewrite (Rsum_ext _ _ (fun t => b + (if (t =? s)%nat then a - b else 0))) by (intros t _; destruct (t =? s)%nat; ring).
  rewrite Rsum_map_plus, Rsum_const, seq_length.
  change (Rsum (map (fun t => if (t =? s)%nat then a - b else 0) (seq 0 N))) with (sum N (fun t => if (t =? s)%nat then a - b else 0)).
  rewrite (sum_delta N _ s Sb); [rewrite Nat.eqb_refl; ring|]. intros i _ NE. apply Nat.eqb_neq in NE. rewrite NE. reflexivity.
Qed.

Theorem mean_variance : forall G f, variance (shuffles N G) (sample_mean f) = (square G f + (INR N - 1) * both G f f) / INR N - average G f ^ 2.
Proof.
  intros G f. destruct N_pos as (P1 & P2). rewrite variance_alt by apply shuffles_probability.
  assert (M : expect (shuffles N G) (sample_mean f) = average G f).
  { unfold sample_mean. rewrite (expect_ext _ _ (fun ps => / INR N * Rsum (map (fun s => f (cells s ps)) (seq 0 N)))).
    - rewrite expect_scal, (expect_Rsum nat _ (fun s ps => f (cells s ps))). rewrite (Rsum_ext _ _ (fun _ => average G f)).
      + rewrite Rsum_const, seq_length. field. lra.
      + intros s I. apply in_seq in I. apply row_law. lia.
    - intros ps _. unfold mean. rewrite map_length, seq_length. unfold Rdiv. ring. }
  rewrite M. f_equal.
  rewrite (expect_ext _ _ (fun ps => / INR N ^ 2 * Rsum (map (fun s => Rsum (map (fun t => f (cells s ps) * f (cells t ps)) (seq 0 N))) (seq 0 N)))).
  - rewrite expect_scal, (expect_Rsum nat _ (fun s ps => Rsum (map (fun t => f (cells s ps) * f (cells t ps)) (seq 0 N)))).
    rewrite (Rsum_ext _ _ (fun _ => square G f + (INR N - 1) * both G f f)).
    + rewrite Rsum_const, seq_length. field. lra.
    + intros s I. apply in_seq in I. rewrite (expect_Rsum nat _ (fun t ps => f (cells s ps) * f (cells t ps))).
      rewrite (Rsum_ext _ _ (fun t => if (t =? s)%nat then square G f else both G f f)).
      * apply Rsum_except. lia.
      * intros t J. apply in_seq in J. destruct (Nat.eqb_spec t s) as [->|NE].
        -- unfold square. rewrite <- (row_law N G s (fun x => f x ^ 2)) by lia. apply expect_ext. intros. ring.
        -- apply two_rows; lia.
  - intros ps _. unfold sample_mean, mean. rewrite map_length, seq_length.
    rewrite (Rsum_ext _ (fun s => Rsum (map (fun t => f (cells s ps) * f (cells t ps)) (seq 0 N))) (fun s => Rsum (map (fun t => f (cells t ps)) (seq 0 N)) * f (cells s ps))).
    + rewrite Rsum_map_scal. field. lra.
    + intros s _. rewrite Rsum_map_scal. ring.
Qed.

(** No worse than simple random sampling with one point less. *)
Theorem variance_bound : forall G f, variance (shuffles N G) (sample_mean f) <= variance (grid_law N G) f / (INR N - 1).
Proof.
  intros G f. destruct N_pos as (P1 & P2). rewrite mean_variance, variance_alt by (apply grid_probability; lia).
  fold (average G f). fold (square G f). pose proof (both_upper G f) as U. set (q := square G f) in *. set (a := average G f) in *. set (b := both G f f) in *.
  apply (Rmult_le_reg_r (INR N)); [lra|].
  replace (((q + (INR N - 1) * b) / INR N - a ^ 2) * INR N) with (q + (INR N - 1) * b - INR N * a ^ 2) by (field; lra).
  apply Rle_trans with (q + (INR N - 1) * (a ^ 2 + / (INR N - 1) ^ 2 * (q - a ^ 2)) - INR N * a ^ 2).
  - apply Rplus_le_compat_r, Rplus_le_compat_l, Rmult_le_compat_l; [lra|exact U].
  - apply Req_le. field. lra.
Qed.
End Two.
