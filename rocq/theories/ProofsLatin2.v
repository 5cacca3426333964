(** * Sums over all arrangements of a list. *)
From Coq Require Import Reals List Arith Lia Lra Permutation Factorial.
From Verif Require Import Base Arrays ListFacts Stats SpecExpect SpecMorris2 SpecLatin2 ProofsExpect ProofsMorris12.
Import ListNotations.
Local Open Scope R_scope.

Lemma picks_perm : forall A (l : list A) x r, In (x, r) (picks l) -> Permutation l (x :: r).
Proof.
  intros A. induction l as [|a l IH]; intros x r I; [destruct I|]. cbn [picks] in I. destruct I as [E|I].
  - injection E as <- <-. reflexivity.
  - apply in_map_iff in I as ([y s] & E & I). cbn [fst snd] in E. injection E as <- <-. rewrite (IH y s I) at 1. apply perm_swap.
Qed.
Lemma picks_fst : forall A (l : list A), map fst (picks l) = l.
Proof. intros A. induction l as [|a l IH]; [reflexivity|]. cbn [picks map fst]. f_equal. rewrite map_map. cbn [fst]. exact IH. Qed.
Lemma picks_sum : forall A (l : list A) (F : A -> R), Rsum (map (fun p => F (fst p)) (picks l)) = Rsum (map F l).
Proof. intros A l F. rewrite <- (picks_fst A l) at 2. rewrite map_map. reflexivity. Qed.
Lemma picks_length : forall A (l : list A), length (picks l) = length l.
Proof. intros A l. rewrite <- (picks_fst A l) at 2. rewrite map_length. reflexivity. Qed.
Lemma picks_rest : forall A (l : list A) p, In p (picks l) -> length l = S (length (snd p)).
Proof. intros A l [x r] I. apply picks_perm, Permutation_length in I. exact I. Qed.

Lemma Rsum_flat : forall A B (F : B -> R) (h : A -> list B) l, Rsum (map F (flat_map h l)) = Rsum (map (fun a => Rsum (map F (h a))) l).
Proof.
  intros A B F h. induction l as [|a l IH]; [reflexivity|]. cbn [flat_map map]. rewrite map_app, Rsum_app, IH. reflexivity.
Qed.

Lemma arrange_sum : forall A n (l : list A) (F : list A -> R),
  Rsum (map F (arrange (S n) l)) = Rsum (map (fun p => Rsum (map (fun s => F (fst p :: s)) (arrange n (snd p)))) (picks l)).
Proof. intros. cbn [arrange]. rewrite Rsum_flat. apply Rsum_ext. intros p _. rewrite map_map. reflexivity. Qed.

Lemma arrange_length : forall A n (l : list A), length l = n -> length (arrange n l) = fact n.
Proof.
  intros A. induction n as [|n IH]; intros l L; [reflexivity|]. cbn [arrange].
  assert (E : forall ps : list (A * list A), (forall p, In p ps -> length (snd p) = n) ->
     length (flat_map (fun p => map (cons (fst p)) (arrange n (snd p))) ps) = (length ps * fact n)%nat).
  { induction ps as [|p ps IHp]; intros H; [reflexivity|]. cbn [flat_map length]. rewrite app_length, map_length, IH, IHp; [lia| |apply H; left; reflexivity].
    intros q Q. apply H. right. exact Q. }
  rewrite E, picks_length, L.
  - cbn [fact]. lia.
  - intros p P. apply picks_rest in P. lia.
Qed.

(** The arrangements are the permutations, each once. *)
Lemma arrange_perm : forall A n (l : list A) s, length l = n -> (In s (arrange n l) <-> Permutation s l).
Proof.
  intros A. induction n as [|n IH]; intros l s L.
  - destruct l; [|discriminate]. cbn. split; [intros [<-|[]]; reflexivity|]. intros P. apply Permutation_sym, Permutation_nil in P. auto.
  - cbn [arrange]. rewrite in_flat_map. split.
    + intros ([x r] & I & J). cbn [fst snd] in J. apply in_map_iff in J as (t & <- & J). assert (L' := picks_rest _ _ _ I). cbn [snd] in L'.
      apply IH in J; [|lia]. rewrite (picks_perm _ _ _ _ I). constructor. exact J.
    + intros P. destruct s as [|x s]; [apply Permutation_length in P; cbn in P; lia|].
      assert (X : In x l) by (apply (Permutation_in _ P); left; reflexivity).
      assert (E : exists r, In (x, r) (picks l)).
      { rewrite <- (picks_fst A l) in X. apply in_map_iff in X as ([y r] & E & I). cbn in E. subst y. exists r. exact I. }
      destruct E as (r & I). exists (x, r). split; [exact I|]. cbn [fst snd]. apply in_map. assert (L' := picks_rest _ _ _ I). cbn [snd] in L'.
      apply IH; [lia|]. apply Permutation_cons_inv with x. rewrite P. apply picks_perm. exact I.
Qed.

Lemma NoDup_flat_tag : forall A B (f : A -> B) (h : A -> list (list B)) l, NoDup (map f l) -> (forall a, In a l -> NoDup (h a)) ->
  NoDup (flat_map (fun a => map (cons (f a)) (h a)) l).
Proof.
  intros A B f h. induction l as [|a l IH]; intros N H; [constructor|]. cbn [flat_map map] in *. inversion N as [|? ? N1 N2]; subst.
  assert (IHl : NoDup (flat_map (fun a => map (cons (f a)) (h a)) l)) by (apply IH; [assumption|intros; apply H; right; assumption]).
  assert (HD : NoDup (map (cons (f a)) (h a))).
  { apply FinFun.Injective_map_NoDup; [intros x y E; congruence|apply H; left; reflexivity]. }
  assert (DJ : forall x, In x (map (cons (f a)) (h a)) -> ~ In x (flat_map (fun a => map (cons (f a)) (h a)) l)).
  { intros x X Y. apply in_map_iff in X as (s & <- & _). apply in_flat_map in Y as (b & Bl & Y). apply in_map_iff in Y as (t & E & _).
    apply N1. assert (f b = f a) as <- by congruence. apply in_map. exact Bl. }
  clear - IHl HD DJ. induction (map (cons (f a)) (h a)) as [|x m IHm]; [exact IHl|]. inversion HD; subst. cbn [app]. constructor.
  - intros I. apply in_app_or in I as [I|I]; [contradiction|]. apply (DJ x); [left; reflexivity|exact I].
  - apply IHm; [assumption|]. intros y Y. apply DJ. right. exact Y.
Qed.
Lemma arrange_nodup : forall A n (l : list A), length l = n -> NoDup l -> NoDup (arrange n l).
Proof.
  intros A. induction n as [|n IH]; intros l L N; [repeat constructor; intros []|]. cbn [arrange].
  apply (NoDup_flat_tag _ _ fst (fun p => arrange n (snd p))); [rewrite picks_fst; exact N|]. intros [x r] I. cbn [snd].
  apply IH; [apply picks_rest in I; cbn [snd] in I; lia|]. apply picks_perm in I. apply (Permutation_NoDup I) in N. inversion N; assumption.
Qed.

(** One position. *)
Lemma rest_sum : forall A (l : list A) (g : A -> R) p, In p (picks l) -> Rsum (map g (snd p)) = Rsum (map g l) - g (fst p).
Proof.
  intros A l g [x r] I. apply picks_perm in I. cbn [fst snd]. rewrite (Rsum_perm _ _ (Permutation_map g I)). cbn [map].
  change (Rsum (g x :: map g r)) with (g x + Rsum (map g r)). ring.
Qed.

Lemma one_position : forall A (d : A) n (l : list A) s (g : A -> R), length l = S n -> (s <= n)%nat ->
  Rsum (map (fun p => g (nth s p d)) (arrange (S n) l)) = INR (fact n) * Rsum (map g l).
Proof.
  intros A d. induction n as [|n IH]; intros l s g L Sb.
  - destruct l as [|x [|? ?]]; try discriminate. assert (s = 0)%nat by lia. subst s. cbn. ring.
  - rewrite arrange_sum. destruct s as [|s].
    + cbn [nth]. rewrite (Rsum_ext _ _ (fun p => INR (fact (S n)) * g (fst p))).
      * rewrite Rsum_map_scal, picks_sum. reflexivity.
      * intros p P. rewrite Rsum_const, arrange_length; [reflexivity|]. apply picks_rest in P. lia.
    + cbn [nth]. rewrite (Rsum_ext _ _ (fun p => INR (fact n) * (Rsum (map g l) - g (fst p)))).
      * rewrite Rsum_map_scal, Rsum_map_minus, Rsum_const, picks_length, picks_sum, L. change (fact (S n)) with (S n * fact n)%nat. rewrite mult_INR, !S_INR. ring.
      * intros p P. assert (L' := picks_rest _ _ _ P). rewrite (IH (snd p) s g) by lia. rewrite (rest_sum A l g p P). reflexivity.
Qed.

(** Two positions: the pairs of different elements. *)
Definition pair_sum {A} (g : A -> A -> R) (l : list A) : R := Rsum (map (fun x => Rsum (map (g x) l)) l) - Rsum (map (fun x => g x x) l).

Lemma Rsum_perm_map : forall A (g : A -> R) l l', Permutation l l' -> Rsum (map g l) = Rsum (map g l').
Proof. intros. apply Rsum_perm, Permutation_map. assumption. Qed.
Lemma pair_rest : forall A (l : list A) g p, In p (picks l) ->
  pair_sum g (snd p) = pair_sum g l - Rsum (map (g (fst p)) l) - Rsum (map (fun y => g y (fst p)) l) + 2 * g (fst p) (fst p).
Proof.
  intros A l g p P. unfold pair_sum. rewrite (rest_sum A l (fun x => Rsum (map (g x) (snd p))) p P), (rest_sum A l (fun x => g x x) p P).
  rewrite (Rsum_ext _ _ (fun x => Rsum (map (g x) l) - g x (fst p))) by (intros; apply (rest_sum A l _ p P)).
  rewrite Rsum_map_minus, (rest_sum A l _ p P). ring.
Qed.

Lemma two_positions : forall A (d : A) n (l : list A) s t (g : A -> A -> R), length l = S (S n) -> (s <= S n)%nat -> (t <= S n)%nat -> s <> t ->
  Rsum (map (fun p => g (nth s p d) (nth t p d)) (arrange (S (S n)) l)) = INR (fact n) * pair_sum g l.
Proof.
  intros A d. induction n as [|n IH]; intros l s t g L Sb Tb ST.
  - destruct l as [|x [|y [|? ?]]]; try discriminate. unfold pair_sum. destruct s as [|[|s]], t as [|[|t]]; try lia; cbn; ring.
  - rewrite arrange_sum. assert (PL : forall p, In p (picks l) -> length (snd p) = S (S n)) by (intros p P; apply picks_rest in P; lia).
    assert (D : forall h : A -> A -> R, Rsum (map (fun p => Rsum (map (h (fst p)) (snd p))) (picks l)) = pair_sum h l).
    { intros h. unfold pair_sum. rewrite (Rsum_ext _ _ (fun p => Rsum (map (h (fst p)) l) - h (fst p) (fst p))) by (intros p P; apply (rest_sum A l _ p P)).
      rewrite Rsum_map_minus. rewrite (picks_sum A l (fun x => Rsum (map (h x) l))), (picks_sum A l (fun x => h x x)). reflexivity. }
    destruct s as [|s], t as [|t]; try lia; cbn [nth].
    + rewrite (Rsum_ext _ _ (fun p => INR (fact (S n)) * Rsum (map (g (fst p)) (snd p)))).
      * rewrite Rsum_map_scal, D. reflexivity.
      * intros p P. apply (one_position A d (S n) (snd p) t (g (fst p))); [apply PL; exact P|lia].
    + rewrite (Rsum_ext _ _ (fun p => INR (fact (S n)) * Rsum (map (fun y => g y (fst p)) (snd p)))).
      * rewrite Rsum_map_scal. rewrite (D (fun x y => g y x)). f_equal. unfold pair_sum. f_equal.
        apply (Rsum_swap A A (fun x y => g y x) l l).
      * intros p P. apply (one_position A d (S n) (snd p) s (fun y => g y (fst p))); [apply PL; exact P|lia].
    + rewrite (Rsum_ext _ _ (fun p => INR (fact n) * (pair_sum g l - Rsum (map (g (fst p)) l) - Rsum (map (fun y => g y (fst p)) l) + 2 * g (fst p) (fst p)))).
      * rewrite Rsum_map_scal, Rsum_map_plus, !Rsum_map_minus, Rsum_const, Rsum_map_scal, picks_length, L.
        rewrite (picks_sum A l (fun x => Rsum (map (g x) l))), (picks_sum A l (fun x => Rsum (map (fun y => g y x) l))), (picks_sum A l (fun x => g x x)).
        assert (SW : Rsum (map (fun x => Rsum (map (fun y => g y x) l)) l) = Rsum (map (fun x => Rsum (map (g x) l)) l)) by exact (Rsum_swap A A (fun x y => g y x) l l).
        rewrite SW. change (fact (S n)) with (S n * fact n)%nat. rewrite mult_INR, !S_INR. unfold pair_sum. ring.
      * intros p P. rewrite (IH (snd p) s t g) by (try lia; apply PL; exact P). rewrite (pair_rest A l g p P). reflexivity.
Qed.
