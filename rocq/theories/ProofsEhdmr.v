(** * Enhanced HDMR: the enumeration of terms and the columns of the basis. *)
From Coq Require Import Reals String List Arith ZArith Bool Lia Lra Sorted Permutation.
From Verif Require Import Base Arrays ListFacts ModelGroups ModelScale Stats Sums Det ModelFast ModelMorris ModelMorrisAnalyze ModelDgsm ModelPawn
  SpecMorris ProofsMorris3 ModelHdmr SpecHdmr ProofsHdmr ModelEhdmr SpecEhdmr.
Import ListNotations.
Local Open Scope nat_scope.

(** ** Strictly sorted lists *)

Lemma sorted_unique : forall A (R : A -> A -> Prop), (forall x, ~ R x x) -> (forall x y, R x y -> R y x -> False) ->
  forall l l', StronglySorted R l -> StronglySorted R l' -> (forall x, In x l <-> In x l') -> l = l'.
Proof.
  intros A R I AS. induction l as [|x l IH]; intros l' H H' E.
  - destruct l' as [|y l']; auto. exfalso. apply (E y). left; auto.
  - destruct l' as [|y l']; [exfalso; apply (E x); left; auto|]. inversion H as [|? ? Hl Fx]; subst. inversion H' as [|? ? Hl' Fy]; subst.
    rewrite Forall_forall in Fx, Fy.
    assert (x = y).
    { destruct (proj1 (E x) (or_introl eq_refl)) as [Q|Q]; auto. destruct (proj2 (E y) (or_introl eq_refl)) as [Q'|Q']; auto.
      exfalso. eapply AS; [apply Fx, Q'|apply Fy, Q]. }
    subst y. f_equal. apply IH; auto. intros z. split; intros Hz.
    + destruct (proj1 (E z) (or_intror Hz)) as [<-|Q]; auto. exfalso. eapply I, Fx, Hz.
    + destruct (proj2 (E z) (or_intror Hz)) as [<-|Q]; auto. exfalso. eapply I, Fy, Hz.
Qed.

Fixpoint lex (a b : list nat) : Prop :=
  match a, b with
  | x :: a', y :: b' => x < y \/ x = y /\ lex a' b'
  | _, _ => False
  end.
Lemma lex_irr : forall a, ~ lex a a.
Proof. induction a; simpl; [auto|]. intros [H|(_ & H)]; [lia|auto]. Qed.
Lemma lex_asym : forall a b, lex a b -> lex b a -> False.
Proof. induction a as [|x a IH]; intros [|y b]; simpl; auto. intros [H|(E & H)] [H'|(E' & H')]; try lia. eapply IH; eauto. Qed.

Lemma sorted_app : forall A (R : A -> A -> Prop) l l', StronglySorted R l -> StronglySorted R l' -> (forall x y, In x l -> In y l' -> R x y) ->
  StronglySorted R (l ++ l').
Proof.
  induction l as [|x l IH]; intros l' H H' X; auto. simpl. inversion H as [|? ? Hl F]; subst. constructor.
  - apply IH; auto. intros; apply X; [right|]; auto.
  - apply Forall_forall. intros y Hy. apply in_app_iff in Hy. rewrite Forall_forall in F. destruct Hy; [auto|apply X; [left|]; auto].
Qed.
Lemma sorted_cons_map : forall x l, StronglySorted lex l -> StronglySorted lex (map (cons x) l).
Proof.
  induction l as [|t l IH]; intros H; [constructor|]. inversion H as [|? ? Hl F]; subst. constructor; auto.
  apply Forall_forall. intros y Hy. apply in_map_iff in Hy. destruct Hy as (u & <- & Hu). rewrite Forall_forall in F. right. auto.
Qed.
Lemma sorted_filter : forall A (R : A -> A -> Prop) f l, StronglySorted R l -> StronglySorted R (filter f l).
Proof.
  induction l as [|x l IH]; intros H; [constructor|]. inversion H as [|? ? Hl F]; subst. simpl. destruct (f x); auto. constructor; auto.
  apply Forall_forall. intros y Hy. apply filter_In in Hy. rewrite Forall_forall in F. apply F, Hy.
Qed.
Lemma sorted_seq : forall n a, StronglySorted lt (seq a n).
Proof. induction n; intros a; simpl; constructor; auto. apply Forall_forall. intros y Hy. apply in_seq in Hy. lia. Qed.

Lemma cartesian_sorted : forall ls, (forall l, In l ls -> StronglySorted lt l) -> StronglySorted lex (cartesian ls).
Proof.
  induction ls as [|l ls IH]; intros H; [repeat constructor|]. cbn [cartesian].
  assert (Hr : StronglySorted lex (cartesian ls)) by (apply IH; intros; apply H; right; auto).
  assert (Hl : StronglySorted lt l) by (apply H; left; auto). clear H IH. induction l as [|x l IH]; [constructor|].
  inversion Hl as [|? ? Hs F]; subst. cbn [flat_map]. apply sorted_app.
  - apply sorted_cons_map; auto.
  - auto.
  - intros a b Ha Hb. apply in_map_iff in Ha. destruct Ha as (u & <- & _). apply in_flat_map in Hb. destruct Hb as (y & Hy & Hb).
    apply in_map_iff in Hb. destruct Hb as (v & <- & _). rewrite Forall_forall in F. left. auto.
Qed.
Lemma in_cartesian : forall ls t, In t (cartesian ls) <-> Forall2 (fun x l => In x l) t ls.
Proof.
  induction ls as [|l ls IH]; intros t; cbn [cartesian].
  - split; [intros [<-|[]]; constructor|]. intros H. inversion H. left; auto.
  - rewrite in_flat_map. split.
    + intros (x & Hx & Ht). apply in_map_iff in Ht. destruct Ht as (u & <- & Hu). constructor; auto. apply IH; auto.
    + intros H. inversion H; subst. exists x. split; auto. apply in_map_iff. eexists. split; [reflexivity|]. apply IH; auto.
Qed.

Lemma combinations_sorted : forall k n a, StronglySorted lex (combinations k (seq a n)).
Proof.
  induction k; intros n.
  - intros a. destruct n; simpl; repeat constructor.
  - induction n; intros a; [constructor|]. cbn [seq]. rewrite combinations_cons. apply sorted_app; auto.
    + apply sorted_cons_map; auto.
    + intros x y Hx Hy. apply in_map_iff in Hx. destruct Hx as (u & <- & _). apply combinations_seq in Hy. destruct Hy as (L & B & _).
      destruct y as [|h y]; [discriminate|]. left. specialize (B h (or_introl eq_refl)). lia.
Qed.

(** ** Unique products *)

Fixpoint sortedb (t : list nat) : bool :=
  match t with
  | x :: r => forallb (Nat.ltb x) r && sortedb r
  | [] => true
  end.
Lemma sortedb_true : forall t, sortedb t = true <-> StronglySorted lt t.
Proof.
  induction t as [|x t IH]; simpl; [split; [constructor|auto]|]. rewrite andb_true_iff, IH, forallb_forall. split.
  - intros (H1 & H2). constructor; auto. apply Forall_forall. intros y Hy. apply Nat.ltb_lt. auto.
  - intros H. inversion H as [|? ? H1 F]; subst. rewrite Forall_forall in F. split; auto. intros y Hy. apply Nat.ltb_lt. auto.
Qed.
Lemma mem_In : forall x l, mem x l = true <-> In x l.
Proof. intros. unfold mem. rewrite existsb_exists. split; [intros (y & H & E); apply Nat.eqb_eq in E; subst; auto|intros H; exists x; split; auto; apply Nat.eqb_refl]. Qed.
Lemma same_set_spec : forall a b, same_set a b = true <-> forall x, In x a <-> In x b.
Proof.
  intros. unfold same_set. rewrite andb_true_iff, !forallb_forall. split.
  - intros (H1 & H2) x. split; intros H; [apply H1 in H|apply H2 in H]; apply mem_In; auto.
  - intros H. split; intros x Hx; apply mem_In, H; auto.
Qed.
Lemma distinct_NoDup : forall t, distinct t = true <-> NoDup t.
Proof.
  induction t as [|x t IH]; simpl; [split; [constructor|auto]|]. rewrite andb_true_iff, negb_true_iff, IH. split.
  - intros (H1 & H2). constructor; auto. intros H. apply mem_In in H. congruence.
  - intros H. inversion H as [|? ? H1 H2]; subst. split; auto. destruct (mem x t) eqn:E; auto. apply mem_In in E. contradiction.
Qed.
Lemma sorted_NoDup : forall t, StronglySorted lt t -> NoDup t.
Proof. intros t H. induction H; constructor; auto. intros Q. rewrite Forall_forall in H0. apply H0 in Q. lia. Qed.

Lemma same_sorted : forall a b, sortedb a = true -> sortedb b = true -> same_set a b = true -> a = b.
Proof.
  intros a b Ha Hb E. apply (sorted_unique nat lt); [lia|lia|apply sortedb_true; auto|apply sortedb_true; auto|apply same_set_spec; auto].
Qed.

Lemma unseen_filter : forall l seen, (forall s, In s seen -> sortedb s = true) -> NoDup l -> (forall t, In t l -> ~ In t seen) ->
  (forall pre t post, l = pre ++ t :: post -> distinct t = true -> sortedb t = false ->
     exists s, (In s seen \/ In s pre) /\ sortedb s = true /\ same_set t s = true) ->
  unseen seen l = filter sortedb l.
Proof.
  induction l as [|t l IH]; intros seen Hs ND NS H; [reflexivity|]. cbn [unseen filter]. inversion ND as [|? ? Nt NDl]; subst.
  destruct (sortedb t) eqn:St.
  - assert (D : distinct t = true) by (apply distinct_NoDup, sorted_NoDup, sortedb_true; auto). rewrite D. cbn [negb].
    assert (X : existsb (same_set t) seen = false).
    { destruct (existsb (same_set t) seen) eqn:E; auto. apply existsb_exists in E. destruct E as (s & I & E).
      exfalso. apply (NS t); [left; auto|]. rewrite (same_sorted t s); auto. }
    rewrite X. f_equal. apply IH; auto.
    + intros s [<-|Q]; auto.
    + intros u Hu [->|Q]; [contradiction|]. apply (NS u); [right|]; auto.
    + intros pre u post E Du Su. destruct (H (t :: pre) u post (f_equal (cons t) E) Du Su) as (s & [Q|[<-|Q]] & S1 & SS); [exists s|exists t|exists s];
        (split; [|auto]); simpl; auto.
  - assert (G : unseen seen l = filter sortedb l).
    { apply IH; auto.
      - intros u Hu. apply NS. right; auto.
      - intros pre u post E Du Su. destruct (H (t :: pre) u post (f_equal (cons t) E) Du Su) as (s & [Q|[<-|Q]] & S1 & SS); [exists s|congruence|exists s];
          (split; [|auto]); simpl; auto. }
    destruct (distinct t) eqn:D; cbn [negb]; auto.
    destruct (H [] t l eq_refl D St) as (s & [Q|[]] & S1 & SS).
    assert (X : existsb (same_set t) seen = true) by (apply existsb_exists; eauto). rewrite X. auto.
Qed.

Lemma sorted_lex_NoDup : forall l, StronglySorted lex l -> NoDup l.
Proof. intros l H. induction H; constructor; auto. intros Q. rewrite Forall_forall in H0. apply H0 in Q. eapply lex_irr; eauto. Qed.
Lemma sorted_before : forall l pre t post s, StronglySorted lex l -> l = pre ++ t :: post -> In s l -> lex s t -> In s pre.
Proof.
  intros l pre t post s H E I L. subst l. apply in_app_iff in I. destruct I as [I|[<-|I]]; auto.
  - exfalso. eapply lex_irr; eauto.
  - exfalso. revert H. clear - I L. induction pre as [|x pre IH]; simpl; intros H; inversion H as [|? ? Hs F]; subst; auto.
    rewrite Forall_forall in F. apply (lex_asym s t); auto.
Qed.

(** In general: the unique product is the sorted part of the product, when every set it has is there in sorted order first. *)
Lemma uprod_sorted : forall ls, (forall l, In l ls -> StronglySorted lt l) ->
  (forall t, In t (cartesian ls) -> distinct t = true -> sortedb t = false ->
     exists s, In s (cartesian ls) /\ sortedb s = true /\ same_set t s = true /\ lex s t) ->
  uprod ls = filter sortedb (cartesian ls).
Proof.
  intros ls Hs H. pose proof (cartesian_sorted ls Hs) as CS. unfold uprod. apply unseen_filter.
  - intros s [].
  - apply sorted_lex_NoDup; auto.
  - intros t _ [].
  - intros pre t post E D St. destruct (H t) as (s & I & S1 & SS & L); auto; [rewrite E; apply in_app_iff; right; left; auto|].
    exists s. split; auto. right. eapply sorted_before; eauto.
Qed.

Lemma in_range_list : forall x a b, In x (range a b) <-> a <= x < b.
Proof. intros. unfold range. rewrite in_seq. lia. Qed.
Lemma range_sorted : forall a b, StronglySorted lt (range a b).
Proof. intros. apply sorted_seq. Qed.

Lemma pairs_of : forall d, uprod [range 0 (d - 1); range 1 d] = combinations 2 (seq 0 d).
Proof.
  intros d. rewrite uprod_sorted.
  - apply (sorted_unique _ lex lex_irr lex_asym).
    + apply sorted_filter, cartesian_sorted. intros l [<-|[<-|[]]]; apply range_sorted.
    + apply combinations_sorted.
    + intros t. rewrite filter_In, in_cartesian, combinations_seq, sortedb_true. split.
      * intros (H & S1). split; [apply Forall2_length in H; auto|]. split; auto. intros x Hx.
        destruct t as [|a [|b [|]]]; inversion H as [|? ? ? ? Q1 Q2]; subst; inversion Q2 as [|? ? ? ? Q3 Q4]; subst; inversion Q4; subst.
        rewrite in_range_list in *. destruct Hx as [<-|[<-|[]]]; lia.
      * intros (L & B & S1). split; auto. destruct t as [|a [|b [|]]]; try discriminate.
        inversion S1 as [|? ? _ F]; subst. rewrite Forall_forall in F. specialize (F b (or_introl eq_refl)).
        pose proof (B a (or_introl eq_refl)). pose proof (B b (or_intror (or_introl eq_refl))).
        repeat constructor; apply in_range_list; lia.
  - intros l [<-|[<-|[]]]; apply range_sorted.
  - intros t I D St. apply in_cartesian in I.
    destruct t as [|a [|b [|]]]; inversion I as [|? ? ? ? Q1 Q2]; subst; inversion Q2 as [|? ? ? ? Q3 Q4]; subst; inversion Q4; subst.
    rewrite in_range_list in *.
    assert (N : a <> b) by (intros ->; simpl in D; rewrite Nat.eqb_refl in D; discriminate).
    assert (L : b < a). { simpl in St. rewrite !andb_true_r in St. apply Nat.ltb_ge in St. lia. }
    exists [b; a]. split; [apply in_cartesian; repeat constructor; apply in_range_list; lia|]. split.
    + simpl. rewrite !andb_true_r. apply Nat.ltb_lt; auto.
    + split; [apply same_set_spec; intros x; simpl; tauto|]. left. auto.
Qed.

Lemma triples_of : forall d, uprod [range 0 (d - 2); range 1 (d - 1); range 2 d] = combinations 3 (seq 0 d).
Proof.
  intros d. rewrite uprod_sorted.
  - apply (sorted_unique _ lex lex_irr lex_asym).
    + apply sorted_filter, cartesian_sorted. intros l [<-|[<-|[<-|[]]]]; apply range_sorted.
    + apply combinations_sorted.
    + intros t. rewrite filter_In, in_cartesian, combinations_seq, sortedb_true. split.
      * intros (H & S1). split; [apply Forall2_length in H; auto|]. split; auto. intros x Hx.
        destruct t as [|a [|b [|c [|]]]]; inversion H as [|? ? ? ? Q1 Q2]; subst; inversion Q2 as [|? ? ? ? Q3 Q4]; subst;
          inversion Q4 as [|? ? ? ? Q5 Q6]; subst; inversion Q6; subst.
        rewrite in_range_list in *. destruct Hx as [<-|[<-|[<-|[]]]]; lia.
      * intros (L & B & S1). split; auto. destruct t as [|a [|b [|c [|]]]]; try discriminate.
        inversion S1 as [|? ? S2 F]; subst. rewrite Forall_forall in F. inversion S2 as [|? ? _ F2]; subst. rewrite Forall_forall in F2.
        pose proof (F b ltac:(simpl; auto)). pose proof (F2 c ltac:(simpl; auto)).
        pose proof (B a ltac:(simpl; auto)). pose proof (B b ltac:(simpl; auto)). pose proof (B c ltac:(simpl; auto)).
        repeat constructor; apply in_range_list; lia.
  - intros l [<-|[<-|[<-|[]]]]; apply range_sorted.
  - intros t I D St. apply in_cartesian in I.
    destruct t as [|a [|b [|c [|]]]]; inversion I as [|? ? ? ? Q1 Q2]; subst; inversion Q2 as [|? ? ? ? Q3 Q4]; subst;
      inversion Q4 as [|? ? ? ? Q5 Q6]; subst; inversion Q6; subst.
    rewrite in_range_list in *. apply distinct_NoDup in D. inversion D as [|? ? D1 D2]; subst. inversion D2 as [|? ? D3 _]; subst. simpl in D1, D3.
    assert (NS : ~ (a < b /\ b < c)).
    { intros (L1 & L2). assert (sortedb [a; b; c] = true); [|congruence]. simpl. rewrite !andb_true_r.
      repeat (apply andb_true_iff; split); apply Nat.ltb_lt; lia. }
    assert (G : forall x y z, x < y -> y < z -> (forall w, In w [a; b; c] <-> In w [x; y; z]) -> lex [x; y; z] [a; b; c] -> x <= d - 3 ->
      exists s, In s (cartesian [range 0 (d - 2); range 1 (d - 1); range 2 d]) /\ sortedb s = true /\ same_set [a; b; c] s = true /\ lex s [a; b; c]).
    { intros x y z H1 H2 E L Hx. exists [x; y; z].
      assert (Bz : z < d) by (destruct (proj2 (E z) ltac:(simpl; auto)) as [<-|[<-|[<-|[]]]]; lia).
      split; [apply in_cartesian; repeat constructor; apply in_range_list; lia|].
      split; [simpl; rewrite !andb_true_r; repeat (apply andb_true_iff; split); apply Nat.ltb_lt; lia|].
      split; [apply same_set_spec; auto|auto]. }
    assert (a <> b) by (intros ->; tauto). assert (a <> c) by (intros ->; tauto). assert (b <> c) by (intros ->; tauto).
    destruct (Nat.lt_ge_cases a b), (Nat.lt_ge_cases b c), (Nat.lt_ge_cases a c); try lia.
    + apply (G a c b); try lia; [simpl; tauto|simpl; lia].
    + apply (G c a b); try lia; [simpl; tauto|simpl; lia].
    + apply (G b a c); try lia; [simpl; tauto|simpl; lia].
    + apply (G b c a); try lia; [simpl; tauto|simpl; lia].
    + apply (G c b a); try lia; [simpl; tauto|simpl; lia].
Qed.

Lemma filter_all : forall A (f : A -> bool) l, (forall x, In x l -> f x = true) -> filter f l = l.
Proof. induction l as [|x l IH]; intros H; auto. simpl. rewrite H by (left; auto). f_equal. apply IH. intros; apply H; right; auto. Qed.

(** Products of the columns of different parameters are all taken. *)
Lemma uprod_blocks2 : forall c i j, i < j -> uprod [block_range c i; block_range c j] = cartesian [block_range c i; block_range c j].
Proof.
  intros c i j L.
  assert (A : forall t, In t (cartesian [block_range c i; block_range c j]) -> sortedb t = true).
  { intros t I. apply in_cartesian in I.
    destruct t as [|a [|b [|]]]; inversion I as [|? ? ? ? Q1 Q2]; subst; inversion Q2 as [|? ? ? ? Q3 Q4]; subst; inversion Q4; subst.
    unfold block_range in *. rewrite in_range_list in *. simpl. rewrite !andb_true_r. apply Nat.ltb_lt. nia. }
  rewrite uprod_sorted.
  - apply filter_all. auto.
  - intros l [<-|[<-|[]]]; apply range_sorted.
  - intros t I _ S0. apply A in I. congruence.
Qed.
Lemma uprod_blocks3 : forall c i j k, i < j -> j < k ->
  uprod [block_range c i; block_range c j; block_range c k] = cartesian [block_range c i; block_range c j; block_range c k].
Proof.
  intros c i j k L1 L2.
  assert (A : forall t, In t (cartesian [block_range c i; block_range c j; block_range c k]) -> sortedb t = true).
  { intros t I. apply in_cartesian in I.
    destruct t as [|x [|y [|z [|]]]]; inversion I as [|? ? ? ? Q1 Q2]; subst; inversion Q2 as [|? ? ? ? Q3 Q4]; subst;
      inversion Q4 as [|? ? ? ? Q5 Q6]; subst; inversion Q6; subst.
    unfold block_range in *. rewrite in_range_list in *. simpl. rewrite !andb_true_r. repeat (apply andb_true_iff; split); apply Nat.ltb_lt; nia. }
  rewrite uprod_sorted.
  - apply filter_all. auto.
  - intros l [<-|[<-|[<-|[]]]]; apply range_sorted.
  - intros t I _ S0. apply A in I. congruence.
Qed.
