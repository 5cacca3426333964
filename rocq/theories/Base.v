(** * Base: results, numpy-like list operations and index lemmas shared by all models.

    Nothing here models a SALib function; these are the primitives (Python exceptions,
    list indexing, numpy slicing) that the model files are written with. *)
From Coq Require Import List Arith Lia Bool.
Import ListNotations.
Set Implicit Arguments.
Generalizable All Variables.

(** Python exceptions raised by the modelled code. *)
Inductive exn : Type :=
| ValueError | RuntimeError | TypeError | IndexError | KeyError | AttributeError
| AssertionError | ZeroDivisionError | OverflowError | UnboundLocalError
| AnalysisError (* delta.py:14 *) | LinAlgError (* numpy.linalg *) | UserError (* raised by a user callback *).

(** Outcome of a call: a value or a raised exception. *)
Inductive result (A : Type) : Type :=
| Ok (a : A)
| Err (e : exn).
Arguments Ok {A} a.
Arguments Err {A} e.

Definition bind {A B} (x : result A) (f : A -> result B) : result B :=
  match x with Ok a => f a | Err e => Err e end.
Notation "'do' x <- e1 ;; e2" := (bind e1 (fun x => e2))
  (at level 60, x pattern, e1 at level 60, right associativity).

(** A Python [for] loop collecting results; the first exception wins. *)
Fixpoint mapM {A B} (f : A -> result B) (l : list A) : result (list B) :=
  match l with
  | [] => Ok []
  | x :: r => do y <- f x ;; do ys <- mapM f r ;; Ok (y :: ys)
  end.

(** Python [l[i]] for [i >= 0]: IndexError when out of range. *)
Definition get {A} (l : list A) (i : nat) : result A :=
  match nth_error l i with Some x => Ok x | None => Err IndexError end.

(** A 2-D array: number of columns plus rows (so that an empty array keeps its width). *)
Record mat (A : Type) : Type := mkMat { cols : nat; rows : list (list A) }.
Arguments mkMat {A} cols rows.

Definition wf_mat {A} (m : mat A) : Prop :=
  Forall (fun r => length r = cols m) (rows m).

(** Entry (i,j) of a list of rows. *)
Definition entry {A} (m : list (list A)) (i j : nat) : option A :=
  match nth_error m i with Some r => nth_error r j | None => None end.

(** Column j of a list of rows (rows that are too short contribute nothing). *)
Definition column {A} (m : list (list A)) (j : nat) : list A :=
  flat_map (fun r => match nth_error r j with Some x => [x] | None => [] end) m.

(** [map2 f [x0;..] [y0;..] = [f x0 y0;..]], stopping at the shorter list. *)
Fixpoint map2 {A B C} (f : A -> B -> C) (l : list A) (l' : list B) : list C :=
  match l, l' with
  | x :: r, y :: r' => f x y :: map2 f r r'
  | _, _ => []
  end.

(** [l[i] = v] on a list, no-op when out of range. *)
Fixpoint update {A} (l : list A) (i : nat) (v : A) : list A :=
  match l, i with
  | [], _ => []
  | _ :: r, 0 => v :: r
  | x :: r, S i => x :: update r i v
  end.

(** Python slice [l[start:stop]] for non-negative bounds. *)
Definition slice {A} (l : list A) (start stop : nat) : list A :=
  firstn (stop - start) (skipn start l).

(** Python slice [l[start::step]] and [l[start:stop:step]] for [step > 0]; [fuel] bounds the
    number of elements (the length of [l] suffices). *)
Fixpoint every {A} (fuel : nat) (step : nat) (l : list A) : list A :=
  match fuel with
  | 0 => []
  | S f => match l with
           | [] => []
           | x :: _ => x :: every f step (skipn step l)
           end
  end.
Definition slice_step {A} (l : list A) (start step : nat) : list A :=
  let l' := skipn start l in every (length l') step l'.

(** ** Lemmas *)

Lemma nth_error_nil : forall A i, nth_error (@nil A) i = None.
Proof. intros A [|i]; reflexivity. Qed.

Lemma nth_error_map' : forall A B (f : A -> B) l i,
  nth_error (map f l) i = option_map f (nth_error l i).
Proof. induction l; destruct i; simpl; auto. Qed.

Lemma nth_error_seq : forall n s i,
  nth_error (seq s n) i = if i <? n then Some (s + i) else None.
Proof.
  induction n; intros s i; simpl.
  - destruct i; reflexivity.
  - destruct i; simpl.
    + f_equal; lia.
    + rewrite IHn. replace (S i <? S n) with (i <? n) by reflexivity.
      destruct (i <? n); auto. f_equal; lia.
Qed.

Lemma nth_error_map2 : forall A B C (f : A -> B -> C) l l' i,
  nth_error (map2 f l l') i =
  match nth_error l i, nth_error l' i with
  | Some x, Some y => Some (f x y)
  | _, _ => None
  end.
Proof.
  induction l; destruct l', i; simpl; auto.
  - destruct (nth_error l i); auto.
Qed.

Lemma length_map2 : forall A B C (f : A -> B -> C) l l',
  length (map2 f l l') = min (length l) (length l').
Proof. induction l; destruct l'; simpl; auto. Qed.

Lemma nth_error_repeat : forall A (x : A) n i,
  nth_error (repeat x n) i = if i <? n then Some x else None.
Proof.
  induction n; destruct i; simpl; auto.
  rewrite IHn. reflexivity.
Qed.

Lemma nth_error_skipn : forall A (l : list A) n i,
  nth_error (skipn n l) i = nth_error l (n + i).
Proof.
  induction l; destruct n; simpl; intros; auto.
  destruct i; reflexivity.
Qed.

Lemma nth_error_firstn : forall A (l : list A) n i,
  nth_error (firstn n l) i = if i <? n then nth_error l i else None.
Proof.
  induction l; destruct n, i; simpl; auto.
  - destruct (S i <? S n); reflexivity.
  - rewrite IHl. reflexivity.
Qed.

Lemma nth_error_slice : forall A (l : list A) a b i,
  nth_error (slice l a b) i = if i <? b - a then nth_error l (a + i) else None.
Proof. intros. unfold slice. rewrite nth_error_firstn, nth_error_skipn. reflexivity. Qed.

Lemma nth_error_every : forall A step, 0 < step -> forall fuel (l : list A) i,
  length l <= fuel ->
  nth_error (every fuel step l) i = nth_error l (step * i).
Proof.
  intros A step Hs. induction fuel; intros l i Hl.
  - destruct l; simpl in *; [|lia]. rewrite !nth_error_nil. reflexivity.
  - destruct l as [|x l]; simpl every.
    + rewrite !nth_error_nil; reflexivity.
    + destruct i.
      * rewrite Nat.mul_0_r. reflexivity.
      * cbn [nth_error]. rewrite IHfuel.
        -- rewrite nth_error_skipn. f_equal. lia.
        -- rewrite skipn_length. simpl length in *. lia.
Qed.

Lemma nth_error_slice_step : forall A (l : list A) start step i, 0 < step ->
  nth_error (slice_step l start step) i = nth_error l (start + step * i).
Proof.
  intros. unfold slice_step. rewrite nth_error_every by auto.
  apply nth_error_skipn.
Qed.

Lemma nth_error_ext' : forall A (l l' : list A),
  (forall i, nth_error l i = nth_error l' i) -> l = l'.
Proof.
  induction l; destruct l'; intros H; auto.
  - specialize (H 0). discriminate.
  - specialize (H 0). discriminate.
  - f_equal.
    + specialize (H 0). simpl in H. congruence.
    + apply IHl. intros i. exact (H (S i)).
Qed.

Lemma nth_error_Some_lt : forall A (l : list A) i x,
  nth_error l i = Some x -> i < length l.
Proof. intros. apply nth_error_Some. congruence. Qed.

Lemma nth_error_lt_Some : forall A (l : list A) i,
  i < length l -> exists x, nth_error l i = Some x.
Proof.
  intros A l i H. apply nth_error_Some in H.
  destruct (nth_error l i); [eauto|congruence].
Qed.

Lemma nth_error_update : forall A (l : list A) i v k,
  nth_error (update l i v) k =
  if (k =? i) && (i <? length l) then Some v else nth_error l k.
Proof.
  induction l; intros i v k; simpl.
  - replace (i <? 0) with false by (symmetry; apply Nat.ltb_ge; lia).
    rewrite andb_false_r. reflexivity.
  - destruct i, k; simpl; auto.
    + rewrite IHl. replace (S i <? S (length l)) with (i <? length l) by reflexivity.
      reflexivity.
Qed.

Lemma length_update : forall A (l : list A) i v, length (update l i v) = length l.
Proof. induction l; destruct i; simpl; auto. Qed.

Lemma mapM_Ok_length : forall A B (f : A -> result B) l ys,
  mapM f l = Ok ys -> length ys = length l.
Proof.
  induction l; simpl; intros ys H.
  - inversion H; reflexivity.
  - destruct (f a); simpl in H; [|discriminate].
    destruct (mapM f l); simpl in H; inversion H. simpl. f_equal. eauto.
Qed.

Lemma mapM_Ok_nth : forall A B (f : A -> result B) l ys i x,
  mapM f l = Ok ys -> nth_error l i = Some x ->
  exists y, f x = Ok y /\ nth_error ys i = Some y.
Proof.
  induction l; simpl; intros ys i x H Hi.
  - destruct i; discriminate.
  - destruct (f a) eqn:E; simpl in H; [|discriminate].
    destruct (mapM f l) eqn:E2; simpl in H; inversion H; subst.
    destruct i; simpl in *.
    + inversion Hi; subst. eauto.
    + eauto.
Qed.

Lemma mapM_Ok_iff : forall A B (f : A -> result B) l,
  (exists ys, mapM f l = Ok ys) <-> (forall x, In x l -> exists y, f x = Ok y).
Proof.
  induction l; simpl; split; intros H.
  - intros x [].
  - eauto.
  - destruct H as [ys H]. destruct (f a) eqn:E; simpl in H; [|discriminate].
    destruct (mapM f l) eqn:E2; simpl in H; [|discriminate].
    intros x [->|Hx]; eauto. apply IHl; eauto.
  - destruct (H a) as [y Hy]; auto. rewrite Hy; simpl.
    destruct (proj2 IHl) as [ys Hys]; eauto. rewrite Hys; simpl. eauto.
Qed.

Lemma mapM_ext : forall A B (f g : A -> result B) l,
  (forall x, In x l -> f x = g x) -> mapM f l = mapM g l.
Proof.
  induction l; simpl; intros H; auto.
  rewrite H by auto. rewrite IHl by auto. reflexivity.
Qed.

Lemma mapM_Ok_map : forall A B (f : A -> B) l,
  mapM (fun x => Ok (f x)) l = Ok (map f l).
Proof. induction l; simpl; auto. rewrite IHl. reflexivity. Qed.

Lemma mapM_Err_iff : forall A B (f : A -> result B) l,
  (exists e, mapM f l = Err e) <-> (exists x e, In x l /\ f x = Err e).
Proof.
  induction l; simpl; split; intros H.
  - destruct H; discriminate.
  - destruct H as (x & e & [] & _).
  - destruct H as [e H]. destruct (f a) eqn:E; simpl in H.
    + destruct (mapM f l) eqn:E2; simpl in H; [discriminate|].
      destruct (proj1 IHl) as (x & e' & Hx & Hf); eauto 8.
    + eauto 8.
  - destruct H as (x & e & [->|Hx] & Hf).
    + rewrite Hf. simpl. eauto.
    + destruct (f a); simpl; eauto.
      destruct (proj2 IHl) as [e' He']; eauto. rewrite He'; simpl; eauto.
Qed.

Lemma in_nth_error : forall A (l : list A) x, In x l <-> exists i, nth_error l i = Some x.
Proof.
  split; intros H.
  - apply In_nth_error; auto.
  - destruct H as [i H]. eapply nth_error_In; eauto.
Qed.

Lemma NoDup_nth_error' : forall A (l : list A) i j x,
  NoDup l -> nth_error l i = Some x -> nth_error l j = Some x -> i = j.
Proof.
  intros A l i j x H Hi Hj. rewrite NoDup_nth_error in H.
  apply H; [eapply nth_error_Some_lt; eauto | congruence].
Qed.

Lemma entry_Some : forall A (m : list (list A)) i j x,
  entry m i j = Some x <-> exists r, nth_error m i = Some r /\ nth_error r j = Some x.
Proof.
  unfold entry; intros. destruct (nth_error m i) eqn:E; split; intros H.
  - eauto.
  - destruct H as (r & Hr & Hx). inversion Hr; subst; auto.
  - discriminate.
  - destruct H as (r & Hr & _). discriminate.
Qed.

Lemma concat_uniform_nth : forall A (k : nat), 0 < k -> forall (bs : list (list A)) i,
  Forall (fun b => length b = k) bs ->
  nth_error (concat bs) i =
  match nth_error bs (i / k) with Some b => nth_error b (i mod k) | None => None end.
Proof.
  intros A k Hk. induction bs; intros i HF; simpl.
  - rewrite !nth_error_nil. reflexivity.
  - inversion HF; subst.
    destruct (Nat.lt_ge_cases i (length a)).
    + rewrite nth_error_app1 by auto. rewrite Nat.div_small, Nat.mod_small by auto.
      reflexivity.
    + rewrite nth_error_app2 by auto. rewrite IHbs by auto.
      set (k := length a) in *.
      assert (E1 : i / k = S ((i - k) / k)).
      { replace i with ((i - k) + 1 * k) at 1 by lia. rewrite Nat.div_add by lia. lia. }
      assert (E2 : i mod k = (i - k) mod k).
      { replace i with ((i - k) + 1 * k) at 1 by lia. rewrite Nat.mod_add by lia. auto. }
      rewrite E1, E2. reflexivity.
Qed.

Lemma length_concat_uniform : forall A (k : nat) (bs : list (list A)),
  Forall (fun b => length b = k) bs -> length (concat bs) = length bs * k.
Proof.
  induction 1; simpl; auto. rewrite app_length, IHForall, H. lia.
Qed.
