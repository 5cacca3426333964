(** * More numpy/Python primitives: loops over a state, row buffers, array_split.

    Nothing here models a SALib function. *)
From Coq Require Import List Arith Bool Lia.
From Verif Require Import Base.
Import ListNotations.
Set Implicit Arguments.

(** A Python [for x in l] loop updating a state; the first exception stops it. *)
Fixpoint foldM {S X} (f : S -> X -> result S) (l : list X) (s : S) : result S :=
  match l with
  | [] => Ok s
  | x :: r => do s' <- f s x ;; foldM f r s'
  end.

(** A preallocated array of rows together with the [index] of the next row to be written. *)
Definition buffer (A : Type) : Type := (nat * list (list A))%type.

(** [out[index, :] = row; index += 1]: IndexError beyond the allocated rows, ValueError when the
    row does not have the array's width (given by the row it replaces). *)
Definition write_row {A} (b : buffer A) (row : list A) : result (buffer A) :=
  match nth_error (snd b) (fst b) with
  | None => Err IndexError
  | Some old => if length old =? length row then Ok (S (fst b), update (snd b) (fst b) row)
                else Err ValueError
  end.

(** numpy.array_split(l, n) along axis 0: the first [len(l) % n] parts have [len(l) // n + 1]
    elements, the others [len(l) // n]; ValueError for n = 0. *)
Fixpoint split_sizes {A} (sizes : list nat) (l : list A) : list (list A) :=
  match sizes with
  | [] => []
  | s :: r => firstn s l :: split_sizes r (skipn s l)
  end.
Definition array_split {A} (l : list A) (n : nat) : result (list (list A)) :=
  if n =? 0 then Err ValueError
  else let q := length l / n in
       let e := length l mod n in
       Ok (split_sizes (repeat (S q) e ++ repeat q (n - e)) l).

(** ** Lemmas *)
Lemma foldM_app : forall S X (f : S -> X -> result S) l l' s,
  foldM f (l ++ l') s = (do s' <- foldM f l s ;; foldM f l' s').
Proof.
  induction l; simpl; intros; auto. destruct (f s a); simpl; auto.
Qed.

Lemma foldM_map : forall S X Y (g : Y -> X) (f : S -> X -> result S) l s,
  foldM f (map g l) s = foldM (fun s y => f s (g y)) l s.
Proof. induction l; simpl; intros; auto. destruct (f s (g a)); simpl; auto. Qed.

Lemma foldM_ext : forall S X (f g : S -> X -> result S) l s,
  (forall s x, In x l -> f s x = g s x) -> foldM f l s = foldM g l s.
Proof.
  induction l; simpl; intros s H; auto. rewrite H by auto. destruct (g s a); simpl; auto.
Qed.

Lemma update_mid : forall A (l1 : list A) x l2 y, update (l1 ++ x :: l2) (length l1) y = l1 ++ y :: l2.
Proof. induction l1; simpl; intros; auto. f_equal. auto. Qed.

(** Writing rows one after the other fills the buffer with exactly those rows. *)
Lemma write_rows_fill : forall A w (rs : list (list A)) done todo,
  length todo = length rs -> Forall (fun r => length r = w) todo -> Forall (fun r => length r = w) rs ->
  foldM write_row rs (length done, done ++ todo) = Ok (length done + length rs, done ++ rs).
Proof.
  induction rs as [|r rs IH]; intros done todo Hl Ht Hr; simpl.
  - destruct todo; [|discriminate]. f_equal. f_equal; lia.
  - destruct todo as [|t todo]; [discriminate|]. simpl in Hl.
    inversion Ht; subst. inversion Hr as [|? ? Hr1 Hr2]; subst.
    unfold write_row at 1. cbn [fst snd].
    rewrite nth_error_app2, Nat.sub_diag by lia. simpl.
    rewrite Hr1, Nat.eqb_refl. simpl. rewrite update_mid.
    replace (done ++ r :: todo) with ((done ++ [r]) ++ todo) by (rewrite <- app_assoc; reflexivity).
    replace (S (length done)) with (length (done ++ [r])) by (rewrite app_length; simpl; lia).
    rewrite IH; auto.
    rewrite app_length. simpl. f_equal. f_equal; [lia|]. rewrite <- app_assoc. reflexivity.
Qed.

Lemma write_rows_all : forall A w (z : A) (rs : list (list A)) n,
  n = length rs -> Forall (fun r => length r = w) rs ->
  foldM write_row rs (0, repeat (repeat z w) n) = Ok (n, rs).
Proof.
  intros A w z rs n -> H.
  pose proof (@write_rows_fill A w rs [] (repeat (repeat z w) (length rs))) as F. simpl in F.
  apply F; auto.
  - apply repeat_length.
  - apply Forall_forall. intros r Hr. apply repeat_spec in Hr. subst. apply repeat_length.
Qed.

Lemma split_sizes_concat : forall A sizes (l : list A),
  length l <= list_sum sizes -> concat (split_sizes sizes l) = l.
Proof.
  induction sizes; simpl; intros l H.
  - destruct l; simpl in *; auto; lia.
  - rewrite IHsizes; [apply firstn_skipn|]. rewrite skipn_length. lia.
Qed.

Lemma list_sum_repeat : forall x n, list_sum (repeat x n) = n * x.
Proof. induction n; simpl; auto. Qed.

Lemma split_sizes_length : forall A sizes (l : list A), length (split_sizes sizes l) = length sizes.
Proof. induction sizes; simpl; intros; auto. Qed.

(** array_split loses, duplicates and reorders nothing, and makes exactly [n] parts. *)
Lemma array_split_concat : forall A (l : list A) n ps,
  array_split l n = Ok ps -> concat ps = l /\ length ps = n.
Proof.
  unfold array_split. intros A l n ps H.
  destruct (n =? 0) eqn:E; [discriminate|]. apply Nat.eqb_neq in E.
  injection H as <-.
  pose proof (Nat.mod_upper_bound (length l) n E).
  pose proof (Nat.div_mod (length l) n E).
  split.
  - apply split_sizes_concat. rewrite list_sum_app, !list_sum_repeat. nia.
  - rewrite split_sizes_length, app_length, !repeat_length. lia.
Qed.

Lemma array_split_ok : forall A (l : list A) n, 0 < n -> exists ps, array_split l n = Ok ps.
Proof.
  intros A l n H. unfold array_split. destruct (Nat.eqb_spec n 0); [lia|]. eauto.
Qed.

Lemma update_comm : forall A (l : list A) i j x y, i <> j ->
  update (update l i x) j y = update (update l j y) i x.
Proof.
  induction l; intros i j x y H; simpl; auto.
  destruct i, j; simpl; auto; try lia. f_equal. apply IHl. lia.
Qed.

(** ** Arrays given by a function of their indices *)
Definition tab {A} (n d : nat) (c : nat -> nat -> A) : list (list A) :=
  map (fun i => map (c i) (seq 0 d)) (seq 0 n).

Lemma nth_error_map_seq : forall A (f : nat -> A) n i,
  nth_error (map f (seq 0 n)) i = if i <? n then Some (f i) else None.
Proof. intros. rewrite nth_error_map', nth_error_seq. destruct (i <? n); auto. Qed.

Lemma entry_tab : forall A n d (c : nat -> nat -> A) i j,
  entry (tab n d c) i j = if (i <? n) && (j <? d) then Some (c i j) else None.
Proof.
  intros. unfold entry, tab. rewrite nth_error_map_seq. destruct (i <? n); auto.
  rewrite nth_error_map_seq. auto.
Qed.

Lemma tab_ext : forall A n d (c c' : nat -> nat -> A),
  (forall i j, i < n -> j < d -> c i j = c' i j) -> tab n d c = tab n d c'.
Proof.
  intros A n d c c' H. unfold tab. apply map_ext_in. intros i Hi. apply in_seq in Hi.
  apply map_ext_in. intros j Hj. apply in_seq in Hj. apply H; lia.
Qed.

Lemma tab_length : forall A n d (c : nat -> nat -> A), length (tab n d c) = n.
Proof. intros. unfold tab. rewrite map_length, seq_length. auto. Qed.

Lemma tab_widths : forall A n d (c : nat -> nat -> A), Forall (fun r => length r = d) (tab n d c).
Proof.
  intros. apply Forall_forall. intros r Hr. unfold tab in Hr. apply in_map_iff in Hr.
  destruct Hr as (i & <- & _). rewrite map_length, seq_length. auto.
Qed.

Lemma repeat_tab : forall A (x : A) n d, repeat (repeat x d) n = tab n d (fun _ _ => x).
Proof.
  intros. apply nth_error_ext'. intros i. unfold tab.
  rewrite nth_error_repeat, nth_error_map_seq. destruct (i <? n); auto. f_equal.
  apply nth_error_ext'. intros j. rewrite nth_error_repeat, nth_error_map_seq. destruct (j <? d); auto.
Qed.

(** [row[js] = v]: IndexError when a position is outside. *)
Definition set_many {A} (row : list A) (js : list nat) (v : A) : result (list A) :=
  if forallb (fun j => j <? length row) js then Ok (fold_left (fun r j => update r j v) js row)
  else Err IndexError.

Lemma fold_update_nth : forall A (v : A) js row k,
  nth_error (fold_left (fun r j => update r j v) js row) k =
  if existsb (Nat.eqb k) js && (k <? length row) then Some v else nth_error row k.
Proof.
  induction js as [|j js IH]; intros row k; cbn [fold_left existsb].
  - reflexivity.
  - rewrite IH, length_update, nth_error_update.
    destruct (Nat.eqb_spec k j) as [->|E]; cbn [orb andb].
    + destruct (existsb _ js); cbn [andb]; [destruct (j <? length row)|]; auto.
    + destruct (existsb _ js && _); auto.
Qed.

Lemma set_many_seq : forall A d (c : nat -> A) js v, (forall j, In j js -> j < d) ->
  set_many (map c (seq 0 d)) js v =
  Ok (map (fun j => if existsb (Nat.eqb j) js then v else c j) (seq 0 d)).
Proof.
  intros A d c js v H. unfold set_many. rewrite map_length, seq_length.
  replace (forallb (fun j => j <? d) js) with true.
  - f_equal. apply nth_error_ext'. intros i.
    rewrite fold_update_nth, map_length, seq_length, !nth_error_map_seq.
    destruct (i <? d), (existsb (Nat.eqb i) js); auto.
  - symmetry. apply forallb_forall. intros j Hj. apply Nat.ltb_lt. auto.
Qed.

(** Rewriting each row in turn. *)
Lemma foldM_rows : forall A (f : nat -> list A -> result (list A)) (g : nat -> list A -> list A) todo done,
  (forall i r, nth_error todo i = Some r -> f (length done + i) r = Ok (g (length done + i) r)) ->
  foldM (fun m s => do r <- get m s ;; do r' <- f s r ;; Ok (update m s r'))
        (seq (length done) (length todo)) (done ++ todo)
  = Ok (done ++ map2 g (seq (length done) (length todo)) todo).
Proof.
  induction todo as [|r todo IH]; intros done H; cbn [length seq foldM map2].
  - auto.
  - unfold get. rewrite nth_error_app2, Nat.sub_diag by lia. cbn [nth_error bind].
    pose proof (H 0 r eq_refl) as H0. rewrite Nat.add_0_r in H0. rewrite H0. cbn [bind].
    rewrite update_mid.
    replace (done ++ g (length done) r :: todo) with ((done ++ [g (length done) r]) ++ todo)
      by (rewrite <- app_assoc; auto).
    replace (S (length done)) with (length (done ++ [g (length done) r])) by (rewrite app_length; simpl; lia).
    rewrite IH.
    + rewrite <- app_assoc. reflexivity.
    + intros i r' Hi. rewrite app_length. cbn [length]. 
      replace (length done + 1 + i) with (length done + S i) by lia. apply H. auto.
Qed.

Lemma foldM_rows_tab : forall A n d (f : nat -> list A -> result (list A)) (c c' : nat -> nat -> A),
  (forall i, i < n -> f i (map (c i) (seq 0 d)) = Ok (map (c' i) (seq 0 d))) ->
  foldM (fun m s => do r <- get m s ;; do r' <- f s r ;; Ok (update m s r')) (seq 0 n) (tab n d c)
  = Ok (tab n d c').
Proof.
  intros A n d f c c' H.
  pose proof (@foldM_rows A f (fun i _ => map (c' i) (seq 0 d)) (tab n d c) []) as F.
  cbn [length app] in F. rewrite tab_length in F. rewrite F.
  - f_equal. apply nth_error_ext'. intros i. rewrite nth_error_map2, nth_error_seq. unfold tab.
    rewrite !nth_error_map_seq. destruct (i <? n); auto.
  - intros i r Hr. unfold tab in Hr. rewrite nth_error_map_seq in Hr.
    destruct (Nat.ltb_spec i n); [|discriminate]. injection Hr as <-. auto.
Qed.
