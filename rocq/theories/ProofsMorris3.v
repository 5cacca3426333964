(** * Morris: brute force selection and copying of trajectories. *)
From Coq Require Import Reals String List Arith ZArith Bool Lia Lra Permutation Sorted.
From Verif Require Import Base Arrays ListFacts ModelGroups ModelScale ProofsScale Stats Sums SpecGroups SpecSobol SpecFF
  ProofsGroups ModelMorris SpecMorris.
Import ListNotations.
Local Open Scope nat_scope.

(** ** Combinations *)
Lemma combinations_cons : forall A k (x : A) r,
  combinations (S k) (x :: r) = map (cons x) (combinations k r) ++ combinations (S k) r.
Proof. reflexivity. Qed.
Lemma combinations_nil : forall A k, combinations (S k) (@nil A) = [].
Proof. reflexivity. Qed.

Lemma combinations_1 : forall A (l : list A), combinations 1 l = map (fun y => [y]) l.
Proof. induction l; [reflexivity|]. rewrite combinations_cons, IHl. reflexivity. Qed.

Lemma combinations_2 : forall A (l : list A), combinations 2 l = map (fun ab => [fst ab; snd ab]) (pairs l).
Proof.
  induction l; [reflexivity|]. rewrite combinations_cons, IHl, combinations_1. cbn [pairs].
  rewrite map_app, !map_map. reflexivity.
Qed.

Lemma combinations_seq : forall k n a c, In c (combinations k (seq a n)) <->
  length c = k /\ (forall x, In x c -> a <= x < a + n) /\ StronglySorted lt c.
Proof.
  induction k; intros n a c.
  - destruct n; simpl; (split; [intros [<-|[]]; repeat split; simpl; auto; tauto || constructor
      | intros (H & _); destruct c; [auto|discriminate]]).
  - revert a c. induction n; intros a c.
    + simpl. split; [tauto|]. intros (H & H1 & _). destruct c as [|x c]; [discriminate|].
      specialize (H1 x (or_introl eq_refl)). lia.
    + cbn [seq]. rewrite combinations_cons, in_app_iff, in_map_iff. split.
      * intros [(c' & <- & Hc)|Hc].
        -- apply IHk in Hc. destruct Hc as (H1 & H2 & H3). split; [simpl; auto|]. split.
           ++ intros x [<-|Hx]; [lia|]. specialize (H2 x Hx). lia.
           ++ constructor; auto. apply Forall_forall. intros x Hx. specialize (H2 x Hx). lia.
        -- apply IHn in Hc. destruct Hc as (H1 & H2 & H3). split; auto. split; auto.
           intros x Hx. specialize (H2 x Hx). lia.
      * intros (H1 & H2 & H3). destruct c as [|x c]; [discriminate|].
        inversion H3 as [|? ? H4 H5]; subst. rewrite Forall_forall in H5.
        destruct (Nat.eq_dec x a) as [->|Hne].
        -- left. exists c. split; auto. apply IHk. split; [simpl in H1; lia|]. split; auto.
           intros y Hy. specialize (H5 y Hy). specialize (H2 y (or_intror Hy)). lia.
        -- right. apply IHn. split; auto. split; auto.
           intros y Hy. pose proof (H2 x (or_introl eq_refl)).
           destruct Hy as [<-|Hy]; [lia|]. specialize (H5 y Hy). specialize (H2 y (or_intror Hy)). lia.
Qed.

Lemma combinations_selection : forall N k c, In c (combinations k (seq 0 N)) <-> selection N k c.
Proof.
  intros. rewrite combinations_seq. unfold selection. split; intros (H1 & H2 & H3); repeat split; auto;
    intros; try (specialize (H2 _ H)); lia.
Qed.

Lemma pairs_map : forall A B (f : A -> B) l, pairs (map f l) = map (fun ab => (f (fst ab), f (snd ab))) (pairs l).
Proof.
  induction l; auto. cbn [map pairs]. rewrite IHl, map_app, !map_map. reflexivity.
Qed.

Lemma pairs_sorted : forall c a b, StronglySorted lt c -> In (a, b) (pairs c) -> a < b /\ In a c /\ In b c.
Proof.
  induction c; simpl; intros x y H Hin; [tauto|]. inversion H as [|? ? H1 H2]; subst.
  rewrite Forall_forall in H2. apply in_app_iff in Hin. destruct Hin as [Hin|Hin].
  - apply in_map_iff in Hin. destruct Hin as (z & E & Hz). injection E as <- <-. auto.
  - destruct (IHc _ _ H1 Hin) as (A & B & C). auto.
Qed.

(** ** Distances *)
Lemma traj_block : forall A (X : list A) size j, traj X size j = block X size j.
Proof. intros. unfold traj, slice, block. f_equal. lia. Qed.

Lemma list_all2_eq : forall A (f : A -> A -> bool), (forall x y, f x y = true <-> x = y) ->
  forall l l', list_all2 f l l' = true <-> l = l'.
Proof.
  intros A f Hf. induction l; destruct l'; simpl; try (split; congruence).
  rewrite andb_true_iff, Hf, IHl. split; [intros [-> ->]; auto | intros E; injection E; auto].
Qed.

Lemma map2_combine : forall A B C (f : A -> B -> C) l l', map2 f l l' = map (fun ab => f (fst ab) (snd ab)) (combine l l').
Proof. induction l; destruct l'; simpl; auto. f_equal; auto. Qed.

Lemma euclid_point : forall x y, euclid x y = point_distance x y.
Proof. intros. unfold euclid, point_distance. rewrite map2_combine. reflexivity. Qed.

Lemma compute_distance_spec : forall rnd A B, is_distance rnd A B (compute_distance rnd A B).
Proof.
  intros. unfold compute_distance, is_distance.
  assert (H : list_all2 (list_all2 Reqb) A B = true <-> A = B).
  { apply list_all2_eq. apply list_all2_eq. intros. apply Reqb_true. }
  destruct (list_all2 _ A B).
  - left. split; [apply H|]; auto.
  - right. split; [intros E; apply H in E; discriminate|]. f_equal. unfold Rsum. f_equal. apply map_ext. intros x.
    f_equal. apply map_ext. intros. apply euclid_point.
Qed.

Lemma is_distance_fun : forall rnd A B d d', is_distance rnd A B d -> is_distance rnd A B d' -> d = d'.
Proof. intros rnd A B d d' [[E ->]|[E ->]] [[E' ->]|[E' ->]]; congruence. Qed.

Lemma dm_at_tab : forall N f a b, a < N -> b < N -> dm_at (tab N N f) a b = f a b.
Proof.
  intros. unfold dm_at, tab.
  assert (E : nth_error (map (fun i => map (fun j => f i j) (seq 0 N)) (seq 0 N)) a
     = Some (map (fun j => f a j) (seq 0 N))).
  { rewrite nth_error_map_seq. apply Nat.ltb_lt in H. rewrite H. auto. }
  rewrite (nth_error_nth _ _ _ E). apply nth_error_nth. rewrite nth_error_map_seq.
  apply Nat.ltb_lt in H0. rewrite H0. auto.
Qed.

Lemma distance_lower : forall rnd X g N local a b, a < b -> b < N ->
  is_distance rnd (block X (g + 1) a) (block X (g + 1) b) (dm_at (distance_matrix rnd X g N local) b a).
Proof.
  intros. unfold distance_matrix. rewrite dm_at_tab by lia.
  assert (E : a <? b = true) by (apply Nat.ltb_lt; auto). rewrite E, !traj_block. apply compute_distance_spec.
Qed.

(** ** Scores of combinations *)
Lemma list_nth_seq : forall A (d : A) (c : list A), c = map (fun i => nth i c d) (seq 0 (length c)).
Proof.
  intros A d c. apply nth_error_ext'. intros i. rewrite nth_error_map_seq.
  destruct (Nat.ltb_spec i (length c)); [apply nth_error_nth'; auto | apply nth_error_None; auto].
Qed.

Lemma combo_score_pairs : forall score M c, combo_score score M (combinations 2 (seq 0 (length c))) c
  = score (map (fun ab => dm_at M (snd ab) (fst ab)) (pairs c)).
Proof.
  intros. unfold combo_score. f_equal. rewrite combinations_2, map_map.
  transitivity (map (fun ab => dm_at M (snd ab) (fst ab)) (pairs (map (fun i => nth i c 0) (seq 0 (length c))))).
  - rewrite pairs_map, map_map. reflexivity.
  - rewrite <- list_nth_seq. reflexivity.
Qed.

Lemma combo_score_spread : forall rnd score X g N c k, selection N k c ->
  is_spread rnd score X (g + 1) c
    (combo_score score (distance_matrix rnd X g N false) (combinations 2 (seq 0 k)) c).
Proof.
  intros rnd score X g N c k (L & Hin & Hs). rewrite <- L, combo_score_pairs. eexists. split; [|reflexivity].
  assert (H : forall l, (forall a b, In (a, b) l -> a < b /\ b < N) ->
     Forall2 (fun ab d => is_distance rnd (block X (g + 1) (fst ab)) (block X (g + 1) (snd ab)) d) l
       (map (fun ab => dm_at (distance_matrix rnd X g N false) (snd ab) (fst ab)) l)).
  { induction l as [|[a b] l]; intros H; simpl; constructor.
    - simpl. destruct (H a b (or_introl eq_refl)). apply distance_lower; auto.
    - apply IHl. intros; apply H; simpl; auto. }
  apply H. intros a b Hab. destruct (pairs_sorted _ _ _ Hs Hab) as (A & B & C). auto.
Qed.

Lemma is_spread_fun : forall rnd score X size c s s',
  is_spread rnd score X size c s -> is_spread rnd score X size c s' -> s = s'.
Proof.
  intros rnd score X size c s s' (ds & H & ->) (ds' & H' & ->). f_equal. revert ds ds' H H'.
  generalize (pairs c). induction l; intros ds ds' H H'; inversion H; inversion H'; subst; auto.
  f_equal; eauto using is_distance_fun.
Qed.

(** ** Chunked scoring *)
Lemma grouper_scores : forall A B (f : A -> B) (z : B) chunk, 0 < chunk ->
  forall fuel l done counter, length l <= fuel -> length done = counter * chunk ->
  exists n, foldM (fun st cs => let '(counter, scores) := st in
      do s <- set_slice scores (counter * chunk) ((counter + 1) * chunk) (map f cs) ;; Ok (S counter, s))
    (grouper fuel chunk l) (counter, done ++ repeat z (length l)) = Ok (n, done ++ map f l).
Proof.
  intros A B f z chunk Hc. induction fuel; intros l done counter Hl Hd.
  - destruct l; [|simpl in Hl; lia]. simpl. eauto.
  - destruct l as [|x l]; [simpl; eauto|]. cbn [grouper].
    cbn [foldM].
    assert (Hlen : length (firstn chunk (x :: l)) = Nat.min chunk (length (x :: l))) by apply firstn_length.
    assert (Es : set_slice (done ++ repeat z (length (x :: l))) (counter * chunk) ((counter + 1) * chunk)
        (map f (firstn chunk (x :: l)))
      = Ok ((done ++ map f (firstn chunk (x :: l))) ++ repeat z (length (skipn chunk (x :: l))))).
    { unfold set_slice. rewrite app_length, repeat_length, map_length, Hlen.
      assert (E1 : (Nat.min ((counter + 1) * chunk) (length done + length (x :: l)) - counter * chunk
                   =? Nat.min chunk (length (x :: l))) = true).
      { apply Nat.eqb_eq. rewrite Hd. nia. }
      rewrite E1. f_equal. rewrite <- Hd, firstn_app, firstn_all, Nat.sub_diag. cbn [firstn]. rewrite app_nil_r.
      rewrite <- app_assoc. f_equal. f_equal.
      rewrite skipn_app.
      rewrite (skipn_all2 done) by lia. cbn [app].
      assert (E2 : Nat.min ((counter + 1) * chunk) (length done + length (x :: l)) - length done
         = Nat.min chunk (length (x :: l))) by nia.
      rewrite E2. rewrite skipn_length.
      assert (Hsk : forall n m, skipn n (repeat z m) = repeat z (m - n)).
      { clear. induction n; destruct m; simpl; auto. }
      rewrite Hsk. f_equal. lia. }
    rewrite Es. cbn [bind].
    destruct (le_lt_dec (length (x :: l)) chunk) as [Hle|Hgt].
    + assert (Esk : skipn chunk (x :: l) = []) by (apply skipn_all2; auto).
      rewrite Esk. destruct fuel; simpl; rewrite (firstn_all2 (n:=chunk)) by auto;
        rewrite app_nil_r; eauto.
    + destruct (IHfuel (skipn chunk (x :: l)) (done ++ map f (firstn chunk (x :: l))) (S counter)) as [n Hn].
      * rewrite skipn_length. simpl length in *. lia.
      * rewrite app_length, map_length, Hlen, Hd. nia.
      * exists n. rewrite Hn. f_equal. f_equal. rewrite <- app_assoc. f_equal. rewrite <- map_app.
        f_equal. apply firstn_skipn.
Qed.

(** ** argmax and sorted *)
Lemma argmax_from_spec : forall l pre best at_, nth_error pre at_ = Some best ->
  (forall x, In x pre -> (x <= best)%R) ->
  exists v, nth_error (pre ++ l) (argmax_from best at_ (length pre) l) = Some v /\
    forall x, In x (pre ++ l) -> (x <= v)%R.
Proof.
  induction l; intros pre best at_ Ha Hb; simpl.
  - exists best. rewrite app_nil_r. auto.
  - assert (E : pre ++ a :: l = (pre ++ [a]) ++ l) by (rewrite <- app_assoc; auto).
    assert (Hlen : S (length pre) = length (pre ++ [a])) by (rewrite app_length; simpl; lia).
    destruct (Rltb best a) eqn:Eb; rewrite E, Hlen; apply IHl.
    + rewrite nth_error_app2, Nat.sub_diag by lia. auto.
    + intros x Hx. apply in_app_iff in Hx. apply Rltb_true in Eb.
      destruct Hx as [Hx|[<-|[]]]; [specialize (Hb x Hx); lra | lra].
    + rewrite nth_error_app1; auto. eapply nth_error_Some_lt; eauto.
    + intros x Hx. apply in_app_iff in Hx.
      destruct Hx as [Hx|[<-|[]]]; [auto|].
      destruct (Rlt_dec best a) as [Hlt|]; [apply Rltb_true in Hlt; congruence | lra].
Qed.

Lemma argmax_spec : forall l, l <> [] -> exists i v, argmax l = Ok i /\ nth_error l i = Some v /\
  forall x, In x l -> (x <= v)%R.
Proof.
  intros [|x l] H; [congruence|]. simpl.
  destruct (argmax_from_spec l [x] x 0 eq_refl) as (v & H1 & H2).
  { intros y [<-|[]]; lra. }
  exists (argmax_from x 0 1 l), v. auto.
Qed.

Lemma sorted_id : forall c, StronglySorted lt c -> sorted c = c.
Proof.
  unfold sorted. induction c; intros H; auto. inversion H as [|? ? H1 H2]; subst. simpl. rewrite IHc by auto.
  destruct c as [|y c]; auto. simpl. inversion H2; subst.
  assert (E : a <=? y = true) by (apply Nat.leb_le; lia). rewrite E. auto.
Qed.

(** ** Brute force *)
Lemma check_input_ok : forall X g N D, trajectories_of N (g + 1) D X -> 0 < N -> check_input_sample X g N = Ok tt.
Proof.
  intros X g N D (HL & HF & HD & _) HN. unfold check_input_sample. rewrite HL, Nat.eqb_refl. cbn [negb].
  destruct X as [|r X]; [simpl in HL; nia|]. inversion HF; subst. simpl.
  destruct (Nat.eqb_spec (length r) 0); [lia|]. reflexivity.
Qed.

Theorem brute_force_optimal : forall rnd score chunk X g N k D, trajectories_of N (g + 1) D X ->
  1 <= k <= N -> 1 <= chunk ->
  exists c s, brute_force rnd score chunk X g N k = Ok c /\ selection N k c /\
    is_spread rnd score X (g + 1) c s /\
    forall c' s', selection N k c' -> is_spread rnd score X (g + 1) c' s' -> (s' <= s)%R.
Proof.
  intros rnd score chunk X g N k D HX Hk Hc.
  unfold brute_force, find_most_distant. rewrite (check_input_ok X g N D HX) by lia. cbn [bind].
  set (M := distance_matrix rnd X g N false). set (cs := combinations k (seq 0 N)).
  set (f := combo_score score M (combinations 2 (seq 0 k))).
  assert (Hne : cs <> []).
  { intros E. assert (Q : In (seq 0 k) cs).
    { apply combinations_selection. split; [apply seq_length|]. split.
      - intros x Hx. apply in_seq in Hx. lia.
      - clear. generalize 0. induction k; intros a; simpl; constructor; auto.
        apply Forall_forall. intros x Hx. apply in_seq in Hx. lia. }
    rewrite E in Q. auto. }
  assert (Hpos : 0 < length cs) by (destruct cs; [congruence|simpl; lia]).
  set (ch := if length cs <? chunk then length cs else chunk).
  assert (Hch : 0 < ch) by (unfold ch; destruct (length cs <? chunk); lia).
  destruct (grouper_scores _ _ f 0%R ch Hch (length cs) cs [] 0 (Nat.le_refl _) eq_refl) as [n Hn].
  cbn [app] in Hn. rewrite Hn. cbn [bind snd].
  unfold find_maximum.
  destruct (argmax_spec (map f cs)) as (i & v & Ei & Hv & Hmax).
  { destruct cs; [congruence|discriminate]. }
  rewrite Ei. cbn [bind]. fold cs. rewrite nth_error_map' in Hv.
  destruct (nth_error cs i) as [c|] eqn:Ec; [|discriminate]. injection Hv as <-.
  assert (Hsel : selection N k c) by (apply combinations_selection; eapply nth_error_In; eauto).
  exists c, (f c). split; [rewrite sorted_id; [auto | apply Hsel]|]. split; auto. split.
  - apply combo_score_spread; auto.
  - intros c' s' Hc' Hs'.
    assert (s' = f c') by (eapply is_spread_fun; eauto; apply combo_score_spread; auto). subst s'.
    apply Hmax. apply in_map. apply combinations_selection; auto.
Qed.

(** ** Copying *)
Lemma block_length : forall A (X : list A) size N j, length X = size * N -> j < N -> length (block X size j) = size.
Proof.
  intros. unfold block. rewrite firstn_length, skipn_length, H. nia.
Qed.

Lemma block_incl : forall A (X : list A) size j, incl (block X size j) X.
Proof.
  intros A X size j z Hz. unfold block in Hz. rewrite <- (firstn_skipn (j * size) X). apply in_app_iff. right.
  rewrite <- (firstn_skipn size (skipn (j * size) X)). apply in_app_iff. auto.
Qed.

Lemma fold_blocks : forall X g N combo st, (forall c, In c combo -> c < N) ->
  foldM (fun st c => if c <? N then foldM write_row (traj X (g + 1) c) st else Err IndexError) combo st
  = foldM (@write_row R) (concat (map (block X (g + 1)) combo)) st.
Proof.
  induction combo; intros st H; auto. cbn [foldM map concat]. rewrite foldM_app, traj_block.
  assert (Ha : a <? N = true) by (apply Nat.ltb_lt, H; simpl; auto). rewrite Ha.
  destruct (foldM write_row (block X (g + 1) a) st); cbn [bind]; auto.
  apply IHcombo. intros; apply H; simpl; auto.
Qed.

Lemma concat_blocks_length : forall A (X : list A) size N combo, length X = size * N -> (forall c, In c combo -> c < N) ->
  length (concat (map (block X size) combo)) = length combo * size.
Proof.
  induction combo; intros HL H; auto. cbn [map concat]. rewrite app_length, IHcombo; auto.
  - rewrite (block_length _ X size N a HL); [simpl; lia|]. apply H; simpl; auto.
  - intros; apply H; simpl; auto.
Qed.

Lemma compile_output_ok : forall X g N D combo, trajectories_of N (g + 1) D X -> 0 < N ->
  (forall c, In c combo -> c < N) ->
  compile_output X g D N combo = Ok (concat (map (block X (g + 1)) combo)).
Proof.
  intros X g N D combo HX HN H. unfold compile_output. rewrite (check_input_ok X g N D HX HN). cbn [bind].
  rewrite fold_blocks by auto. destruct HX as (HL & HF & _).
  rewrite (@write_rows_all R D 0%R).
  - reflexivity.
  - symmetry. apply concat_blocks_length with N; auto.
  - rewrite Forall_forall in *. intros r Hr. apply in_concat in Hr. destruct Hr as (b & Hb & Hr).
    apply in_map_iff in Hb. destruct Hb as (c & <- & _). apply HF. eapply block_incl; eauto.
Qed.
