(** * Morris statistics are unbiased. *)
From Coq Require Import Reals String List Arith ZArith Bool Lia Lra Permutation.
From Verif Require Import Base Arrays ListFacts ModelGroups ModelScale Stats Sums SpecGroups SpecSobol SpecFF
  ProofsGroups ProofsSobol6 ProofsFF2 ModelMorris ModelMorrisAnalyze SpecMorris SpecExpect ProofsExpect ProofsExpect2 SpecMorris2
  ProofsMorris1 ProofsMorris2 ProofsMorris8 ProofsMorris11.
Import ListNotations.
Local Open Scope nat_scope.

(** ** Expectations only look at possible values *)
Definition possible {A} (ds : list (@law A)) (x : list A) : Prop := Forall2 (fun v d => In v (map fst d)) x ds.

Lemma expect_ext_in : forall A (ds : list (@law A)) f g, (forall x, possible ds x -> f x = g x) -> expect ds f = expect ds g.
Proof.
  intros A. induction ds as [|d ds IH]; intros f g H; [apply H; constructor|]. rewrite !expect_cons. apply Rsum_ext. intros vw I. f_equal. apply IH.
  intros x P. apply H. constructor; [apply in_map; exact I|exact P].
Qed.
Lemma points_ext_in : forall A n (ds : list (@law A)) f g, (forall xs, length xs = n -> Forall (possible ds) xs -> f xs = g xs) ->
  expect_points n ds f = expect_points n ds g.
Proof.
  intros A. induction n as [|n IH]; intros ds f g H; cbn [expect_points]; [apply H; [reflexivity|constructor]|].
  apply expect_ext_in. intros x P. apply IH. intros xs L F. apply H; [cbn; congruence|constructor; assumption].
Qed.

Lemma uniform_probability : forall A (l : list A), l <> [] -> probability (uniform l).
Proof.
  intros A l NE. assert (L : (0 < INR (length l))%R) by (apply lt_0_INR; destruct l; [congruence|cbn; lia]). split.
  - intros v w I. unfold uniform in I. apply in_map_iff in I as (y & E & _). injection E as _ <-. left. apply Rinv_0_lt_compat, L.
  - unfold total_weight, uniform. rewrite map_map. cbn [snd]. change (Rsum (map (fun _ : A => (/ INR (length l))%R) l) = 1%R).
    rewrite Rsum_const. field. lra.
Qed.
Lemma uniform_expect : forall A (l : list A) ds f,
  expect (uniform l :: ds) f = (/ INR (length l) * Rsum (map (fun v => expect ds (fun x => f (v :: x))) l))%R.
Proof. intros. rewrite expect_cons. unfold uniform. rewrite map_map. cbn [fst snd]. apply Rsum_map_scal. Qed.

Lemma possible_uniform : forall A (l : list A) D x, possible (repeat (uniform l) D) x <-> length x = D /\ forall v, In v x -> In v l.
Proof.
  intros A l D. assert (E : map fst (uniform l) = l).
  { unfold uniform. rewrite map_map. cbn [fst]. apply map_id. }
  induction D as [|D IH]; intros x; cbn [repeat]; split.
  - intros P. inversion P; subst. split; [reflexivity|intros v []].
  - intros (L & _). destruct x; [constructor|discriminate].
  - intros P. inversion P as [|v d x' ? I P']; subst. apply IH in P' as (L & F). split; [cbn; congruence|]. rewrite E in I. intros w [<-|W]; auto.
  - intros (L & F). destruct x as [|v x]; [discriminate|]. constructor; [rewrite E; apply F; left; reflexivity|].
    apply IH. split; [cbn in L; congruence|]. intros w W. apply F. right. exact W.
Qed.

Lemma choices_probability : forall n D, 1 <= n -> Forall probability (choices n D).
Proof.
  intros n D N. apply Forall_forall. intros l I. apply repeat_spec in I. subst l. apply uniform_probability.
  destruct n; [lia|]. cbn. discriminate.
Qed.
Lemma grid_probability : forall n D, 1 <= n -> Forall probability (grid_law n D).
Proof.
  intros n D N. apply Forall_forall. intros l I. apply repeat_spec in I. subst l. apply uniform_probability.
  destruct n; [lia|]. cbn. discriminate.
Qed.

(** A direction and a starting position give a level; all levels are equally likely, whether the step has been taken ([m]) or not. *)
Definition to_level (n : nat) (m : bool) (v : bool * nat) : nat := snd v + if Bool.eqb m (fst v) then n else 0.
Fixpoint to_levels (n : nat) (m : nat -> bool) (c : list (bool * nat)) : list nat :=
  match c with [] => [] | v :: c => to_level n (m 0) v :: to_levels n (fun j => m (S j)) c end.

Lemma to_levels_nth : forall n c m j, nth_error (to_levels n m c) j = option_map (to_level n (m j)) (nth_error c j).
Proof. intros n. induction c as [|v c IH]; intros m [|j]; cbn [to_levels nth_error option_map]; try reflexivity. rewrite IH. reflexivity. Qed.

Lemma level_sum : forall n m (g : nat -> R), Rsum (map (fun v => g (to_level n m v)) (list_prod [false; true] (seq 0 n))) = Rsum (map g (seq 0 (2 * n))).
Proof.
  intros n m g. cbn [list_prod]. rewrite app_nil_r, map_app, !map_map. unfold to_level. cbn [fst snd].
  replace (2 * n) with (n + n) by lia. rewrite seq_app, map_app, !Rsum_app. cbn [plus].
  assert (S1 : map g (seq n n) = map (fun s => g (s + n)) (seq 0 n)).
  { apply nth_error_ext'. intros j. rewrite nth_error_map_seq, nth_error_map', nth_error_seq. destruct (Nat.ltb_spec j n); [|reflexivity].
    cbn [option_map]. do 2 f_equal. lia. }
  rewrite S1. assert (S2 : map g (seq 0 n) = map (fun s => g (s + 0)) (seq 0 n)) by (apply map_ext; intros; f_equal; lia).
  rewrite S2. destruct m; cbn [Bool.eqb]; ring.
Qed.

Lemma choice_law : forall n D m (F : list nat -> R), 1 <= n ->
  expect (choices n D) (fun c => F (to_levels n m c)) = expect (grid_law (2 * n) D) F.
Proof.
  intros n. unfold choices, grid_law. induction D as [|D IH]; intros m F N; [reflexivity|]. cbn [repeat]. rewrite !uniform_expect.
  rewrite prod_length, !seq_length. change (length [false; true]) with 2. f_equal.
  rewrite <- (level_sum n (m 0)). apply Rsum_ext. intros v _. cbn [to_levels].
  apply (IH (fun j => m (S j)) (fun x => F (to_level n (m 0) v :: x)) N).
Qed.

(** ** One trajectory *)
Section Trajectory.
Variables (bounds : list (list R)) (ls : list string) (n : nat) (f : list R -> R) (grp : nat -> nat).
Hypothesis HB : good_box bounds.
Hypothesis HL : length bounds = length ls.
Hypothesis HN : 1 <= n.
Hypothesis HG : grouping ls grp.
Let D := length ls.
Let G := length (pd_unique ls).

(** The levels just before the step of the [k]-th label. *)
Definition before (order : list nat) (k : nat) (c : list (bool * nat)) : list nat :=
  to_levels n (fun j => nth (grp j) order 0 <? nth k order 0) c.

Lemma row_levels : forall order c i, choice_of n D c ->
  level_row n D (draw_of order c) grp i = to_levels n (fun j => nth (grp j) order 0 <? i) c.
Proof.
  intros order c i (Lc & _). apply nth_error_ext'. intros j. rewrite to_levels_nth. unfold level_row. rewrite nth_error_map_seq.
  destruct (Nat.ltb_spec j D) as [J|J].
  - rewrite (nth_error_nth' c (true, 0)) by lia. reflexivity.
  - assert (nth_error c j = None) as -> by (apply nth_error_None; lia). reflexivity.
Qed.

Lemma level_lt : forall m v, snd v < n -> to_level n m v < 2 * n.
Proof. intros m [b s] H. unfold to_level. cbn [fst snd] in *. destruct (Bool.eqb m b); lia. Qed.

Lemma eff_row : forall order k x j c, Permutation order (seq 0 G) -> choice_of n D c -> nth_error (pd_unique ls) k = Some x -> nth_error ls j = Some x ->
  let T := level_traj bounds n G (draw_of order c) grp in
  is_effect (step (2 * n)) T (map f T) j (grid_effect bounds ls n f x j (before order k c)).
Proof.
  intros order k x j c HO HC HK HJ T. destruct (perm_facts _ _ HO) as (LO & NO & IO).
  assert (KG : k < G) by (eapply nth_error_Some_lt; eauto). assert (JD : j < D) by (eapply nth_error_Some_lt; eauto).
  set (r := nth k order 0). assert (RG : r < G) by (apply IO, nth_In; lia).
  assert (Gj : grp j = k).
  { destruct (HG j JD) as (Q & _). apply (grp_unique ls j); [exact Q|]. exists x. auto. }
  set (z := before order k c).
  assert (Lz : length z = D).
  { unfold z, before. fold r. rewrite <- (row_levels order c r HC). unfold level_row. rewrite map_length, seq_length. reflexivity. }
  assert (Ra : nth_error T r = Some (grid_point bounds (2 * n) z)).
  { unfold T. rewrite level_traj_nth by lia. rewrite HL. fold D. rewrite row_levels by assumption. reflexivity. }
  assert (Es : level_row n D (draw_of order c) grp (r + 1) = stepped ls n x z).
  { rewrite row_levels by assumption. apply nth_error_ext'. intros i. rewrite to_levels_nth. unfold stepped. rewrite nth_error_map_seq, Lz.
    destruct (Nat.ltb_spec i D) as [I|I].
    - destruct HC as (Lc & Hc). destruct (nth_error_lt_Some c (i := i)) as [v Hv]; [unfold D in *; lia|]. rewrite Hv. cbn [option_map]. f_equal.
      assert (Ez : nth i z 0 = to_level n (nth (grp i) order 0 <? r) v).
      { apply nth_error_nth. unfold z, before. rewrite to_levels_nth, Hv. reflexivity. }
      rewrite Ez. destruct (HG i I) as ((y & Y1 & Y2) & Gi). rewrite (nth_error_nth ls i EmptyString Y1).
      assert (Sv : snd v < n) by (apply Hc; eapply nth_error_In; eauto).
      destruct (String.eqb_spec y x) as [->|NE].
      + assert (grp i = k).
        { apply (proj1 (NoDup_nth_error (pd_unique ls)) (pd_unique_NoDup ls)); [exact Gi|congruence]. }
        rewrite H. fold r. rewrite Nat.ltb_irrefl. assert (r <? r + 1 = true) as -> by (apply Nat.ltb_lt; lia).
        unfold to_level, across. destruct v as [b s]. cbn [fst snd] in *. destruct b; cbn [Bool.eqb].
        * destruct (Nat.ltb_spec (s + 0) n); lia.
        * destruct (Nat.ltb_spec (s + n) n); lia.
      + assert (NK : nth (grp i) order 0 <> r).
        { intros E. apply NE. assert (grp i = k); [|congruence]. unfold r in E. apply (proj1 (NoDup_nth order 0) NO); unfold G in *; try lia. }
        f_equal. destruct (Nat.ltb_spec (nth (grp i) order 0) r), (Nat.ltb_spec (nth (grp i) order 0) (r + 1)); try reflexivity; lia.
    - assert (nth_error c i = None) as -> by (apply nth_error_None; destruct HC; lia). reflexivity. }
  assert (Rb : nth_error T (r + 1) = Some (grid_point bounds (2 * n) (stepped ls n x z))).
  { unfold T. rewrite level_traj_nth by lia. rewrite HL. fold D. rewrite Es. reflexivity. }
  assert (Fy : forall i a, nth_error T i = Some a -> nth i (map f T) 0%R = f a).
  { intros i a E. apply nth_error_nth. rewrite nth_error_map', E. reflexivity. }
  exists r, (grid_point bounds (2 * n) z), (grid_point bounds (2 * n) (stepped ls n x z)).
  split; [exact Ra|]. split; [exact Rb|]. rewrite (Fy _ _ Ra), (Fy _ _ Rb).
  assert (GP : forall y, nth j (grid_point bounds (2 * n) y) 0%R = (lower bounds j + INR (nth j y 0%nat) / (INR (2 * n) - 1) * ranges bounds j)%R).
  { intros y. apply nth_error_nth. unfold grid_point. rewrite nth_error_map_seq, HL. fold D. assert (JB := JD). apply Nat.ltb_lt in JB. rewrite JB. reflexivity. }
  rewrite !GP. assert (Sj : nth j (stepped ls n x z) 0 = across n (nth j z 0)).
  { apply nth_error_nth. unfold stepped. rewrite nth_error_map_seq, Lz. assert (JB := JD). apply Nat.ltb_lt in JB. rewrite JB.
    rewrite (nth_error_nth ls j EmptyString HJ), String.eqb_refl. reflexivity. }
  rewrite Sj. destruct (good_box_nth bounds j HB ltac:(unfold D in *; lia)) as [_ Hlt].
  destruct (levels_facts (2 * n) ltac:(lia)) as (_ & Q & _).
  assert (MONO : forall a b, a < b -> (lower bounds j + INR a / (INR (2 * n) - 1) * ranges bounds j < lower bounds j + INR b / (INR (2 * n) - 1) * ranges bounds j)%R).
  { intros a b AB. apply lt_INR in AB. unfold ranges. apply Rplus_lt_compat_l, Rmult_lt_compat_r; [lra|]. unfold Rdiv.
    apply Rmult_lt_compat_r; [|exact AB]. apply Rinv_0_lt_compat. lra. }
  assert (ZJ : nth j z 0 < 2 * n).
  { unfold z, before. destruct HC as (Lc & Hc). destruct (nth_error_lt_Some c (i := j)) as [v Hv]; [unfold D in *; lia|].
    erewrite nth_error_nth; [|rewrite to_levels_nth, Hv; reflexivity]. apply level_lt, Hc. eapply nth_error_In; eauto. }
  unfold grid_effect, across. destruct (Nat.ltb_spec (nth j z 0) n) as [LT|GE].
  - left. split; [apply MONO; lia|reflexivity].
  - right. split; [apply MONO; lia|reflexivity].
Qed.

Lemma level_trajectory : forall v d, scaler bounds v -> Permutation (t_perm d) (seq 0 G) -> (forall j, t_start d j < n) ->
  trajectory ls (fun j => step (2 * n) * ranges bounds j)%R (level_traj bounds n G d grp).
Proof.
  intros v d SV HO HS. pose proof (traj_is_trajectory ls (pd_unique ls) (2 * n) d grp eq_refl HO HG) as T.
  apply (trajectory_scaled ls _ bounds v _ HL SV) in T. unfold level_traj.
  match goal with |- trajectory _ _ ?a => match type of T with trajectory _ _ ?b => replace a with b; [exact T|] end end.
  unfold tab. rewrite map_map. apply map_ext_in. intros i _. rewrite <- HL. apply physical_levels; auto.
Qed.
End Trajectory.
