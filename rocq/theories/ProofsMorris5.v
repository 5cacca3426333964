(** * Morris: optimised samples end to end. *)
From Coq Require Import Reals String List Arith ZArith Bool Lia Lra Permutation Sorted.
From Verif Require Import Base Arrays ListFacts ModelGroups ModelScale ProofsScale Stats Sums SpecGroups SpecSobol SpecFF
  ProofsGroups ProofsSobol6 ProofsFF2 ModelMorris SpecMorris ProofsMorris1 ProofsMorris2 ProofsMorris3 ProofsMorris4.
Import ListNotations.
Local Open Scope nat_scope.

Lemma block_concat : forall A size (Ts : list (list A)) c, Forall (fun T => length T = size) Ts -> c < length Ts ->
  block (concat Ts) size c = nth c Ts [].
Proof.
  intros A size. induction Ts; intros c H Hc; [simpl in Hc; lia|]. inversion H as [|? ? Ha HT]; subst.
  unfold block. cbn [concat]. destruct c.
  - cbn [Nat.mul skipn nth]. rewrite firstn_app, firstn_all, Nat.sub_diag. cbn [firstn]. apply app_nil_r.
  - cbn [nth]. rewrite <- (IHTs c); [|auto|simpl in Hc; lia]. unfold block. f_equal.
    rewrite skipn_app. rewrite skipn_all2 by nia. cbn [app]. f_equal. nia.
Qed.

Lemma block_map : forall A B (f : A -> B) X size c, block (map f X) size c = map f (block X size c).
Proof. intros. unfold block. rewrite skipn_map, firstn_map. auto. Qed.

Lemma concat_blocks_map : forall A B (f : A -> B) X size combo,
  map f (concat (map (block X size) combo)) = concat (map (block (map f X) size) combo).
Proof.
  intros. rewrite concat_map, map_map. f_equal. apply map_ext. intros. symmetry. apply block_map.
Qed.

Lemma concat_length : forall A size (Ts : list (list A)), Forall (fun T => length T = size) Ts ->
  length (concat Ts) = size * length Ts.
Proof.
  induction 1; simpl; auto. rewrite app_length, IHForall, H. nia.
Qed.

Lemma unit_entries : forall levels D X, Forall (unit_row levels D) X ->
  existsb (existsb (fun x => Rltb x 0 || Rltb 1 x)) X = false.
Proof.
  intros levels D X H. destruct (existsb _ X) eqn:E; auto. apply existsb_exists in E.
  destruct E as (r & Hr & E). apply existsb_exists in E. destruct E as (x & Hx & E).
  rewrite Forall_forall in H. destruct (H r Hr) as [_ Hu]. destruct (Hu x Hx) as [[H0 H1] _].
  apply orb_true_iff in E. destruct E as [E|E]; apply Rltb_true in E; lra.
Qed.

Theorem morris_sample_optimised : forall rnd score argsort nq tq chunk p ls N levels k local draws G,
  morris_problem p ls -> distinct_count ls G -> 2 <= levels -> valid_draws ls levels draws ->
  valid_argsort argsort -> (forall x, (0 < x)%R -> (0 < rnd x)%R) -> 1 <= chunk -> k <> 0%Z ->
  let run opt := snd (morris_sample rnd score argsort nq tq chunk p N levels opt local draws) in
  (((k < 2)%Z \/ (Z.of_nat N <= k)%Z \/ (local = false /\ (10 < k)%Z)) -> run (Some k) = Err ValueError) /\
  ((2 <= k < Z.of_nat N)%Z -> (local = false -> (k <= 10)%Z) ->
   exists X combo, run None = Ok (InPlace (mkMat (p_num_vars p) X)) /\
     morris_design ls (fun j => step levels * ranges (p_bounds p) j)%R N X /\
     length combo = Z.to_nat k /\ (forall c, In c combo -> c < N) /\ StronglySorted le combo /\
     (local = false -> StronglySorted lt combo) /\
     run (Some k) = Ok (InPlace (mkMat (p_num_vars p) (concat (map (block X (G + 1)) combo))))).
Proof.
  intros rnd score argsort nq tq chunk p ls N levels k local draws G HP HG Hl Hd HA Hr Hc Hk run.
  pose proof HG as HG'. apply distinct_count_unique in HG'.
  destruct (morris_problem_groups p ls HP) as (p1 & E1 & Eg & Ev & Eb & Ed & _).
  destruct (morris_sample_plain rnd score argsort nq tq chunk p ls N levels None local draws HP Hl Hd (or_introl eq_refl))
    as (p' & v & Ts & Hv & ET & LT & HT & HU & Erun).
  destruct HP as (Hls & Hn & Hp & HL & HB & Hdi).
  assert (Hkz : Z.eqb k 0 = false) by (apply Z.eqb_neq; auto).
  assert (Hun : Forall (unit_row levels (length ls)) (concat Ts)).
  { apply in_concat_blocks. eapply Forall_impl; [|exact HU]. simpl. tauto. }
  assert (Hlen : Forall (fun T => length T = G + 1) Ts).
  { eapply Forall_impl; [|exact HU]. simpl. intros T [HTl _]. rewrite HTl, <- HG'. auto. }
  assert (HX : trajectories_of N (G + 1) (p_num_vars p) (concat Ts)).
  { split; [rewrite (concat_length _ (G + 1)), LT; auto|]. split; [|split; [auto|lia]].
    eapply Forall_impl; [|exact Hun]. intros r [H _]. congruence. }
  assert (Eset : set_size ls = G).
  { rewrite HG'. apply distinct_count_unique. exists (nodup string_dec ls).
    split; [apply NoDup_nodup|]. split; [apply nodup_In|]. reflexivity. }
  unfold run, morris_sample. rewrite E1, Eg. cbn beta iota. rewrite ET. cbn [bind]. rewrite Hkz.
  unfold optimised_trajectories. rewrite (unit_entries levels (length ls)) by auto.
  rewrite Eset, Ev. split.
  - intros Hbad.
    destruct (local && (Z.of_nat N <? k)%Z) eqn:Eo; [reflexivity|].
    destruct (negb local && (10 <? k)%Z) eqn:Eo2; [reflexivity|].
    unfold strategy_sample, run_checks.
    destruct (Z.ltb_spec k 2); [reflexivity|].
    destruct (Z.leb_spec (Z.of_nat N) k); [reflexivity|]. exfalso.
    destruct Hbad as [?|[?|[-> ?]]]; lia.
  - intros Hk2 Hk10.
    assert (Eo : local && (Z.of_nat N <? k)%Z = false).
    { apply andb_false_iff. right. apply Z.ltb_ge. lia. }
    assert (Eo2 : negb local && (10 <? k)%Z = false).
    { destruct local; [auto|]. apply andb_false_iff. right. apply Z.ltb_ge. auto. }
    rewrite Eo, Eo2.
    assert (Hsel : exists combo,
       (if local then local_optimisation rnd score argsort (concat Ts) G N (Z.to_nat k)
        else brute_force rnd score chunk (concat Ts) G N (Z.to_nat k)) = Ok combo /\
       length combo = Z.to_nat k /\ (forall c, In c combo -> c < N) /\ StronglySorted le combo /\
       (local = false -> StronglySorted lt combo)).
    { destruct local.
      - destruct (local_ok rnd score argsort (concat Ts) G N (Z.to_nat k) (p_num_vars p)) as (c & E & A & B & C & _);
          auto; [lia|]. exists c. repeat split; auto. discriminate.
      - destruct (brute_force_optimal rnd score chunk (concat Ts) G N (Z.to_nat k) (p_num_vars p))
          as (c & s & E & (A & B & C) & _); auto; [lia|]. exists c. repeat split; auto.
        clear - C. induction C; constructor; auto. eapply Forall_impl; [|exact H]. simpl. lia. }
    destruct Hsel as (combo & Ec & Lc & Hin & Hs & Hs2).
    exists (map (to_physical v) (concat Ts)), combo.
    pose proof Erun as Erun'. unfold morris_sample in Erun'. rewrite E1, Eg in Erun'. cbn beta iota in Erun'.
    rewrite ET in Erun'. cbn [bind] in Erun'. rewrite Erun'.
    split; [reflexivity|]. split.
    { exists (map (map (to_physical v)) Ts). split; [rewrite map_length; auto|].
      split; [apply concat_map|]. apply Forall_forall. intros T HTi. apply in_map_iff in HTi.
      destruct HTi as (T0 & <- & HT0). rewrite Forall_forall in HT.
      apply (trajectory_scaled ls (fun _ => step levels)); auto. lia. }
    split; auto. split; auto. split; auto. split; auto.
    unfold strategy_sample, run_checks.
    destruct (Z.ltb_spec k 2); [lia|]. destruct (Z.leb_spec (Z.of_nat N) k); [lia|].
    cbn [bind]. rewrite Ec. cbn [bind].
    rewrite (compile_output_ok (concat Ts) G N (p_num_vars p) combo) by (auto; lia).
    destruct (scale_design nq tq p1 (concat (map (block (concat Ts) (G + 1)) combo))) as (v' & Hv' & Hsc);
      try congruence; try (rewrite ?Eb, ?Ev; auto).
    destruct (Hsc _ eq_refl) as (m' & p'' & Es). rewrite Hn, <- Ev, Es. cbn [snd].
    rewrite Ev. f_equal. f_equal. f_equal. rewrite concat_blocks_map.
    rewrite (scaler_unique (p_bounds p) v' v); auto. rewrite <- Eb; auto.
Qed.

(** A selection of whole trajectories of a design is a design. *)
Lemma selection_design : forall ls h N X G combo, distinct_count ls G -> morris_design ls h N X ->
  (forall c, In c combo -> c < N) ->
  morris_design ls h (length combo) (concat (map (block X (G + 1)) combo)).
Proof.
  intros ls h N X G combo HG (Ts & LT & -> & HT) Hin.
  assert (Hlen : Forall (fun T => length T = G + 1) Ts).
  { eapply Forall_impl; [|exact HT]. intros T (order & H1 & H2 & H3 & _). rewrite H3. f_equal.
    apply distinct_count_unique in HG. rewrite HG. apply distinct_count_unique.
    exists order. auto. }
  exists (map (fun c => nth c Ts []) combo). split; [apply map_length|]. split.
  - f_equal. apply map_ext_in. intros c Hc. apply block_concat; auto. rewrite LT. auto.
  - rewrite Forall_forall in *. intros T HTi. apply in_map_iff in HTi. destruct HTi as (c & <- & Hc).
    apply HT, nth_In. rewrite LT. auto.
Qed.

(** ** Exact spread *)
Definition root_sum_squares (ds : list R) : R := sqrt (Rsum (map (fun d => d ^ 2)%R ds)).

Theorem brute_force_exact : forall chunk X g N k D, trajectories_of N (g + 1) D X -> 1 <= k <= N -> 1 <= chunk ->
  exists c ds, brute_force (fun x => x) root_sum_squares chunk X g N k = Ok c /\ selection N k c /\
    Forall2 (fun ab d => is_distance (fun x => x) (block X (g + 1) (fst ab)) (block X (g + 1) (snd ab)) d) (pairs c) ds /\
    forall c' ds', selection N k c' ->
      Forall2 (fun ab d => is_distance (fun x => x) (block X (g + 1) (fst ab)) (block X (g + 1) (snd ab)) d) (pairs c') ds' ->
      (fold_right Rplus 0 (map (fun d => d * d) ds') <= fold_right Rplus 0 (map (fun d => d * d) ds))%R.
Proof.
  intros chunk X g N k D HX Hk Hc.
  destruct (brute_force_optimal (fun x => x) root_sum_squares chunk X g N k D HX Hk Hc) as (c & s & E & Hs & (ds & Hds & ->) & Hm).
  exists c, ds. split; auto. split; auto. split; auto.
  intros c' ds' Hc' Hds'. specialize (Hm c' (root_sum_squares ds') Hc' (ex_intro _ ds' (conj Hds' eq_refl))).
  unfold root_sum_squares in Hm.
  assert (Q : forall l, Rsum (map (fun d => d ^ 2)%R l) = fold_right Rplus 0%R (map (fun d => d * d)%R l)).
  { intros l. unfold Rsum. f_equal. apply map_ext. intros; ring. }
  rewrite !Q in Hm. apply sqrt_le_0 in Hm; auto.
  - rewrite <- Q. apply Rsum_nonneg. intros x Hx. apply in_map_iff in Hx. destruct Hx as (y & <- & _). apply sq_nonneg.
  - rewrite <- Q. apply Rsum_nonneg. intros x Hx. apply in_map_iff in Hx. destruct Hx as (y & <- & _). apply sq_nonneg.
Qed.
