(** * Morris sampler: whole samples, ranges, scaling. *)
From Coq Require Import Reals String List Arith ZArith Bool Lia Lra Permutation.
From Verif Require Import Base Arrays ListFacts ModelGroups ModelScale Stats Sums SpecGroups SpecSobol SpecFF
  ProofsGroups ProofsSobol6 ProofsFF2 ModelMorris SpecMorris ProofsMorris1.
Import ListNotations.
Local Open Scope nat_scope.

(** [x] is one of the levels 0, 1/(levels-1), ..., 1. *)
Definition on_grid (levels : nat) (x : R) : Prop :=
  exists m, m <= levels - 1 /\ x = (INR m / (INR levels - 1))%R.
Definition unit_row (levels D : nat) (r : list R) : Prop :=
  length r = D /\ forall x, In x r -> (0 <= x <= 1)%R /\ (Nat.Even levels -> on_grid levels x).

Lemma traj_point_unit : forall levels d grp i j, 2 <= levels -> t_start d j < levels / 2 ->
  (0 <= traj_point levels (t_perm d) d grp i j <= 1)%R /\
  (Nat.Even levels -> on_grid levels (traj_point levels (t_perm d) d grp i j)).
Proof.
  intros levels d grp i j H Hs.
  destruct (levels_facts _ H) as (_ & H1 & H2). pose proof (grid_range levels _ H Hs) as G.
  unfold traj_point. split.
  - destruct (Bool.eqb _ _); lra.
  - intros [n ->].
    assert (Hn : 1 <= n) by lia.
    assert (E : 2 * n / 2 = n) by (rewrite Nat.mul_comm; apply Nat.div_mul; lia).
    rewrite E in Hs. rewrite grid_even by auto.
    destruct (Bool.eqb _ _).
    + exists (t_start d j + n). split; [lia|]. unfold step. rewrite plus_INR, mult_INR in *.
      simpl (INR 2) in *. field. lra.
    + exists (t_start d j). split; [lia|]. lra.
Qed.

Lemma sample_morris_ok : forall ls N levels draws, 2 <= levels -> valid_draws ls levels draws ->
  exists Ts, sample_morris ls N levels draws = Ok (concat Ts) /\ length Ts = N /\
    Forall (trajectory ls (fun _ => step levels)) Ts /\
    Forall (fun T => length T = length (pd_unique ls) + 1 /\ Forall (unit_row levels (length ls)) T) Ts.
Proof.
  intros ls N levels draws Hl (G & HG & Hd).
  apply distinct_count_unique in HG.
  unfold sample_morris. destruct (compute_groups_matrix_total ls) as [m Hm]. rewrite Hm. cbn [bind fst snd].
  assert (HT : forall t, exists T, generate_trajectory m (length (pd_unique ls)) levels (draws t) = Ok T /\
      trajectory ls (fun _ => step levels) T /\ length T = length (pd_unique ls) + 1 /\
      Forall (unit_row levels (length ls)) T).
  { intros t. rewrite <- HG.
    destruct (Hd t) as [HP Hst].
    destruct (generate_trajectory_eq ls m (pd_unique ls) levels (draws t) Hl Hm) as (grp & Hg & E).
    { rewrite <- HG. split; auto. }
    rewrite <- HG in E. rewrite E. eexists. split; [reflexivity|]. rewrite HG. split; [|split].
    - apply traj_is_trajectory; auto. rewrite <- HG; auto.
    - apply tab_length.
    - apply Forall_forall. intros r Hr. apply in_nth_error in Hr. destruct Hr as [i Hi].
      unfold tab in Hi. rewrite nth_error_map_seq in Hi. destruct (i <? _); [|discriminate].
      injection Hi as <-. split; [rewrite map_length, seq_length; auto|].
      intros x Hx. apply in_map_iff in Hx. destruct Hx as (j & <- & _).
      apply traj_point_unit; auto. }
  destruct (proj2 (mapM_Ok_iff (fun t => generate_trajectory m (length (pd_unique ls)) levels (draws t)) (seq 0 N)))
    as [Ts HTs].
  { intros t _. destruct (HT t) as (T & E & _). eauto. }
  rewrite HTs. cbn [bind]. exists Ts. split; auto.
  assert (LT : length Ts = N) by (rewrite (mapM_Ok_length _ _ HTs), seq_length; auto).
  assert (HTn : forall T, In T Ts -> exists t, generate_trajectory m (length (pd_unique ls)) levels (draws t) = Ok T).
  { intros T HTi. apply in_nth_error in HTi. destruct HTi as [i Hi].
    assert (Hil : i < N) by (rewrite <- LT; eapply nth_error_Some_lt; eauto).
    assert (Hs : nth_error (seq 0 N) i = Some i).
    { rewrite nth_error_seq. apply Nat.ltb_lt in Hil. rewrite Hil. auto. }
    destruct (mapM_Ok_nth _ _ i HTs (x:=i) Hs) as (y & Hy & Hn). exists i. congruence. }
  split; auto. split; apply Forall_forall; intros T HTi; destruct (HTn T HTi) as [t Et];
    destruct (HT t) as (T' & E & A & B & C); rewrite E in Et; injection Et as ->; auto.
Qed.

(** ** Scaling a design *)
Lemma moves_physical : forall sel h v a b, length a = length v -> moves sel h a b ->
  moves sel (fun j => h j * (snd (nth j v (0, 0)) - fst (nth j v (0, 0))))%R (to_physical v a) (to_physical v b).
Proof.
  intros sel h v a b La [Lb H]. split; [rewrite !to_physical_length by lia; auto|].
  intros j x Hx. rewrite to_physical_nth in Hx. rewrite to_physical_nth.
  destruct (nth_error a j) as [y|] eqn:Ey; [|discriminate].
  destruct (nth_error v j) as [[lo up]|] eqn:Ev; [|discriminate]. injection Hx as <-.
  rewrite (nth_error_nth _ _ _ Ev). simpl. destruct (H j y Ey) as [H1 H2]. split.
  - intros Hs. destruct (H1 Hs) as [-> | ->]; [left|right]; f_equal; ring.
  - intros Hs. rewrite (H2 Hs). auto.
Qed.

Lemma trajectory_physical : forall ls h v T, length v = length ls -> trajectory ls h T ->
  trajectory ls (fun j => h j * (snd (nth j v (0, 0)) - fst (nth j v (0, 0))))%R (map (to_physical v) T).
Proof.
  intros ls h v T Lv (order & H1 & H2 & H3 & H4 & H5). exists order.
  split; auto. split; auto. split; [rewrite map_length; auto|].
  rewrite Forall_forall in H4. split.
  - apply Forall_forall. intros r Hr. apply in_map_iff in Hr. destruct Hr as (r0 & <- & Hr0).
    rewrite to_physical_length; rewrite (H4 r0 Hr0); auto.
  - intros r x a b Hx Ha Hb. rewrite nth_error_map' in Ha, Hb.
    destruct (nth_error T r) as [a0|] eqn:Ea; [|discriminate].
    destruct (nth_error T (r + 1)) as [b0|] eqn:Eb; [|discriminate].
    injection Ha as <-. injection Hb as <-. apply moves_physical; [|eapply H5; eauto].
    rewrite (H4 a0); [auto|]. eapply nth_error_In; eauto.
Qed.

Lemma moves_ext : forall sel h h' a b, (forall j, j < length a -> h j = h' j) -> moves sel h a b -> moves sel h' a b.
Proof.
  intros sel h h' a b E [L H]. split; auto. intros j x Hx.
  rewrite <- E by (eapply nth_error_Some_lt; eauto). auto.
Qed.

Lemma trajectory_ext : forall ls h h' T, (forall j, j < length ls -> h j = h' j) -> trajectory ls h T ->
  trajectory ls h' T.
Proof.
  intros ls h h' T E (order & H1 & H2 & H3 & H4 & H5). exists order. split; auto. split; auto. split; auto.
  split; auto. intros r x a b Hx Ha Hb. apply moves_ext with h; [|eapply H5; eauto].
  intros j Hj. apply E. rewrite Forall_forall in H4. rewrite <- (H4 a); auto. eapply nth_error_In; eauto.
Qed.

(** The scaler [v] for a box and its effect. *)
Definition scaler (bounds : list (list R)) (v : list (R * R)) : Prop :=
  length v = length bounds /\ forall j, j < length bounds -> nth_error v j = Some (lower bounds j, upper bounds j).

Lemma trajectory_scaled : forall ls h bounds v T, length bounds = length ls -> scaler bounds v ->
  trajectory ls h T -> trajectory ls (fun j => h j * ranges bounds j)%R (map (to_physical v) T).
Proof.
  intros ls h bounds v T Lb [Lv Hv] HT.
  apply trajectory_ext with (h := (fun j => h j * (snd (nth j v (0, 0)) - fst (nth j v (0, 0))))%R).
  - intros j Hj. rewrite (nth_error_nth _ _ _ (Hv j ltac:(lia))). reflexivity.
  - apply trajectory_physical; auto. lia.
Qed.

Lemma scale_design : forall nq tq p rs, 0 < p_num_vars p -> length (p_bounds p) = p_num_vars p ->
  good_box (p_bounds p) -> p_dists p = None ->
  exists v, scaler (p_bounds p) v /\ forall rs', rs' = rs ->
   exists m' p', scale_samples nq tq (mkMat (p_num_vars p) rs') p =
    (m', p', Ok (InPlace (mkMat (p_num_vars p) (map (to_physical v) rs')))).
Proof.
  intros nq tq p rs Hn HL HB Hd.
  destruct (scale_ok_box (mkMat (p_num_vars p) rs) (p_bounds p) Hn HL HB) as (v & Es & Lv & Hv).
  simpl in Lv. exists v. split.
  - split; [lia|]. intros j Hj. apply Hv. apply good_box_nth; auto.
  - intros rs' ->. unfold scale_samples. rewrite Hd, Es. simpl. eauto.
Qed.

Lemma scaler_unique : forall bounds v v', scaler bounds v -> scaler bounds v' -> v = v'.
Proof.
  intros bounds v v' [L H] [L' H']. apply nth_error_ext'. intros j.
  destruct (Nat.lt_ge_cases j (length bounds)) as [Hj|Hj].
  - rewrite H, H'; auto.
  - rewrite !(proj2 (nth_error_None _ _)) by lia. auto.
Qed.

Lemma morris_problem_groups : forall p ls, morris_problem p ls ->
  exists p1, define_problem_with_groups p = Ok p1 /\ p_groups p1 = Some ls /\
    p_num_vars p1 = p_num_vars p /\ p_bounds p1 = p_bounds p /\ p_dists p1 = p_dists p /\
    p_names p1 = p_names p.
Proof.
  intros p ls (Hl & Hn & Hp & _).
  destruct (define_groups_cases p) as [[Hg (p' & E & H1 & H2 & H3 & H4 & H5 & H6)]|[(g & Hg & Hne & HL & E)|(g & Hg & Hne & HL & E)]].
  - exists p'. destruct Hl as [(g & gs & Hgg & ->)|[_ ->]]; [destruct Hg; congruence|]. repeat split; auto.
  - exists p. destruct Hl as [(g' & gs & Hgg & ->)|[[Hgg|Hgg] ->]]; [|congruence|congruence].
    repeat split; auto.
  - exfalso. destruct Hl as [(g' & gs & Hgg & ->)|[[Hgg|Hgg] ->]]; [|congruence|congruence].
    apply HL. congruence.
Qed.

(** The sampler without optimisation. *)
Lemma morris_sample_plain : forall rnd score argsort nq tq chunk p ls N levels opt local draws,
  morris_problem p ls -> 2 <= levels -> valid_draws ls levels draws -> opt = None \/ opt = Some 0%Z ->
  exists p' v Ts, scaler (p_bounds p) v /\
    sample_morris ls N levels draws = Ok (concat Ts) /\ length Ts = N /\
    Forall (trajectory ls (fun _ => step levels)) Ts /\
    Forall (fun T => length T = length (pd_unique ls) + 1 /\ Forall (unit_row levels (length ls)) T) Ts /\
    morris_sample rnd score argsort nq tq chunk p N levels opt local draws
    = (p', Ok (InPlace (mkMat (p_num_vars p) (map (to_physical v) (concat Ts))))).
Proof.
  intros rnd score argsort nq tq chunk p ls N levels opt local draws HP Hl Hd Ho.
  destruct (morris_problem_groups p ls HP) as (p1 & E1 & Eg & Ev & Eb & Ed & _).
  destruct HP as (Hls & Hn & Hp & HL & HB & Hdi).
  destruct (sample_morris_ok ls N levels draws Hl Hd) as (Ts & ET & LT & HT & HU).
  destruct (scale_design nq tq p1 (concat Ts)) as (v & Hv & Hs); try congruence; try (rewrite ?Eb, ?Ev; auto).
  destruct (Hs _ eq_refl) as (m' & p' & Es).
  exists p', v, Ts. split; [rewrite <- Eb; auto|]. split; auto. split; auto. split; auto. split; auto.
  unfold morris_sample. rewrite E1, Eg. cbn beta iota. rewrite ET. cbn [bind].
  assert (Eo : match opt with
     | Some k => if Z.eqb k 0 then Ok (concat Ts)
                  else if local && Z.ltb (Z.of_nat N) k then Err ValueError
                  else optimised_trajectories rnd score argsort chunk p1 ls (concat Ts) N k local
     | None => Ok (concat Ts) end = Ok (concat Ts)) by (destruct Ho as [-> | ->]; reflexivity).
  rewrite Eo. rewrite Hn, <- Ev. rewrite Es. auto.
Qed.

Lemma in_concat_blocks : forall A (Ts : list (list A)) (P : A -> Prop),
  Forall (fun T => Forall P T) Ts -> Forall P (concat Ts).
Proof.
  induction Ts; simpl; intros P H; auto. inversion H; subst. apply Forall_app. auto.
Qed.

Lemma to_physical_unit : forall bounds v levels r, good_box bounds -> scaler bounds v ->
  unit_row levels (length bounds) r ->
  length (to_physical v r) = length bounds /\
  forall j, j < length bounds ->
    (lower bounds j <= nth j (to_physical v r) 0 <= upper bounds j)%R /\
    (Nat.Even levels -> exists m, m <= levels - 1 /\
       nth j (to_physical v r) 0%R = (lower bounds j + INR m / (INR levels - 1) * ranges bounds j)%R).
Proof.
  intros bounds v levels r HB [Lv Hv] [Lr Hr]. split; [rewrite to_physical_length; lia|].
  intros j Hj. destruct (good_box_nth bounds j HB Hj) as [_ Hlt].
  destruct (nth_error_lt_Some r (i:=j)) as [x Hx]; [lia|].
  assert (E : nth j (to_physical v r) 0%R = (lower bounds j + x * (upper bounds j - lower bounds j))%R).
  { apply nth_error_nth. rewrite to_physical_nth, Hx, (Hv j Hj). auto. }
  destruct (Hr x (nth_error_In _ _ Hx)) as [H1 H2]. rewrite E. split.
  - split; nra.
  - intros He. destruct (H2 He) as (m & Hm & ->). exists m. split; auto.
Qed.
