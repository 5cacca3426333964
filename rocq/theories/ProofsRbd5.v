(** * RBD-FAST: consequences for the analyser. *)
From Coq Require Import Reals String List Arith ZArith Bool Lia Lra Permutation.
From Verif Require Import Base Arrays ListFacts ModelGroups ModelScale ProofsScale Stats Sums ModelFast SpecFast ProofsFast2 ProofsMorris3 ProofsMorris7
  ModelRbd SpecRbd ProofsRbd ProofsRbd2 ProofsRbd3 ProofsRbd4.
Import ListNotations.
Local Open Scope nat_scope.

Lemma analyze_input : forall argsort nq p X Y M cl draws, argsort_ok argsort -> rbd_input (p_num_vars p) X Y M draws ->
  let D := p_num_vars p in let N := length Y in
    exists out, rbd_analyze argsort nq p X Y M cl draws = Ok out /\ r_names out = p_names p /\
      length (r_S1 out) = D /\ length (r_conf out) = D /\
      forall i, i < D -> exists y, permute_outputs argsort (values X i) Y = Ok y /\ Permutation y Y /\
        nth_error (r_S1 out) i = Some (if Req_EM_T (var Y) 0 then None else Some (corrected M N (share y M))) /\
        (var Y <> 0%R -> (0 <= share y M <= 1)%R) /\
        ((0 <= nq (1 / 2 + cl / 2))%R -> forall v, nth_error (r_conf out) i = Some (Some v) -> (0 <= v)%R).
Proof.
  intros argsort nq p X Y M cl draws Ha (H1 & H2 & H3 & H4 & H5 & H6) D N.
  apply analyze_spec; auto; try lia. intros E. apply Nat.div_small_iff in E; lia.
Qed.

Lemma nonempty : forall (Y : list R), 2 <= length Y -> Y <> [].
Proof. intros Y H ->. simpl in H. lia. Qed.

Lemma small_sample : forall argsort nq p X Y M cl draws, argsort_ok argsort -> rbd_input (p_num_vars p) X Y M draws ->
  var Y <> 0%R -> length Y <= 2 * M + 1 ->
  exists out, rbd_analyze argsort nq p X Y M cl draws = Ok out /\
    forall i, i < p_num_vars p -> nth_error (r_S1 out) i = Some (Some 1%R).
Proof.
  intros argsort nq p X Y M cl draws Ha HI HV HL.
  destruct (analyze_input argsort nq p X Y M cl draws Ha HI) as (out & E & _ & _ & _ & H).
  exists out. split; auto. intros i Hi. destruct (H i Hi) as (y & _ & HP & HS & _). rewrite HS.
  destruct (Req_EM_T (var Y) 0); [contradiction|]. do 2 f_equal.
  destruct HI as (_ & _ & HN & H2 & _). pose proof (nonempty _ HN) as HY.
  rewrite share_all.
  - destruct (lamb_ne M (length Y) ltac:(lia) ltac:(lia)) as [A B]. unfold corrected. cbv zeta. apply Rinv_r. auto.
  - intros ->. apply Permutation_nil in HP. auto.
  - rewrite (var_perm _ _ HP). auto.
  - rewrite (Permutation_length HP). auto.
Qed.

(** Two inputs whose reorderings have equal shares get equal indices. *)
Lemma same_S1 : forall argsort nq p X Y X' Y' M cl draws draws', argsort_ok argsort ->
  rbd_input (p_num_vars p) X Y M draws -> rbd_input (p_num_vars p) X' Y' M draws' ->
  length Y = length Y' -> (var Y = 0%R <-> var Y' = 0%R) ->
  (forall i y y', i < p_num_vars p -> permute_outputs argsort (values X i) Y = Ok y ->
     permute_outputs argsort (values X' i) Y' = Ok y' -> Permutation y Y -> var Y <> 0%R -> share y' M = share y M) ->
  exists out out', rbd_analyze argsort nq p X Y M cl draws = Ok out /\ rbd_analyze argsort nq p X' Y' M cl draws' = Ok out' /\
    r_S1 out' = r_S1 out.
Proof.
  intros argsort nq p X Y X' Y' M cl draws draws' Ha HI HI' HL HV HS.
  destruct (analyze_input argsort nq p X Y M cl draws Ha HI) as (out & E & _ & L & _ & H).
  destruct (analyze_input argsort nq p X' Y' M cl draws' Ha HI') as (out' & E' & _ & L' & _ & H').
  exists out, out'. split; auto. split; auto. apply nth_error_ext'. intros i.
  destruct (Nat.lt_ge_cases i (p_num_vars p)) as [Hi|Hi].
  - destruct (H i Hi) as (y & P & HP & S & _). destruct (H' i Hi) as (y' & P' & HP' & S' & _).
    rewrite S, S'. destruct (Req_EM_T (var Y) 0) as [Z|Z], (Req_EM_T (var Y') 0) as [Z'|Z']; auto; try tauto.
    rewrite (HS i y y' Hi P P' HP Z), HL. auto.
  - rewrite !(proj2 (nth_error_None _ _)) by lia. auto.
Qed.

Lemma S1_affine : forall argsort nq p X Y M cl draws a b, argsort_ok argsort -> rbd_input (p_num_vars p) X Y M draws -> a <> 0%R ->
  exists out out', rbd_analyze argsort nq p X Y M cl draws = Ok out /\
    rbd_analyze argsort nq p X (map (fun v => a * v + b)%R Y) M cl draws = Ok out' /\ r_S1 out' = r_S1 out.
Proof.
  intros argsort nq p X Y M cl draws a b Ha HI Hne.
  assert (HY : Y <> []) by (destruct HI as (_ & _ & HN & _); apply nonempty; auto).
  apply same_S1; auto.
  - destruct HI as (H1 & H2 & H3 & H4 & H5 & H6). unfold rbd_input. rewrite map_length. auto 7.
  - rewrite map_length. auto.
  - rewrite var_affine by auto. assert (a ^ 2 <> 0)%R by (apply pow_nonzero; auto). split; intros E.
    + rewrite E. ring.
    + apply Rmult_integral in E. tauto.
  - intros i y y' Hi P P' HP HV.
    assert (HL : length (values X i) = length Y) by (rewrite values_length; apply HI).
    rewrite permute_ok in P by (auto; lia). rewrite permute_ok in P' by (auto; rewrite map_length; lia).
    injection P as <-. injection P' as <-.
    assert (E : map (fun i0 => nth i0 (map (fun v => a * v + b)%R Y) 0%R) (riffle (argsort (values X i))) =
                map (fun v => a * v + b)%R (map (fun i0 => nth i0 Y 0%R) (riffle (argsort (values X i))))).
    { rewrite map_map. apply map_ext_in. intros k Hk. apply (Permutation_in _ (riffle_perm _ _)) in Hk.
      apply (sorting_bound (values X i)) in Hk; [|apply Ha]. rewrite (nth_map_lt _ _ _ Y k 0%R) by lia. reflexivity. }
    rewrite E. apply share_affine; auto.
    + intros EN. rewrite EN in HP. apply Permutation_nil in HP. auto.
    + rewrite (var_perm _ _ HP). auto.
Qed.

(** Strictly increasing rescaling of each parameter. *)
Lemma S1_rescale : forall argsort nq p X Y M cl draws (g : nat -> R -> R), argsort_ok argsort -> rbd_input (p_num_vars p) X Y M draws ->
  (forall i, i < p_num_vars p -> no_ties (values X i)) ->
  (forall i a b, a < b -> g i a < g i b)%R ->
  let X' := map (fun r => map (fun i => g i (nth i r 0%R)) (seq 0 (p_num_vars p))) X in
  exists out out', rbd_analyze argsort nq p X Y M cl draws = Ok out /\
    rbd_analyze argsort nq p X' Y M cl draws = Ok out' /\ r_S1 out' = r_S1 out.
Proof.
  intros argsort nq p X Y M cl draws g Ha HI HT Hg X'. apply same_S1; auto.
  - destruct HI as (H1 & H2 & H3 & H4 & H5 & H6). unfold rbd_input, X'. rewrite map_length.
    split; auto 7. rewrite Forall_forall. intros r Hr. apply in_map_iff in Hr. destruct Hr as (r0 & <- & _).
    rewrite map_length, seq_length. auto.
  - tauto.
  - intros i y y' Hi P P' _ _.
    assert (E : values X' i = map (g i) (values X i)).
    { unfold values, X'. rewrite !map_map. apply map_ext. intros r.
      rewrite (nth_map_lt _ _ _ (seq 0 (p_num_vars p)) i 0) by (rewrite seq_length; auto). rewrite seq_nth by auto. auto. }
    rewrite E, permute_monotone in P' by (auto; apply HT; auto). congruence.
Qed.

(** The order of the rows does not matter. *)
Lemma S1_rows : forall argsort nq p X Y M cl draws draws' s, argsort_ok argsort ->
  rbd_input (p_num_vars p) X Y M draws -> (forall i, i < p_num_vars p -> draws_ok (length Y) (draws' i)) ->
  (forall i, i < p_num_vars p -> no_ties (values X i)) -> Permutation s (seq 0 (length Y)) ->
  exists out out', rbd_analyze argsort nq p X Y M cl draws = Ok out /\
    rbd_analyze argsort nq p (map (fun k => nth k X []) s) (map (fun k => nth k Y 0%R) s) M cl draws' = Ok out' /\ r_S1 out' = r_S1 out.
Proof.
  intros argsort nq p X Y M cl draws draws' s Ha HI HD HT Hs.
  destruct HI as (H1 & H2 & H3 & H4 & H5 & H6).
  assert (Ls : length s = length Y) by (rewrite (Permutation_length Hs), seq_length; auto).
  apply same_S1; auto.
  - repeat (split; auto).
  - unfold rbd_input. rewrite !map_length, Ls. split; auto 7.
    rewrite Forall_forall in *. intros r Hr. apply in_map_iff in Hr. destruct Hr as (k & <- & Hk). apply H1. apply nth_In.
    apply (Permutation_in _ Hs) in Hk. apply in_seq in Hk. lia.
  - rewrite map_length. auto.
  - rewrite (var_perm (map _ s) Y); [tauto|]. etransitivity; [apply Permutation_map, Hs|]. rewrite <- (list_nth_seq R 0%R Y). auto.
  - intros i y y' Hi P P' _ _.
    assert (E : values (map (fun k => nth k X []) s) i = map (fun k => nth k (values X i) 0%R) s).
    { unfold values at 1. rewrite map_map. apply map_ext_in. intros k Hk. apply (Permutation_in _ Hs) in Hk. apply in_seq in Hk.
      unfold values. rewrite (nth_map_lt _ _ _ X k []) by lia. auto. }
    rewrite E, permute_rows in P'.
    + congruence.
    + auto.
    + apply HT; auto.
    + rewrite values_length. auto.
    + rewrite values_length, H2. auto.
Qed.

(** An output that is a pure harmonic along the reordering gets index 1. *)
Lemma S1_harmonic : forall argsort nq p X Y M cl draws i h a b phi, argsort_ok argsort -> rbd_input (p_num_vars p) X Y M draws ->
  i < p_num_vars p -> 0 < h -> h <= M -> 2 * h < length Y -> b <> 0%R ->
  permute_outputs argsort (values X i) Y =
    Ok (map (fun t => a + b * cos (2 * PI * INR h * INR t / INR (length Y) + phi))%R (seq 0 (length Y))) ->
  exists out, rbd_analyze argsort nq p X Y M cl draws = Ok out /\ nth_error (r_S1 out) i = Some (Some 1%R).
Proof.
  intros argsort nq p X Y M cl draws i h a b phi Ha HI Hi Hh HM H2 Hb HP.
  destruct (analyze_input argsort nq p X Y M cl draws Ha HI) as (out & E & _ & _ & _ & H).
  exists out. split; auto. destruct (H i Hi) as (y & P & Hy & HS & _). rewrite HS. rewrite HP in P. injection P as <-.
  pose proof (var_perm _ _ Hy) as EV. rewrite harmonic_var in EV by auto.
  assert (0 < b ^ 2)%R by (pose proof (sq_nonneg b); assert (b ^ 2 <> 0)%R by (apply pow_nonzero; auto); lra).
  destruct (Req_EM_T (var Y) 0); [lra|]. rewrite harmonic_share by auto. do 2 f_equal.
  destruct HI as (_ & _ & HN & H3 & _).
  destruct (lamb_ne M (length Y) ltac:(lia) ltac:(lia)) as [A B]. unfold corrected. cbv zeta. apply Rinv_r. auto.
Qed.

(** With fewer than 2 M outputs the correction reverses the order. *)
Lemma corrected_reverses : forall M N, 0 < N -> N < 2 * M -> forall s t, (s < t)%R -> (corrected M N t < corrected M N s)%R.
Proof.
  intros M N HN H s t Hst. assert (HP : (0 < INR N)%R) by (apply lt_0_INR; auto).
  assert (H2 : (INR N < 2 * INR M)%R). { apply lt_INR in H. rewrite mult_INR in H. simpl (INR 2) in H. lra. }
  unfold corrected. cbv zeta. set (l := (2 * INR M / INR N)%R).
  assert (Hl : (1 < l)%R). { unfold l. apply Rmult_lt_reg_r with (INR N); auto. unfold Rdiv. rewrite Rmult_assoc, Rinv_l by lra. lra. }
  assert (Hi : (/ (1 - l) < 0)%R) by (apply Rinv_lt_0_compat; lra).
  unfold Rdiv. apply Ropp_lt_cancel. rewrite <- !Ropp_mult_distr_r_reverse. apply Rmult_lt_compat_r; lra.
Qed.

(** ** A concrete sorting function *)
Fixpoint insert_idx (X : list R) (i : nat) (s : list nat) : list nat :=
  match s with
  | [] => [i]
  | j :: r => if Rle_dec (nth i X 0%R) (nth j X 0%R) then i :: s else j :: insert_idx X i r
  end.
Definition insertion_argsort (X : list R) : list nat := fold_right (insert_idx X) [] (seq 0 (length X)).

Lemma insert_perm : forall X i s, Permutation (insert_idx X i s) (i :: s).
Proof.
  induction s as [|j s IH]; simpl; auto. destruct (Rle_dec _ _); auto.
  etransitivity; [apply perm_skip, IH|]. apply perm_swap.
Qed.
Lemma insert_sorted : forall X i s, Sorting.Sorted.StronglySorted (fun a b => nth a X 0 <= nth b X 0)%R s ->
  Sorting.Sorted.StronglySorted (fun a b => nth a X 0 <= nth b X 0)%R (insert_idx X i s).
Proof.
  induction s as [|j s IH]; intros H; simpl.
  - constructor; constructor.
  - inversion H as [|? ? HS HF]; subst. destruct (Rle_dec _ _) as [L|L].
    + constructor; auto. constructor; auto. rewrite Forall_forall in *. intros x Hx. specialize (HF x Hx). simpl in *. lra.
    + constructor; auto. rewrite Forall_forall in *. intros x Hx. apply (Permutation_in _ (insert_perm X i s)) in Hx.
      destruct Hx as [<-|Hx]; [lra|]. apply HF. auto.
Qed.
Lemma insertion_ok : argsort_ok insertion_argsort.
Proof.
  intros X. split.
  - unfold insertion_argsort. induction (seq 0 (length X)) as [|i l IH]; simpl; auto.
    etransitivity; [apply insert_perm|]. auto.
  - assert (H : Sorting.Sorted.StronglySorted (fun a b => nth a X 0 <= nth b X 0)%R (insertion_argsort X)).
    { unfold insertion_argsort. induction (seq 0 (length X)); simpl; [constructor|]. apply insert_sorted. auto. }
    induction (insertion_argsort X) as [|x s IH]; intros a b i j Hab Hi Hj; [destruct a; discriminate|].
    inversion H as [|? ? HS HF]; subst. destruct b as [|b]; [lia|]. simpl in Hj. destruct a as [|a].
    + simpl in Hi. injection Hi as <-. rewrite Forall_forall in HF. apply HF. apply nth_error_In with b. auto.
    + apply (IH HS a b); auto. lia.
Qed.
