(** * Proofs: the result table of the Sobol' analyser, serial and parallel. *)
From Coq Require Import Reals String List Arith ZArith Bool Lia Lra Permutation.
From Verif Require Import Base Arrays ModelGroups ModelScale ProofsScale Stats ModelSobol.
Import ListNotations.
Local Open Scope nat_scope.

Definition read (s : Si) (t : task) : option fval :=
  match t with
  | (kS1, j, None) => nth_error (S1 s) j
  | (kS1c, j, None) => nth_error (S1_conf s) j
  | (kST, j, None) => nth_error (ST s) j
  | (kSTc, j, None) => nth_error (ST_conf s) j
  | (kS2, j, Some k) => match S2 s with Some m => entry m j k | None => None end
  | (kS2c, j, Some k) => match S2_conf s with Some m => entry m j k | None => None end
  | _ => None
  end.

Definition square (D : nat) (second : bool) (m : option (list (list fval))) : Prop :=
  match m with
  | Some m => second = true /\ length m = D /\ Forall (fun r => length r = D) m
  | None => second = false
  end.

Definition shaped (D : nat) (second : bool) (s : Si) : Prop :=
  length (S1 s) = D /\ length (S1_conf s) = D /\ length (ST s) = D /\ length (ST_conf s) = D /\
  square D second (S2 s) /\ square D second (S2_conf s).

Definition valid (D : nat) (second : bool) (t : task) : Prop :=
  match t with
  | (kS2, j, Some k) | (kS2c, j, Some k) => second = true /\ j < D /\ k < D
  | (kS2, _, None) | (kS2c, _, None) => False
  | (_, j, None) => j < D
  | (_, _, Some _) => False
  end.

Lemma task_eq_dec : forall t t' : task, {t = t'} + {t <> t'}.
Proof. repeat decide equality. Qed.

Lemma set1_ok : forall l j v, j < length l -> set1 l j v = Ok (update l j v).
Proof. intros. unfold set1. destruct (Nat.ltb_spec j (length l)); auto; lia. Qed.

Lemma nth_update_eq : forall A (l : list A) j v, j < length l -> nth_error (update l j v) j = Some v.
Proof.
  intros. rewrite nth_error_update, Nat.eqb_refl. destruct (Nat.ltb_spec j (length l)); auto; lia.
Qed.
Lemma nth_update_neq : forall A (l : list A) j k v, k <> j -> nth_error (update l j v) k = nth_error l k.
Proof. intros. rewrite nth_error_update. destruct (Nat.eqb_spec k j); auto; congruence. Qed.

Lemma Forall_update : forall A (P : A -> Prop) l i v, Forall P l -> P v -> Forall P (update l i v).
Proof.
  induction l; simpl; intros i v H Hv; auto. inversion H; subst.
  destruct i; constructor; auto.
Qed.

Lemma set2_ok : forall D m j k v, length m = D -> Forall (fun r => length r = D) m ->
  j < D -> k < D ->
  exists m', set2 m j k v = Ok m' /\ length m' = D /\ Forall (fun r => length r = D) m' /\
    entry m' j k = Some v /\
    forall j' k', (j', k') <> (j, k) -> entry m' j' k' = entry m j' k'.
Proof.
  intros D m j k v HL HF Hj Hk. unfold set2.
  destruct (nth_error_lt_Some m (i := j)) as [row Hr]; [lia|]. rewrite Hr.
  assert (Hrow : length row = D).
  { rewrite Forall_forall in HF. apply HF. eapply nth_error_In; eauto. }
  rewrite set1_ok by lia. cbn [bind]. eexists. split; [reflexivity|].
  split; [rewrite length_update; auto|].
  split; [apply Forall_update; auto; rewrite length_update; auto|].
  split.
  - unfold entry. rewrite nth_update_eq by lia. apply nth_update_eq. lia.
  - intros j' k' Hne. unfold entry. destruct (Nat.eq_dec j' j) as [->|Hj'].
    + rewrite nth_update_eq, Hr by lia. apply nth_update_neq. congruence.
    + rewrite nth_update_neq by auto. reflexivity.
Qed.

Definition same_kept (s s' : Si) : Prop :=
  S1_conf_all s' = S1_conf_all s /\ ST_conf_all s' = ST_conf_all s.

Lemma write_ok : forall D second s t v, shaped D second s -> valid D second t ->
  exists s', write s t v = Ok s' /\ shaped D second s' /\ same_kept s s' /\
    read s' t = Some v /\ forall t', t' <> t -> read s' t' = read s t'.
Proof.
  intros D second s [[d j] k] v (L1 & L2 & L3 & L4 & Q1 & Q2) HV.
  destruct d, k; simpl in HV; try tauto; simpl write.
  Ltac vec := rewrite set1_ok by lia; cbn [bind]; eexists; split; [reflexivity|];
    split; [repeat split; simpl; auto; rewrite length_update; auto|];
    split; [split; reflexivity|]; split; [simpl; apply nth_update_eq; lia|];
    intros [[d' j'] k'] Hne; destruct d', k'; simpl; auto; apply nth_update_neq; congruence.
  - vec.
  - vec.
  - vec.
  - vec.
  - destruct HV as (Hs & Hj & Hk). destruct (S2 s) as [m|] eqn:E; simpl in Q1; [|congruence].
    destruct Q1 as (_ & Lm & Fm).
    destruct (set2_ok D m j n v Lm Fm Hj Hk) as (m' & Em & Lm' & Fm' & Hr & Ho).
    rewrite Em. cbn [bind]. eexists. split; [reflexivity|].
    split; [repeat split; simpl; auto|]. split; [split; reflexivity|].
    split; [simpl; auto|].
    intros [[d' j'] k'] Hne; destruct d', k'; simpl; auto. rewrite E. apply Ho. congruence.
  - destruct HV as (Hs & Hj & Hk). destruct (S2_conf s) as [m|] eqn:E; simpl in Q2; [|congruence].
    destruct Q2 as (_ & Lm & Fm).
    destruct (set2_ok D m j n v Lm Fm Hj Hk) as (m' & Em & Lm' & Fm' & Hr & Ho).
    rewrite Em. cbn [bind]. eexists. split; [reflexivity|].
    split; [repeat split; simpl; auto|]. split; [split; reflexivity|].
    split; [simpl; auto|].
    intros [[d' j'] k'] Hne; destruct d', k'; simpl; auto. rewrite E. apply Ho. congruence.
Qed.

Definition covered (val : task -> fval) (L : list task) (s0 s : Si) : Prop :=
  forall t, (In t L -> read s t = Some (val t)) /\ (~ In t L -> read s t = read s0 t).

Lemma covered_nil : forall val s, covered val [] s s.
Proof. intros val s t. split; [intros []|auto]. Qed.

Lemma covered_app : forall val L L' s0 s1 s2, covered val L s0 s1 -> covered val L' s1 s2 ->
  covered val (L ++ L') s0 s2.
Proof.
  intros val L L' s0 s1 s2 H1 H2 t. specialize (H1 t). specialize (H2 t).
  destruct H1 as [A1 A2], H2 as [B1 B2].
  destruct (in_dec task_eq_dec t L') as [Hi|Hn].
  - split; auto. intros H. exfalso. apply H. apply in_or_app; auto.
  - specialize (B2 Hn). rewrite B2. split; intros H.
    + apply in_app_or in H. destruct H; [auto|contradiction].
    + apply A2. intros Hi. apply H. apply in_or_app; auto.
Qed.

Lemma covered_write : forall val s s' t,
  read s' t = Some (val t) -> (forall t', t' <> t -> read s' t' = read s t') -> covered val [t] s s'.
Proof.
  intros val s s' t H1 H2 t'. split.
  - intros [<-|[]]. auto.
  - intros H. apply H2. intros ->. apply H. simpl; auto.
Qed.

Lemma covered_read : forall val L s0 s s', (forall t, read s' t = read s t) ->
  covered val L s0 s -> covered val L s0 s'.
Proof. intros val L s0 s s' H HC t. rewrite H. apply HC. Qed.

Lemma covered_ext : forall val val' L s0 s, (forall t, In t L -> val t = val' t) ->
  covered val L s0 s -> covered val' L s0 s.
Proof.
  intros val val' L s0 s H HC t. destruct (HC t) as [H1 H2]. split; auto.
  intros Hi. rewrite H1 by auto. rewrite H by auto. reflexivity.
Qed.

(** Two tables of the same shape with the same cells are equal. *)
Lemma square_ext : forall D second m m', square D second m -> square D second m' ->
  (forall j k, match m with Some x => entry x j k | None => None end =
               match m' with Some x => entry x j k | None => None end) -> m = m'.
Proof.
  intros D second m m' H H' E. destruct m as [m|], m' as [m'|]; simpl in *; auto.
  - f_equal. destruct H as (_ & HL & HF), H' as (_ & HL' & HF'). apply nth_error_ext'. intros j.
    destruct (Nat.lt_ge_cases j D) as [Hj|Hj].
    + destruct (nth_error_lt_Some m (i := j)) as [r Hr]; [lia|].
      destruct (nth_error_lt_Some m' (i := j)) as [r' Hr']; [lia|].
      rewrite Hr, Hr'. f_equal. apply nth_error_ext'. intros k.
      specialize (E j k). unfold entry in E. rewrite Hr, Hr' in E. auto.
    + rewrite !(proj2 (nth_error_None _ j)) by lia. auto.
  - destruct H; congruence.
  - destruct H'; congruence.
Qed.

Lemma Si_ext : forall D second s s', shaped D second s -> shaped D second s' ->
  (forall t, read s t = read s' t) ->
  S1 s = S1 s' /\ S1_conf s = S1_conf s' /\ ST s = ST s' /\ ST_conf s = ST_conf s' /\
  S2 s = S2 s' /\ S2_conf s = S2_conf s'.
Proof.
  intros D second s s' (_ & _ & _ & _ & Q1 & Q2) (_ & _ & _ & _ & Q1' & Q2') H.
  repeat split.
  - apply nth_error_ext'. intros j. apply (H (kS1, j, None)).
  - apply nth_error_ext'. intros j. apply (H (kS1c, j, None)).
  - apply nth_error_ext'. intros j. apply (H (kST, j, None)).
  - apply nth_error_ext'. intros j. apply (H (kSTc, j, None)).
  - eapply square_ext; eauto. intros j k. apply (H (kS2, j, Some k)).
  - eapply square_ext; eauto. intros j k. apply (H (kS2c, j, Some k)).
Qed.

Lemma create_shaped : forall D n keep second, shaped D second (create_Si_dict D n keep second).
Proof.
  intros. unfold create_Si_dict. repeat split; simpl; try apply repeat_length.
  - destruct second; simpl; auto. rewrite repeat_length. repeat split; auto.
    apply Forall_forall. intros r Hr. apply repeat_spec in Hr. subst. apply repeat_length.
  - destruct second; simpl; auto. rewrite repeat_length. repeat split; auto.
    apply Forall_forall. intros r Hr. apply repeat_spec in Hr. subst. apply repeat_length.
Qed.

Section Tasks.
Variable D : nat.
Variable second : bool.
Definition all_tasks : list task :=
  tasks_first_order D ++ (if second then tasks_second_order D else []).

Lemma zip_longest_In : forall X (l l' : list X) x,
  In x (flatten_some (zip_longest l l')) <-> In x l \/ In x l'.
Proof.
  unfold flatten_some. induction l as [|a l IH]; intros l' x.
  - simpl. rewrite in_flat_map. split.
    + intros (p & Hp & Hx). apply in_map_iff in Hp. destruct Hp as (y & <- & Hy).
      simpl in Hx. destruct Hx as [->|[]]. auto.
    + intros [[]|H]. exists (None, Some x). split; [|simpl; auto]. apply in_map_iff. eauto.
  - destruct l' as [|b l']; simpl; rewrite IH; simpl; tauto.
Qed.

Lemma first_tasks_valid : forall t, In t (tasks_first_order D) -> valid D second t.
Proof.
  intros t H. apply in_flat_map in H. destruct H as (j & Hj & H). apply in_seq in Hj.
  simpl in H. destruct H as [<-|[<-|[<-|[<-|[]]]]]; simpl; lia.
Qed.
Lemma second_tasks_valid : forall t, second = true -> In t (tasks_second_order D) -> valid D second t.
Proof.
  intros t Hs H. apply in_flat_map in H. destruct H as (j & Hj & H). apply in_seq in Hj.
  apply in_flat_map in H. destruct H as (k & Hk & H). apply in_seq in Hk.
  simpl in H. destruct H as [<-|[<-|[]]]; simpl; repeat split; auto; lia.
Qed.
Lemma all_tasks_valid : forall t, In t all_tasks -> valid D second t.
Proof.
  intros t H. unfold all_tasks in H. apply in_app_or in H. destruct H as [H|H].
  - apply first_tasks_valid; auto.
  - destruct (Bool.bool_dec second true) as [E|E].
    + apply second_tasks_valid; auto. rewrite E in H. auto.
    + apply not_true_is_false in E. rewrite E in H. destruct H.
Qed.

Lemma task_list_ok : forall n cpus tasks, create_task_list D second n cpus = Ok tasks ->
  forall t, In t (concat tasks) <-> In t all_tasks.
Proof.
  intros n cpus tasks H t. unfold create_task_list in H. unfold all_tasks.
  destruct second.
  - apply array_split_concat in H. destruct H as [-> _]. rewrite zip_longest_In, in_app_iff, <- in_rev. tauto.
  - apply array_split_concat in H. destruct H as [-> _]. rewrite app_nil_r. tauto.
Qed.

Lemma task_list_exists : forall n cpus, (n <> Some 0) -> (n = None -> 0 < cpus /\ 0 < D) ->
  exists tasks, create_task_list D second n cpus = Ok tasks.
Proof.
  intros n cpus H1 H2. unfold create_task_list.
  assert (H : 0 < match n with Some n => n | None => Nat.min cpus (length (tasks_first_order D) +
      length (if second then tasks_second_order D else [])) end).
  { destruct n as [[|n]|]; try congruence; [lia|]. destruct (H2 eq_refl).
    assert (0 < length (tasks_first_order D)); [|lia].
    unfold tasks_first_order. destruct D; [lia|]. simpl. lia. }
  destruct second; apply array_split_ok; auto.
Qed.

End Tasks.

Section Analysis.
Variable Z : R.
Variables (A B : list R) (AB : list (list R)) (BA : option (list (list R))).
Variable r : list (list nat).
Variable D : nat.
Variable second : bool.
Hypothesis HAB : length AB = D.
Hypothesis HBA : second = true -> exists ba, BA = Some ba /\ length ba = D.

(** Values written by the parallel branch. *)
Definition par_value (t : task) : fval :=
  let ab j := nth j AB [] in
  let ba j := match BA with Some m => nth j m [] | None => [] end in
  match t with
  | (kS1, j, _) => first_order A (ab j) B
  | (kS1c, j, _) => confidence Z (first_order2 (gather A r) (gather (ab j) r) (gather B r))
  | (kST, j, _) => total_order A (ab j) B
  | (kSTc, j, _) => confidence Z (total_order2 (gather A r) (gather (ab j) r) (gather B r))
  | (kS2, j, Some k) => second_order A (ab j) (ab k) (ba j) B
  | (kS2c, j, Some k) => confidence Z (second_order2 (gather A r) (gather (ab j) r) (gather (ab k) r)
                                        (gather (ba j) r) (gather B r))
  | (_, _, None) => None
  end.
(** Values written by the serial branch: the same, except for first- and total-order confidences of
    constant resamples. *)
Definition var_diff : R := ptp (concat (gather A r) ++ concat (gather B r)).
Definition ser_value (t : task) : fval :=
  match t with
  | (kS1c, _, _) | (kSTc, _, _) => if Reqb var_diff 0 then Some 0%R else par_value t
  | _ => par_value t
  end.

Lemma get_AB : forall j, j < D -> get AB j = Ok (nth j AB []).
Proof.
  intros j Hj. unfold get. destruct (nth_error_lt_Some AB (i := j)) as [x Hx]; [lia|].
  rewrite Hx. f_equal. symmetry. apply nth_error_nth. auto.
Qed.

Lemma pair_columns_ok : forall j k, second = true -> j < D -> k < D ->
  pair_columns AB BA j k =
  Ok (nth j AB [], nth k AB [], match BA with Some m => nth j m [] | None => [] end).
Proof.
  intros j k Hs Hj Hk. unfold pair_columns. destruct (HBA Hs) as (ba & E & Hl). rewrite E.
  rewrite !get_AB by auto. cbn [bind]. unfold get.
  destruct (nth_error_lt_Some ba (i := j)) as [x Hx]; [lia|]. rewrite Hx. cbn [bind].
  rewrite (nth_error_nth _ _ [] Hx). reflexivity.
Qed.

(** *** Serial *)
Lemma keep_S1_read : forall s j n e t, read (keep_S1 s j n e) t = read s t.
Proof. intros s j n e [[d j'] k]. destruct d, k; reflexivity. Qed.
Lemma keep_ST_read : forall s j n e t, read (keep_ST s j n e) t = read s t.
Proof. intros s j n e [[d j'] k]. destruct d, k; reflexivity. Qed.
Lemma keep_S1_shaped : forall s j n e, shaped D second s -> shaped D second (keep_S1 s j n e).
Proof. intros s j n e H. exact H. Qed.
Lemma keep_ST_shaped : forall s j n e, shaped D second s -> shaped D second (keep_ST s j n e).
Proof. intros s j n e H. exact H. Qed.

Definition first_cells (j : nat) : list task := map (fun d => (d, j, None)) [kS1; kS1c; kST; kSTc].

Definition est1 (j : nat) : estimate := first_order2 (gather A r) (gather (nth j AB []) r) (gather B r).
Definition estT (j : nat) : estimate := total_order2 (gather A r) (gather (nth j AB []) r) (gather B r).

Lemma serial_first_ok : forall n s j, shaped D second s -> j < D ->
  exists s', serial_first Z A B AB r n s j = Ok s' /\ shaped D second s' /\
    covered ser_value (first_cells j) s s' /\
    S1_conf_all s' = option_map (fun m => update m j (est_column n (est1 j))) (S1_conf_all s) /\
    ST_conf_all s' = option_map (fun m => update m j (est_column n (estT j))) (ST_conf_all s).
Proof.
  intros n s j Hs Hj. unfold serial_first. rewrite get_AB by auto. cbn [bind].
  destruct (write_ok D second s (kS1, j, None) (first_order A (nth j AB []) B) Hs Hj)
    as (s1 & E1 & H1 & K1 & R1 & O1).
  rewrite E1. cbn [bind]. fold (est1 j) (estT j) var_diff.
  destruct (write_ok D second (keep_S1 s1 j n (est1 j)) (kS1c, j, None)
             (if Reqb var_diff 0 then Some 0%R else confidence Z (est1 j))
             (keep_S1_shaped _ _ _ _ H1) Hj) as (s2 & E2 & H2 & K2 & R2 & O2).
  rewrite E2. cbn [bind].
  destruct (write_ok D second s2 (kST, j, None) (total_order A (nth j AB []) B) H2 Hj)
    as (s3 & E3 & H3 & K3 & R3 & O3).
  rewrite E3. cbn [bind].
  destruct (write_ok D second (keep_ST s3 j n (estT j)) (kSTc, j, None)
             (if Reqb var_diff 0 then Some 0%R else confidence Z (estT j))
             (keep_ST_shaped _ _ _ _ H3) Hj) as (s4 & E4 & H4 & K4 & R4 & O4).
  exists s4. split; [exact E4|]. split; [auto|].
  destruct K1, K2, K3, K4. split; [|split].
  - change (first_cells j) with ((([(kS1, j, None)] ++ [(kS1c, j, None)]) ++ [(kST, j, None)])
                                 ++ [(kSTc, j, @None nat)]).
    assert (C1 : covered ser_value [(kS1, j, None)] s (keep_S1 s1 j n (est1 j))).
    { eapply covered_read; [apply keep_S1_read|]. apply covered_write; auto. }
    assert (C2 : covered ser_value [(kS1c, j, None)] (keep_S1 s1 j n (est1 j)) s2).
    { apply covered_write; auto. }
    assert (C3 : covered ser_value [(kST, j, None)] s2 (keep_ST s3 j n (estT j))).
    { eapply covered_read; [apply keep_ST_read|]. apply covered_write; auto. }
    assert (C4 : covered ser_value [(kSTc, j, None)] (keep_ST s3 j n (estT j)) s4).
    { apply covered_write; auto. }
    eapply covered_app; [eapply covered_app; [eapply covered_app|]|]; eauto.
  - rewrite H9. unfold keep_ST. simpl. rewrite H7, H5. unfold keep_S1. simpl. rewrite H. reflexivity.
  - rewrite H10. unfold keep_ST. simpl. rewrite H8, H6. unfold keep_S1. simpl. rewrite H0. reflexivity.
Qed.

Lemma foldM_covered : forall X (f : Si -> X -> result Si) (cells : X -> list task) val l s,
  (forall s x, In x l -> shaped D second s ->
     exists s', f s x = Ok s' /\ shaped D second s' /\ covered val (cells x) s s') ->
  shaped D second s ->
  exists s', foldM f l s = Ok s' /\ shaped D second s' /\ covered val (flat_map cells l) s s'.
Proof.
  induction l; simpl; intros s Hf Hs.
  - exists s. split; auto. split; auto. apply covered_nil.
  - destruct (Hf s a) as (s1 & E1 & H1 & C1); auto. rewrite E1. cbn [bind].
    destruct (IHl s1) as (s2 & E2 & H2 & C2); auto.
    exists s2. split; [auto|]. split; auto. eapply covered_app; eauto.
Qed.

Definition serial_kept (n : nat) (s s' : Si) : Prop :=
  (forall m j, S1_conf_all s = Some m -> j < length m -> j < D ->
     exists m', S1_conf_all s' = Some m' /\ nth_error m' j = Some (est_column n (est1 j))) /\
  (forall m j, ST_conf_all s = Some m -> j < length m -> j < D ->
     exists m', ST_conf_all s' = Some m' /\ nth_error m' j = Some (est_column n (estT j))).

Lemma foldM_first : forall n l s, (forall j, In j l -> j < D) -> shaped D second s ->
  exists s', foldM (serial_first Z A B AB r n) l s = Ok s' /\ shaped D second s' /\
    covered ser_value (flat_map first_cells l) s s' /\
    S1_conf_all s' = option_map (fun m => fold_left (fun m j => update m j (est_column n (est1 j))) l m)
                                (S1_conf_all s) /\
    ST_conf_all s' = option_map (fun m => fold_left (fun m j => update m j (est_column n (estT j))) l m)
                                (ST_conf_all s).
Proof.
  induction l; simpl; intros s Hl Hs.
  - exists s. split; auto. split; auto. split; [apply covered_nil|].
    destruct (S1_conf_all s), (ST_conf_all s); auto.
  - destruct (serial_first_ok n s a) as (s1 & E1 & H1 & C1 & K1 & K2); auto.
    rewrite E1. cbn [bind]. destruct (IHl s1) as (s2 & E2 & H2 & C2 & K3 & K4); auto.
    exists s2. split; auto. split; auto.
    split; [apply (covered_app ser_value (first_cells a) (flat_map first_cells l) s s1 s2); auto|].
    rewrite K3, K4, K1, K2. destruct (S1_conf_all s), (ST_conf_all s); auto.
Qed.

Definition second_cells (j k : nat) : list task := map (fun d => (d, j, Some k)) [kS2; kS2c].

Lemma serial_second_ok : forall s j k, second = true -> shaped D second s -> j < D -> k < D ->
  exists s', serial_second Z A B AB BA r s j k = Ok s' /\ shaped D second s' /\
    covered ser_value (second_cells j k) s s' /\ same_kept s s'.
Proof.
  intros s j k Hsec Hs Hj Hk. unfold serial_second. rewrite pair_columns_ok by auto. cbn [bind].
  set (ba := match BA with Some m => nth j m [] | None => [] end).
  destruct (write_ok D second s (kS2, j, Some k)
              (second_order A (nth j AB []) (nth k AB []) ba B) Hs (conj Hsec (conj Hj Hk)))
    as (s1 & E1 & H1 & K1 & R1 & O1).
  rewrite E1. cbn [bind].
  destruct (write_ok D second s1 (kS2c, j, Some k)
              (confidence Z (second_order2 (gather A r) (gather (nth j AB []) r)
                               (gather (nth k AB []) r) (gather ba r) (gather B r)))
              H1 (conj Hsec (conj Hj Hk)))
    as (s2 & E2 & H2 & K2 & R2 & O2).
  exists s2. split; [exact E2|]. split; auto. split.
  - change (second_cells j k) with ([(kS2, j, Some k)] ++ [(kS2c, j, Some k)]).
    eapply covered_app; eapply covered_write; eauto.
  - destruct K1, K2. split; congruence.
Qed.

Lemma foldM_same_kept : forall X (f : Si -> X -> result Si) l s s',
  (forall s s' x, In x l -> f s x = Ok s' -> same_kept s s') ->
  foldM f l s = Ok s' -> same_kept s s'.
Proof.
  induction l; simpl; intros s s' Hf H.
  - injection H as <-. split; auto.
  - destruct (f s a) as [s1|] eqn:E; [|discriminate]. cbn [bind] in H.
    destruct (Hf s s1 a) as [Q1 Q2]; auto. destruct (IHl s1 s') as [Q3 Q4]; eauto.
    split; congruence.
Qed.

Lemma write_same_kept : forall s t v s', write s t v = Ok s' -> same_kept s s'.
Proof.
  intros s [[d j] k] v s'. destruct d, k; simpl; try discriminate.
  all: try (unfold set1; match goal with |- context[if ?c then _ else _] => destruct c end;
            cbn [bind]; intros H; inversion H; split; reflexivity).
  all: match goal with |- context[match ?x with Some _ => _ | None => _ end] => destruct x end;
       [|discriminate]; match goal with |- context[bind ?x _] => destruct x end; cbn [bind];
       intros H; inversion H; split; reflexivity.
Qed.

Lemma serial_second_kept : forall s j k s', serial_second Z A B AB BA r s j k = Ok s' -> same_kept s s'.
Proof.
  intros s j k s'. unfold serial_second. destruct (pair_columns AB BA j k) as [[[? ?] ?]|]; [|discriminate].
  cbn [bind]. match goal with |- context[bind ?x _] => destruct x as [s1|] eqn:E1 end; [|discriminate].
  cbn [bind]. intros E2. apply write_same_kept in E1. apply write_same_kept in E2.
  destruct E1, E2. split; congruence.
Qed.

Lemma serial_covers : forall n keep,
  exists s, serial Z A B AB BA r D n keep second = Ok s /\ shaped D second s /\
    covered ser_value (all_tasks D second) (create_Si_dict D n keep second) s /\
    (keep = false -> S1_conf_all s = None /\ ST_conf_all s = None) /\
    (keep = true -> exists m1 mT, S1_conf_all s = Some m1 /\ ST_conf_all s = Some mT /\
       length m1 = D /\ length mT = D /\
       forall j, j < D -> nth_error m1 j = Some (est_column n (est1 j)) /\
                          nth_error mT j = Some (est_column n (estT j))).
Proof.
  intros n keep. unfold serial.
  destruct (foldM_first n (seq 0 D) (create_Si_dict D n keep second)) as (s1 & E1 & H1 & C1 & K1 & KT).
  { intros j Hj. apply in_seq in Hj. lia. }
  { apply create_shaped. }
  rewrite E1. cbn [bind].
  assert (Hkeep : (keep = false -> S1_conf_all s1 = None /\ ST_conf_all s1 = None) /\
    (keep = true -> exists m1 mT, S1_conf_all s1 = Some m1 /\ ST_conf_all s1 = Some mT /\
       length m1 = D /\ length mT = D /\
       forall j, j < D -> nth_error m1 j = Some (est_column n (est1 j)) /\
                          nth_error mT j = Some (est_column n (estT j)))).
  { rewrite K1, KT. unfold create_Si_dict. simpl.
    assert (FL : forall (f : nat -> list fval) l m, length (fold_left (fun m j => update m j (f j)) l m) = length m).
    { induction l; simpl; intros; auto. rewrite IHl, length_update. auto. }
    assert (FN : forall (f : nat -> list fval) l m, (forall j, In j l -> j < length m) ->
       forall j, In j l -> nth_error (fold_left (fun m j => update m j (f j)) l m) j = Some (f j)).
    { intros f. induction l as [|a l IH]; simpl; intros m Hm j; [tauto|]. intros Hj.
      destruct (in_dec Nat.eq_dec j l) as [Hi|Hn].
      - apply IH; auto. intros. rewrite length_update. auto.
      - destruct Hj as [->|]; [|contradiction].
        assert (G : forall l m, ~ In j l -> nth_error (fold_left (fun m j => update m j (f j)) l m) j = nth_error m j).
        { clear. induction l; simpl; intros m Hn; auto. rewrite IHl by tauto.
          apply nth_update_neq. intros ->. tauto. }
        rewrite G by auto. apply nth_update_eq. auto. }
    split; intros ->; simpl; auto. do 2 eexists. split; [reflexivity|]. split; [reflexivity|].
    rewrite !FL, repeat_length. split; auto. split; auto. intros j Hj.
    split; apply FN; intros; rewrite ?repeat_length; try (apply in_seq; lia);
      match goal with H : In _ _ |- _ => apply in_seq in H; lia end. }
  destruct (Bool.bool_dec second true) as [Hsec|Hsec].
  - match goal with |- context[if second then ?x else ?y] =>
      replace (if second then x else y) with x by (rewrite Hsec; reflexivity) end.
    assert (Hinner : forall j, j < D -> forall s, shaped D second s ->
       exists s', foldM (fun s k => serial_second Z A B AB BA r s j k) (seq (S j) (D - S j)) s = Ok s' /\
         shaped D second s' /\
         covered ser_value (flat_map (fun k => second_cells j k) (seq (S j) (D - S j))) s s').
    { intros j Hj s Hs. apply foldM_covered; auto. intros s' k Hk Hs'. apply in_seq in Hk.
      destruct (serial_second_ok s' j k) as (s2 & ? & ? & ? & _); auto; [lia|]. eauto. }
    destruct (foldM_covered _
      (fun s j => foldM (fun s k => serial_second Z A B AB BA r s j k) (seq (S j) (D - S j)) s)
      (fun j => flat_map (fun k => second_cells j k) (seq (S j) (D - S j))) ser_value (seq 0 D) s1)
      as (s2 & E2 & H2 & C2); auto.
    { intros s j Hj Hs. apply in_seq in Hj. apply Hinner; auto; lia. }
    assert (SK : same_kept s1 s2).
    { apply (foldM_same_kept _ _ _ _ _ (fun s s' j _ HF =>
               foldM_same_kept _ _ _ _ _ (fun t t' k _ HF2 => serial_second_kept t j k t' HF2) HF) E2). }
    exists s2. split; auto. split; auto. split.
    + unfold all_tasks. replace (if second then tasks_second_order D else []) with (tasks_second_order D)
        by (rewrite Hsec; reflexivity). eapply covered_app; eauto.
    + destruct SK as [-> ->]. auto.
  - apply not_true_is_false in Hsec.
    match goal with |- context[if second then ?x else ?y] =>
      replace (if second then x else y) with y by (rewrite Hsec; reflexivity) end.
    exists s1. split; auto. split; auto. split; auto.
    unfold all_tasks. replace (if second then tasks_second_order D else []) with (@nil task)
        by (rewrite Hsec; reflexivity). rewrite app_nil_r. auto.
Qed.

(** *** Parallel *)
Lemma run_task_ok : forall t, valid D second t -> run_task Z A B AB BA r t = Ok (t, par_value t).
Proof.
  intros [[d j] k] HV. destruct d, k; simpl in HV; try tauto; unfold run_task.
  - rewrite get_AB by auto. reflexivity.
  - rewrite get_AB by auto. reflexivity.
  - rewrite get_AB by auto. reflexivity.
  - rewrite get_AB by auto. reflexivity.
  - destruct HV as (Hs & Hj & Hk). rewrite pair_columns_ok by auto. reflexivity.
  - destruct HV as (Hs & Hj & Hk). rewrite pair_columns_ok by auto. reflexivity.
Qed.

(** Whatever way the tasks are distributed over the sublists and whatever the order in which the
    sublists come back, the table is the same. *)
Lemma collect_covers : forall (S_list : list (list (task * fval))) n keep,
  (forall t v, In (t, v) (concat S_list) -> v = par_value t) ->
  (forall t, In t (map fst (concat S_list)) <-> In t (all_tasks D second)) ->
  exists s, Si_list_to_dict S_list D n keep second = Ok s /\ shaped D second s /\
    covered par_value (all_tasks D second) (create_Si_dict D n keep second) s /\
    same_kept (create_Si_dict D n keep second) s.
Proof.
  intros S_list n keep HV HT. unfold Si_list_to_dict.
  destruct (foldM_covered _ (fun s (tv : task * fval) => write s (fst tv) (snd tv))
              (fun tv => [fst tv]) par_value (concat S_list) (create_Si_dict D n keep second))
    as (s & E & H & C).
  - intros s [t v] Hin Hs. cbn [fst snd].
    assert (Ht : valid D second t).
    { apply all_tasks_valid. apply HT. change t with (fst (t, v)). apply in_map. auto. }
    destruct (write_ok D second s t v Hs Ht) as (s' & E & H & K & R1 & O).
    exists s'. split; auto. split; auto. apply covered_write; auto.
    rewrite R1. f_equal. apply HV; auto.
  - apply create_shaped.
  - exists s. split; auto. split; auto. split.
    + intros t. destruct (C t) as [C1 C2].
      assert (Hiff : In t (flat_map (fun tv : task * fval => [fst tv]) (concat S_list)) <-> In t (all_tasks D second)).
      { rewrite <- HT, in_flat_map, in_map_iff. split.
        - intros (x & Hx & [<-|[]]). eauto.
        - intros (x & <- & Hx). exists x. simpl; auto. }
      split; intros Hi; [apply C1|apply C2]; tauto.
    + apply (foldM_same_kept _ _ _ _ _ (fun s s' tv _ HF => write_same_kept s (fst tv) (snd tv) s' HF) E).
Qed.

Lemma sobol_parallel_ok : forall tasks, (forall t, In t tasks -> valid D second t) ->
  sobol_parallel Z A B AB BA r tasks = Ok (map (fun t => (t, par_value t)) tasks).
Proof.
  intros tasks H. unfold sobol_parallel. rewrite <- mapM_Ok_map. apply mapM_ext.
  intros t Ht. apply run_task_ok; auto.
Qed.

Lemma parallel_covers : forall n keep np cpus, np <> Some 0 -> (np = None -> 0 < cpus /\ 0 < D) ->
  exists s, parallel Z A B AB BA r D n keep second np cpus = Ok s /\ shaped D second s /\
    covered par_value (all_tasks D second) (create_Si_dict D n keep second) s /\
    same_kept (create_Si_dict D n keep second) s.
Proof.
  intros n keep np cpus H1 H2. unfold parallel.
  destruct (task_list_exists D second np cpus H1 H2) as [tasks Ht]. rewrite Ht. cbn [bind].
  assert (HTL := task_list_ok D second np cpus tasks Ht).
  assert (E : mapM (sobol_parallel Z A B AB BA r) tasks
              = Ok (map (map (fun t => (t, par_value t))) tasks)).
  { rewrite <- mapM_Ok_map. apply mapM_ext. intros x Hx. apply sobol_parallel_ok.
    intros t Htx. apply all_tasks_valid, HTL. apply in_concat. eauto. }
  rewrite E. cbn [bind].
  apply collect_covers.
  - rewrite <- concat_map. intros t v Hin.
    apply in_map_iff in Hin. destruct Hin as (x & Hx & _). congruence.
  - intros t. rewrite <- concat_map, map_map. simpl. rewrite map_id. apply HTL.
Qed.
End Analysis.
