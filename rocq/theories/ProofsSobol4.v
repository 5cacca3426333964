(** * Proofs: laws of the Sobol' estimators and of the whole analysis. *)
From Coq Require Import Reals String List Arith ZArith Bool Lia Lra.
From Verif Require Import Base Arrays ModelGroups SpecGroups ProofsGroups ModelScale ProofsScale
  Stats ModelSobol SpecSobol ProofsSobol ProofsSobol2 ProofsSobol3.
Import ListNotations.
Local Open Scope nat_scope.

(** ** Estimators *)
Lemma map2_minus_self : forall l x, In x (map2 Rminus l l) -> x = 0%R.
Proof.
  induction l; simpl; intros x H; [tauto|]. destruct H as [<-|H]; [lra|auto].
Qed.
Lemma map2_mult_zero : forall b l x, (forall y, In y l -> y = 0%R) -> In x (map2 Rmult b l) -> x = 0%R.
Proof.
  induction b; destruct l; simpl; intros x Hl H; try tauto.
  destruct H as [<-|H]; [rewrite (Hl r) by auto; lra|]. eapply IHb; eauto.
Qed.

Lemma fdiv_zero : forall v, fdiv 0 v = None \/ fdiv 0 v = Some 0%R.
Proof.
  intros. unfold fdiv. destruct (Reqb v 0) eqn:E; auto. right. f_equal. unfold Rdiv. ring.
Qed.

Lemma first_num_zero : forall A B, mean (map2 Rmult B (map2 Rminus A A)) = 0%R.
Proof. intros. apply mean_zero. intros x Hx. eapply map2_mult_zero; eauto. apply map2_minus_self. Qed.
Lemma total_num_zero : forall A, (/ 2 * mean (map (fun d => d ^ 2) (map2 Rminus A A)))%R = 0%R.
Proof.
  intros. rewrite mean_zero; [ring|]. intros x Hx. apply in_map_iff in Hx.
  destruct Hx as (y & <- & Hy). rewrite (map2_minus_self _ _ Hy). ring.
Qed.

Lemma first_col_self : forall A B, first_col A A B = None \/ first_col A A B = Some 0%R.
Proof. intros. unfold first_col. rewrite first_num_zero. apply fdiv_zero. Qed.
Lemma total_col_self : forall A B, total_col A A B = None \/ total_col A A B = Some 0%R.
Proof. intros. unfold total_col. rewrite total_num_zero. apply fdiv_zero. Qed.

Lemma var_of_ptp : forall l, l <> [] -> Reqb (ptp l) 0 = false -> Reqb (var l) 0 = false.
Proof.
  intros l Hl H. apply Reqb_false in H. apply Reqb_false. intros E. apply H. apply ptp_var; auto.
Qed.

Lemma app_neq_nil : forall A (a b : list A), a <> [] -> a ++ b <> [].
Proof. destruct a; simpl; congruence. Qed.

Lemma first_order_self : forall A B, A <> [] -> first_order A A B = Some 0%R.
Proof.
  intros A B H. unfold first_order. destruct (Reqb (ptp (A ++ B)) 0) eqn:E; auto.
  unfold first_col, fdiv. rewrite var_of_ptp by (auto using app_neq_nil). rewrite first_num_zero.
  f_equal. unfold Rdiv. ring.
Qed.
Lemma total_order_self : forall A B, A <> [] -> total_order A A B = Some 0%R.
Proof.
  intros A B H. unfold total_order. destruct (Reqb (ptp (A ++ B)) 0) eqn:E; auto.
  unfold total_col, fdiv. rewrite var_of_ptp by (auto using app_neq_nil). rewrite total_num_zero.
  f_equal. unfold Rdiv. ring.
Qed.

Lemma total_col_nonneg : forall A AB B v, total_col A AB B = Some v -> (0 <= v)%R.
Proof.
  intros A AB B v. unfold total_col, fdiv. destruct (Reqb (var (A ++ B)) 0) eqn:E; [discriminate|].
  intros H. injection H as <-. apply Rdiv_nonneg.
  - apply Rmult_le_pos; [lra|]. apply mean_nonneg. intros x Hx. apply in_map_iff in Hx.
    destruct Hx as (y & <- & _). apply sq_nonneg.
  - apply Reqb_false in E. pose proof (var_nonneg (A ++ B)). lra.
Qed.
Lemma total_order_nonneg : forall A AB B v, total_order A AB B = Some v -> (0 <= v)%R.
Proof.
  intros A AB B v. unfold total_order. destruct (Reqb _ 0).
  - intros H. injection H as <-. lra.
  - apply total_col_nonneg.
Qed.

Lemma first_order_numeric : forall A AB B, A <> [] -> exists v, first_order A AB B = Some v.
Proof.
  intros A AB B H. unfold first_order. destruct (Reqb (ptp (A ++ B)) 0) eqn:E; eauto.
  unfold first_col, fdiv. rewrite var_of_ptp by (auto using app_neq_nil). eauto.
Qed.
Lemma total_order_numeric : forall A AB B, A <> [] -> exists v, total_order A AB B = Some v.
Proof.
  intros A AB B H. unfold total_order. destruct (Reqb (ptp (A ++ B)) 0) eqn:E; eauto.
  unfold total_col, fdiv. rewrite var_of_ptp by (auto using app_neq_nil). eauto.
Qed.

(** ** Negation *)
Definition opp := map Ropp.

Lemma map2_opp : forall (f : R -> R -> R) (g : R -> R) a b,
  (forall x y, f (- x)%R (- y)%R = g (f x y)) -> map2 f (opp a) (opp b) = map g (map2 f a b).
Proof. induction a; destruct b; simpl; intros H; auto. rewrite H. f_equal. auto. Qed.

Lemma fold_opp : forall l x, fold_left Rmax (opp l) (- x)%R = (- fold_left Rmin l x)%R /\
                             fold_left Rmin (opp l) (- x)%R = (- fold_left Rmax l x)%R.
Proof.
  induction l; simpl; intros x; auto.
  assert (Rmax (- x) (- a) = - Rmin x a)%R.
  { unfold Rmax, Rmin. destruct (Rle_dec (- x) (- a)), (Rle_dec x a); lra. }
  assert (Rmin (- x) (- a) = - Rmax x a)%R.
  { unfold Rmax, Rmin. destruct (Rle_dec (- x) (- a)), (Rle_dec x a); lra. }
  rewrite H, H0. split; apply IHl.
Qed.
Lemma ptp_opp : forall l, ptp (opp l) = ptp l.
Proof.
  destruct l; unfold ptp; simpl; auto. destruct (fold_opp l r) as [-> ->]. ring.
Qed.
Lemma opp_app : forall a b, opp (a ++ b) = opp a ++ opp b.
Proof. apply map_app. Qed.

Lemma mean_opp : forall l, mean (opp l) = (- mean l)%R.
Proof.
  intros. unfold mean, opp. rewrite map_length.
  replace (Rsum (map Ropp l)) with (- Rsum l)%R.
  - unfold Rdiv. ring.
  - induction l; simpl; lra.
Qed.
Lemma var_opp : forall l, var (opp l) = var l.
Proof.
  intros. unfold var. rewrite mean_opp. unfold opp. rewrite map_map. f_equal. apply map_ext.
  intros x. ring.
Qed.

Lemma first_num_opp : forall A AB B,
  map2 Rmult (opp B) (map2 Rminus (opp AB) (opp A)) = map2 Rmult B (map2 Rminus AB A).
Proof.
  intros. rewrite (map2_opp Rminus Ropp) by (intros; ring). fold opp.
  rewrite (map2_opp Rmult (fun x => x)) by (intros; ring). apply map_id.
Qed.

Lemma first_col_opp : forall A AB B, first_col (opp A) (opp AB) (opp B) = first_col A AB B.
Proof. intros. unfold first_col. rewrite <- opp_app, var_opp, first_num_opp. reflexivity. Qed.
Lemma total_col_opp : forall A AB B, total_col (opp A) (opp AB) (opp B) = total_col A AB B.
Proof.
  intros. unfold total_col. rewrite <- opp_app, var_opp.
  rewrite (map2_opp Rminus Ropp) by (intros; ring). rewrite map_map.
  rewrite (map_ext (fun x => ((- x) ^ 2)%R) (fun x => (x ^ 2)%R)) by (intros; ring). reflexivity.
Qed.
Lemma second_num_opp : forall A ABk BAj B,
  map2 Rminus (map2 Rmult (opp BAj) (opp ABk)) (map2 Rmult (opp A) (opp B)) =
  map2 Rminus (map2 Rmult BAj ABk) (map2 Rmult A B).
Proof. intros. rewrite !(map2_opp Rmult (fun x => x)) by (intros; ring). rewrite !map_id. reflexivity. Qed.
Lemma second_col_opp : forall A ABj ABk BAj B,
  second_col (opp A) (opp ABj) (opp ABk) (opp BAj) (opp B) = second_col A ABj ABk BAj B.
Proof.
  intros. unfold second_col. rewrite <- opp_app, var_opp, second_num_opp, !first_col_opp. reflexivity.
Qed.
Lemma first_order_opp : forall A AB B, first_order (opp A) (opp AB) (opp B) = first_order A AB B.
Proof. intros. unfold first_order. rewrite <- opp_app, ptp_opp, first_col_opp. reflexivity. Qed.
Lemma total_order_opp : forall A AB B, total_order (opp A) (opp AB) (opp B) = total_order A AB B.
Proof. intros. unfold total_order. rewrite <- opp_app, ptp_opp, total_col_opp. reflexivity. Qed.
Lemma second_order_opp : forall A ABj ABk BAj B,
  second_order (opp A) (opp ABj) (opp ABk) (opp BAj) (opp B) = second_order A ABj ABk BAj B.
Proof.
  intros. unfold second_order. rewrite !first_order_opp, <- opp_app, ptp_opp, var_opp, second_num_opp.
  reflexivity.
Qed.

Lemma gather_opp : forall x r, gather (opp x) r = map opp (gather x r).
Proof.
  intros. unfold gather. rewrite map_map. apply map_ext. intros idx. unfold opp. rewrite map_map.
  apply map_ext. intros i. rewrite <- Ropp_0 at 1. apply map_nth.
Qed.
Lemma concat_opp : forall ls, concat (map opp ls) = opp (concat ls).
Proof. intros. unfold opp. symmetry. apply concat_map. Qed.

Lemma map3_opp : forall W (f : list R -> list R -> list R -> W) a b c,
  (forall x y z, f (opp x) (opp y) (opp z) = f x y z) ->
  map3 f (map opp a) (map opp b) (map opp c) = map3 f a b c.
Proof. induction a; destruct b, c; simpl; intros H; auto. rewrite H. f_equal. auto. Qed.
Lemma map5_opp : forall W (f : list R -> list R -> list R -> list R -> list R -> W) a b c d e,
  (forall x y z u v, f (opp x) (opp y) (opp z) (opp u) (opp v) = f x y z u v) ->
  map5 f (map opp a) (map opp b) (map opp c) (map opp d) (map opp e) = map5 f a b c d e.
Proof. induction a; destruct b, c, d, e; simpl; intros H; auto. rewrite H. f_equal. auto. Qed.

Lemma first_order2_opp : forall a b c r,
  first_order2 (gather (opp a) r) (gather (opp b) r) (gather (opp c) r)
  = first_order2 (gather a r) (gather b r) (gather c r).
Proof.
  intros. rewrite !gather_opp. unfold first_order2. rewrite !concat_opp, <- opp_app, ptp_opp.
  rewrite map3_opp; auto. apply first_col_opp.
Qed.
Lemma total_order2_opp : forall a b c r,
  total_order2 (gather (opp a) r) (gather (opp b) r) (gather (opp c) r)
  = total_order2 (gather a r) (gather b r) (gather c r).
Proof.
  intros. rewrite !gather_opp. unfold total_order2. rewrite !concat_opp, <- opp_app, ptp_opp.
  rewrite map3_opp; auto. apply total_col_opp.
Qed.
Lemma second_order2_opp : forall a b c d e r,
  second_order2 (gather (opp a) r) (gather (opp b) r) (gather (opp c) r) (gather (opp d) r)
    (gather (opp e) r)
  = second_order2 (gather a r) (gather b r) (gather c r) (gather d r) (gather e r).
Proof.
  intros. rewrite !gather_opp. unfold second_order2. rewrite !concat_opp, <- opp_app, ptp_opp.
  rewrite map5_opp; auto. apply second_col_opp.
Qed.

Lemma get_map : forall A B (f : A -> B) l i,
  get (map f l) i = match get l i with Ok x => Ok (f x) | Err e => Err e end.
Proof. intros. unfold get. rewrite nth_error_map'. destruct (nth_error l i); reflexivity. Qed.

Lemma pair_columns_opp : forall AB BA j k,
  pair_columns (map opp AB) (option_map (map opp) BA) j k =
  match pair_columns AB BA j k with
  | Ok (x, y, z) => Ok (opp x, opp y, opp z) | Err e => Err e end.
Proof.
  intros. unfold pair_columns. destruct BA as [ba|]; simpl; auto. rewrite !get_map.
  destruct (get AB j); simpl; auto. destruct (get AB k); simpl; auto. destruct (get ba j); auto.
Qed.

Lemma serial_opp : forall Z A B AB BA r D n keep second,
  serial Z (opp A) (opp B) (map opp AB) (option_map (map opp) BA) r D n keep second
  = serial Z A B AB BA r D n keep second.
Proof.
  intros. unfold serial.
  assert (E1 : foldM (serial_first Z (opp A) (opp B) (map opp AB) r n) (seq 0 D) (create_Si_dict D n keep second)
             = foldM (serial_first Z A B AB r n) (seq 0 D) (create_Si_dict D n keep second)).
  { apply foldM_ext. intros s j _. unfold serial_first. rewrite get_map.
    destruct (get AB j) as [ab|]; auto. cbn [bind].
    rewrite first_order_opp, total_order_opp, first_order2_opp, total_order2_opp.
    rewrite !gather_opp, !concat_opp, <- opp_app, ptp_opp. reflexivity. }
  rewrite E1. destruct (foldM (serial_first Z A B AB r n) (seq 0 D) _) as [s|]; auto. cbn [bind]. destruct second; auto.
  apply foldM_ext. intros s' j _. apply foldM_ext. intros s'' k _.
  unfold serial_second. rewrite pair_columns_opp.
  destruct (pair_columns AB BA j k) as [[[x y] z]|]; auto. cbn [bind].
  rewrite second_order_opp, second_order2_opp. reflexivity.
Qed.

Lemma parallel_opp : forall Z A B AB BA r D n keep second np cpus,
  parallel Z (opp A) (opp B) (map opp AB) (option_map (map opp) BA) r D n keep second np cpus
  = parallel Z A B AB BA r D n keep second np cpus.
Proof.
  intros. unfold parallel. destruct (create_task_list D second np cpus) as [tasks|]; auto. cbn [bind].
  assert (E : mapM (sobol_parallel Z (opp A) (opp B) (map opp AB) (option_map (map opp) BA) r) tasks
            = mapM (sobol_parallel Z A B AB BA r) tasks).
  { apply mapM_ext. intros ts _. unfold sobol_parallel. apply mapM_ext. intros [[d j] k] _.
    unfold run_task. rewrite !get_map.
    destruct d, k; auto; rewrite ?pair_columns_opp;
      try (destruct (get AB j) as [ab|]; auto; cbn [bind];
           rewrite ?first_order_opp, ?total_order_opp, ?first_order2_opp, ?total_order2_opp; reflexivity);
      destruct (pair_columns AB BA j n0) as [[[x y] z]|]; auto; cbn [bind];
      rewrite ?second_order_opp, ?second_order2_opp; reflexivity. }
  rewrite E. reflexivity.
Qed.

Lemma every_map : forall A B (f : A -> B) step fuel l,
  every fuel step (map f l) = map f (every fuel step l).
Proof.
  induction fuel; simpl; intros; auto. destruct l; simpl; auto. f_equal.
  rewrite <- (map_cons f). rewrite skipn_map. apply IHfuel.
Qed.
Lemma slice_step_map : forall A B (f : A -> B) l start step,
  slice_step (map f l) start step = map f (slice_step l start step).
Proof. intros. unfold slice_step. rewrite skipn_map, map_length, every_map. reflexivity. Qed.

Lemma mapM_map_result : forall A B C (f : A -> result B) (g : B -> C) l,
  mapM (fun x => match f x with Ok y => Ok (g y) | Err e => Err e end) l =
  match mapM f l with Ok ys => Ok (map g ys) | Err e => Err e end.
Proof.
  induction l; simpl; auto. destruct (f a); simpl; auto. rewrite IHl.
  destruct (mapM f l); reflexivity.
Qed.

Lemma separate_map : forall A B (f : A -> B) Y D N second,
  separate_output_values (map f Y) D N second =
  match separate_output_values Y D N second with
  | Ok (a, b, ab, ba) => Ok (map f a, map f b, map (map f) ab, option_map (map (map f)) ba)
  | Err e => Err e
  end.
Proof.
  intros A B f Y D N second. unfold separate_output_values.
  set (step := if second then 2 * D + 2 else D + 2). rewrite !slice_step_map.
  assert (E : forall g, mapM (fun j => if length (slice_step (map f Y) (g j) step) =? N
                        then Ok (slice_step (map f Y) (g j) step) else Err ValueError) (seq 0 D)
     = match mapM (fun j => if length (slice_step Y (g j) step) =? N
                        then Ok (slice_step Y (g j) step) else Err ValueError) (seq 0 D) with
       | Ok ys => Ok (map (map f) ys) | Err e => Err e end).
  { intros g. rewrite <- mapM_map_result. apply mapM_ext. intros j _.
    rewrite slice_step_map, map_length. destruct (_ =? N); reflexivity. }
  rewrite (E (fun j => j + 1)). destruct (mapM _ (seq 0 D)) as [ab|]; auto. cbn [bind].
  destruct second.
  - rewrite (E (fun j => j + 1 + D)). destruct (mapM _ (seq 0 D)) as [ba|]; auto.
  - reflexivity.
Qed.

(** ** The whole analysis *)
Lemma analyze_affine : forall Zq resample cpus p Y second conf keep workers a b, a <> 0%R ->
  analyze Zq resample cpus p (map (fun y => a * y + b)%R Y) second conf keep workers
  = analyze Zq resample cpus p Y second conf keep workers.
Proof.
  intros Zq resample cpus p Y second conf keep workers a b Ha.
  unfold analyze. destruct Y as [|y0 Y0] eqn:EY; [reflexivity|]. rewrite <- EY.
  assert (HY : Y <> []) by (rewrite EY; congruence). clear EY y0 Y0.
  unfold analyze_with. rewrite map_length, mean_map_affine, sd_affine by auto.
  set (D := snd (extract_group_names p)). set (step := if second then 2 * D + 2 else D + 2).
  destruct (negb (length Y mod step =? 0)); auto.
  destruct (negb (Rltb 0 conf && Rltb conf 1)); auto.
  destruct ((0 <? D) && ((length Y / step =? 0) || (length (resample (length Y / step)) =? 0))); auto.
  assert (Hab : Rabs a <> 0%R) by (apply Rabs_no_R0; auto).
  destruct (Reqb (sd Y) 0) eqn:E.
  - apply Reqb_true in E. rewrite E, Rmult_0_r.
    replace (Reqb 0 0) with true by (symmetry; apply Reqb_true; auto). reflexivity.
  - apply Reqb_false in E.
    replace (Reqb (Rabs a * sd Y) 0) with false.
    2:{ symmetry. apply Reqb_false. intros H. apply Rmult_integral in H. tauto. }
    rewrite map_map. destruct (Rlt_dec 0 a) as [Hp|Hp].
    + rewrite (Rabs_pos_eq a) by lra.
      rewrite (map_ext (fun x => (a * x + b - (a * mean Y + b)) / (a * sd Y))%R
                       (fun y => (y - mean Y) / sd Y)%R) by (intros; field; auto).
      reflexivity.
    + rewrite (Rabs_left a) by lra.
      rewrite (map_ext (fun x => (a * x + b - (a * mean Y + b)) / (- a * sd Y))%R
                       (fun y => - ((y - mean Y) / sd Y))%R) by (intros; field; split; auto; lra).
      rewrite <- (map_map (fun y => (y - mean Y) / sd Y)%R Ropp), separate_map.
      destruct (separate_output_values _ D _ second) as [[[[A B] AB] BA]|]; auto. cbn [bind].
      destruct workers as [np|]; [apply parallel_opp|apply serial_opp].
Qed.

Lemma parallel_inv : forall Z A B AB BA r D second n keep np cpus s,
  length AB = D -> (second = true -> exists ba, BA = Some ba /\ length ba = D) ->
  parallel Z A B AB BA r D n keep second np cpus = Ok s ->
  shaped D second s /\
  covered (par_value Z A B AB BA r) (all_tasks D second) (create_Si_dict D n keep second) s /\
  same_kept (create_Si_dict D n keep second) s.
Proof.
  intros Z A B AB BA r D second n keep np cpus s HAB HBA H.
  unfold parallel in H. destruct (create_task_list D second np cpus) as [tasks|] eqn:Ht; [|discriminate].
  cbn [bind] in H. assert (HTL : forall t, In t (concat tasks) <-> In t (all_tasks D second))
    by (eapply task_list_ok; eauto).
  assert (E : mapM (sobol_parallel Z A B AB BA r) tasks
              = Ok (map (map (fun t => (t, par_value Z A B AB BA r t))) tasks)).
  { rewrite <- mapM_Ok_map. apply mapM_ext. intros x Hx.
    eapply sobol_parallel_ok; eauto.
    intros t Htx. apply all_tasks_valid, HTL. apply in_concat. eauto. }
  rewrite E in H. cbn [bind] in H.
  destruct (collect_covers Z A B AB BA r D second
              (map (map (fun t => (t, par_value Z A B AB BA r t))) tasks) n keep)
    as (s' & E' & H1 & H2 & H3).
  - rewrite <- concat_map. intros t v Hin. apply in_map_iff in Hin. destruct Hin as (x & Hx & _). congruence.
  - intros t. rewrite <- concat_map, map_map. simpl. rewrite map_id. apply HTL.
  - rewrite E' in H. injection H as <-. auto.
Qed.

(** What a successful analysis contains. *)
Lemma analyze_inv : forall mu sigma Zq resample cpus p Y second conf keep workers s,
  sigma <> 0%R ->
  analyze_with mu sigma Zq resample cpus p Y second conf keep workers = Ok s ->
  let D := snd (extract_group_names p) in
  exists N A B AB BA,
    length Y = N * block_size D second /\ (0 < D -> 0 < N) /\ (0 < D -> 0 < length (resample N)) /\
    separate_output_values (map (fun y => (y - mu) / sigma)%R Y) D N second = Ok (A, B, AB, BA) /\
    length A = N /\ length B = N /\ length AB = D /\ Forall (fun c => length c = N) AB /\
    (second = true -> exists ba, BA = Some ba /\ length ba = D /\ Forall (fun c => length c = N) ba) /\
    shaped D second s /\
    covered (match workers with
             | None => ser_value (Zq conf) A B AB BA (resample N)
             | Some _ => par_value (Zq conf) A B AB BA (resample N)
             end) (all_tasks D second) (create_Si_dict D (length (resample N)) keep second) s /\
    (workers <> None -> same_kept (create_Si_dict D (length (resample N)) keep second) s) /\
    (workers = None ->
     (keep = false -> S1_conf_all s = None /\ ST_conf_all s = None) /\
     (keep = true -> exists m1 mT, S1_conf_all s = Some m1 /\ ST_conf_all s = Some mT /\
       length m1 = D /\ length mT = D /\
       forall j, j < D -> nth_error m1 j = Some (est_column (length (resample N)) (est1 A B AB (resample N) j)) /\
                          nth_error mT j = Some (est_column (length (resample N)) (estT A B AB (resample N) j)))).
Proof.
  intros mu sigma Zq resample cpus p Y second conf keep workers s Hsig H D.
  unfold analyze_with in H. fold D in H.
  change (if second then 2 * D + 2 else D + 2) with (block_size D second) in H.
  set (step := block_size D second) in *.
  destruct (length Y mod step =? 0) eqn:E1; [|discriminate]. simpl negb in H. cbv iota in H.
  destruct (Rltb 0 conf && Rltb conf 1); [|discriminate]. simpl negb in H. cbv iota in H.
  destruct ((0 <? D) && ((length Y / step =? 0) || (length (resample (length Y / step)) =? 0))) eqn:E2;
    [discriminate|].
  assert (Es : Reqb sigma 0 = false) by (apply Reqb_false; auto). rewrite Es in H.
  assert (Hstep : step <> 0) by (unfold step, block_size; destruct second; lia).
  apply Nat.eqb_eq in E1.
  pose proof (Nat.div_mod (length Y) step Hstep) as Hdm.
  set (N := length Y / step) in *.
  assert (HL : length Y = N * step) by lia.
  destruct (separate_ok R (map (fun y => (y - mu) / sigma)%R Y) D N second) as
    (A & B & AB & BA & Esep & LA & LB & LAB & FAB & HBA & HnBA & _ & _ & _).
  { rewrite map_length. exact HL. }
  rewrite Esep in H. cbn [bind] in H.
  exists N, A, B, AB, BA. split; [exact HL|].
  assert (HNpos : 0 < D -> 0 < N /\ 0 < length (resample N)).
  { intros HD. destruct (Nat.ltb_spec 0 D); [|lia]. simpl in E2.
    apply orb_false_iff in E2. destruct E2 as [E2 E3]. apply Nat.eqb_neq in E2, E3. lia. }
  split; [intros; apply HNpos; auto|]. split; [intros; apply HNpos; auto|].
  split; [auto|]. split; [auto|]. split; [auto|]. split; [auto|]. split; [auto|].
  assert (HBA' : second = true -> exists ba, BA = Some ba /\ length ba = D).
  { intros Hs. destruct (HBA Hs) as (ba & ? & ? & _). eauto. }
  split.
  { intros Hs. destruct (HBA Hs) as (ba & ? & ? & ? & _). eauto. }
  destruct workers as [np|].
  - destruct (parallel_inv _ _ _ _ _ _ _ _ _ _ _ _ _ LAB HBA' H) as (P1 & P2 & P3).
    split; auto. split; auto. split; auto. congruence.
  - destruct (serial_covers (Zq conf) A B AB BA (resample N) D second LAB HBA' (length (resample N)) keep)
      as (s' & E & S1' & S2' & S3' & S4').
    rewrite E in H. injection H as <-. split; auto. split; auto. split; [congruence|]. auto.
Qed.

Lemma in_first_tasks : forall D second j d, j < D -> In d [kS1; kS1c; kST; kSTc] ->
  In (d, j, None) (all_tasks D second).
Proof.
  intros D second j d Hj Hd. unfold all_tasks. apply in_or_app. left.
  apply in_flat_map. exists j. split; [apply in_seq; lia|]. apply in_map_iff. eauto.
Qed.
Lemma in_second_tasks : forall D j k d, j < k -> k < D -> In d [kS2; kS2c] ->
  In (d, j, Some k) (all_tasks D true).
Proof.
  intros D j k d Hj Hk Hd. unfold all_tasks. apply in_or_app. right.
  apply in_flat_map. exists j. split; [apply in_seq; lia|].
  apply in_flat_map. exists k. split; [apply in_seq; lia|]. apply in_map_iff. eauto.
Qed.
Lemma not_second_task : forall D second j k d, ~ j < k -> ~ In (d, j, Some k) (all_tasks D second).
Proof.
  intros D second j k d Hjk H. unfold all_tasks in H. apply in_app_or in H. destruct H as [H|H].
  - apply in_flat_map in H. destruct H as (j' & _ & H). apply in_map_iff in H.
    destruct H as (d' & E & _). congruence.
  - destruct second; [|destruct H]. apply in_flat_map in H. destruct H as (j' & Hj & H).
    apply in_flat_map in H. destruct H as (k' & Hk & H). apply in_map_iff in H.
    destruct H as (d' & E & _). apply in_seq in Hk. assert (j' = j) by congruence.
    assert (k' = k) by congruence. lia.
Qed.
