(** * Discrepancy: C43. *)
From Coq Require Import Reals String List Arith ZArith Bool Lia Lra Permutation.
From Verif Require Import Base Arrays ListFacts ModelGroups SpecGroups ModelScale ProofsScale Stats Sums ModelMorrisAnalyze
  SpecSobol Quant ModelDiscrepancy SpecDiscrepancy ProofsDiscrepancy ProofsDiscrepancy2.
Import ListNotations.
Local Open Scope nat_scope.

(** C43: without groups there is one value per parameter: its raw discrepancy, of the unit-square points of the parameter and
    the outputs, over the sum.  They lie in [0, 1] and sum to 1; when all raw values are 0 they are nan. *)
Theorem C43_shares : forall disc p X Y, disc_ok disc -> disc_input p X Y -> ungrouped p ->
  exists raw out, raw_of disc p X Y raw /\ disc_analyze disc p X Y = Ok out /\ dc_names out = p_names p /\ length (dc_values out) = p_num_vars p /\
    ((0 < Rsum raw)%R -> exists s, dc_values out = map Some s /\ Rsum s = 1%R /\ Forall (fun v => 0 <= v <= 1)%R s /\
       forall i v, nth_error raw i = Some v -> nth_error s i = Some (v / Rsum raw)%R) /\
    (Rsum raw = 0%R -> dc_values out = repeat None (p_num_vars p)).
Proof. exact disc_shares. Qed.
Print Assumptions C43_shares.

(** C43: with groups there is one value per group in order of first appearance, the mean share of its parameters; weighted
    with the sizes of the groups the values sum to 1.  A groups entry of the wrong length raises. *)
Theorem C43_groups : forall disc p X Y g, disc_ok disc -> disc_input p X Y -> grouped p g ->
  (length g <> p_num_vars p -> disc_analyze disc p X Y = Err IndexError) /\
  (length g = p_num_vars p -> exists raw out, raw_of disc p X Y raw /\ disc_analyze disc p X Y = Ok out /\ dc_names out = p_names p /\
     ((0 < Rsum raw)%R -> exists ns js m, first_appearance g ns /\ length ns = length js /\ length ns = length m /\ dc_values out = map Some m /\
        (forall k x, nth_error ns k = Some x -> NoDup (nth k js []) /\ (forall j, In j (nth k js []) <-> nth_error g j = Some x) /\
           nth k m 0%R = mean (map (fun j => nth j raw 0 / Rsum raw)%R (nth k js [])) /\ (0 <= nth k m 0)%R) /\
        Rsum (map (fun k => INR (length (nth k js [])) * nth k m 0)%R (seq 0 (length ns))) = 1%R) /\
     (Rsum raw = 0%R -> exists ns, first_appearance g ns /\ dc_values out = repeat None (length ns))).
Proof. exact disc_groups. Qed.
Print Assumptions C43_groups.

(** C43 is false in its names with groups: as soon as two parameters share a group there are more names than values, and to_df raises. *)
Theorem C43_group_names_refuted : forall disc p X Y g out, disc_input p X Y -> grouped p g -> length g = p_num_vars p ->
  length (p_names p) = p_num_vars p -> ~ NoDup g ->
  disc_analyze disc p X Y = Ok out -> length (dc_values out) < length (dc_names out) /\ disc_to_df out = Err ValueError.
Proof. exact disc_names_mismatch. Qed.
Print Assumptions C43_group_names_refuted.

(** Two runs; three parameters, two of them in one group. *)
Definition disc_ex : problem := mkProblem 3 ["a"; "b"; "c"]%string [[0; 1]; [0; 1]; [0; 1]]%R (Some ["g"; "g"; "h"]%string) None false.
Definition disc_ex_X : mat R := mkMat 3 [[0; 1; 0]; [1; 0; 1]]%R.
Definition disc_ex_Y : list R := [2; 4]%R.
Ltac good := repeat (apply Forall_cons; [eexists _, _; split; [reflexivity|lra]|]); apply Forall_nil.
Ltac inside := repeat (apply Forall_cons; [split; [reflexivity|intros [|[|[|[|j]]]] l u E; simpl in E; try discriminate; injection E as <- <-; simpl; lra]|]); apply Forall_nil.
Lemma disc_ex_input : disc_input disc_ex disc_ex_X disc_ex_Y.
Proof.
  split; [good|]. split; [discriminate|]. split; [reflexivity|]. split; [reflexivity|]. split.
  - inside.
  - split; [reflexivity|]. exists 2%R, 4%R. simpl. repeat split; auto. lra.
Qed.
Lemma disc_ex_grouped : grouped disc_ex ["g"; "g"; "h"]%string.
Proof. split; [reflexivity|]. split; [discriminate|]. exists "g"%string, "h"%string. simpl. repeat split; auto. discriminate. Qed.

(** C43 is false in its sum with groups: equal discrepancies give the groups 1/3 and 1/3. *)
Theorem C43_group_sum_refuted : exists disc p X Y g out, disc_ok disc /\ disc_input p X Y /\ grouped p g /\ length g = p_num_vars p /\
  disc_analyze disc p X Y = Ok out /\ dc_values out = [Some (1/3)%R; Some (1/3)%R].
Proof.
  exists (fun _ => Ok 1%R), disc_ex, disc_ex_X, disc_ex_Y, ["g"; "g"; "h"]%string. eexists.
  split; [intros pts _ _; exists 1%R; split; auto; lra|]. split; [exact disc_ex_input|]. split; [exact disc_ex_grouped|]. split; [reflexivity|].
  rewrite (disc_eq _ _ _ _ disc_ex_input). cbn [p_num_vars disc_ex seq mapM bind]. unfold finish.
  rewrite (ProofsPawn4.grouped_check _ _ disc_ex_grouped). rewrite share_means_ok by reflexivity. cbn [bind]. split; [reflexivity|].
  cbn [dc_values map]. unfold fdiv. assert (E : Rsum [1; 1; 1]%R = 3%R) by (unfold Rsum; simpl; lra). rewrite E.
  assert (E3 : Reqb 3 0 = false) by (unfold Reqb; destruct (Req_EM_T 3 0); auto; lra). rewrite E3.
  cbn. unfold fmean. cbn. unfold mean, Rsum. simpl. f_equal; f_equal; [|f_equal]; field.
Qed.
Print Assumptions C43_group_sum_refuted.

(** C43: a bound that is not increasing, a sample outside the bounds or constant outputs raise ValueError, and nothing else is rejected
    ([C43_shares], [C43_groups]). *)
Theorem C43_rejects : forall disc p X Y, Forall (fun b => exists l u, b = [l; u]) (p_bounds p) -> p_bounds p <> [] -> length (p_bounds p) = cols X ->
  wf_mat X -> rows X <> [] ->
  ~ (good_box (p_bounds p) /\ Forall (in_box (p_bounds p)) (rows X) /\ exists a b, In a Y /\ In b Y /\ a <> b) ->
  disc_analyze disc p X Y = Err ValueError.
Proof. exact disc_rejects. Qed.
Print Assumptions C43_rejects.

(** C43: positive affine transformations of the outputs, and of a parameter together with its bounds, change nothing. *)
Theorem C43_affine_outputs : forall disc p X Y a b, disc_input p X Y -> (0 < a)%R ->
  disc_analyze disc p X (map (fun y => a * y + b)%R Y) = disc_analyze disc p X Y.
Proof. exact disc_affine_outputs. Qed.
Print Assumptions C43_affine_outputs.
Theorem C43_units : forall disc p X Y a b, disc_input p X Y -> (forall i, (0 < a i)%R) ->
  disc_analyze disc (reunit a b p) (mkMat (cols X) (map (fun r => map (fun i => a i * nth i r 0 + b i)%R (seq 0 (cols X))) (rows X))) Y
  = disc_analyze disc p X Y.
Proof. exact disc_reunit. Qed.
Print Assumptions C43_units.

(** C43: the order of the runs does not matter, given a discrepancy of sets of points. *)
Theorem C43_row_order : forall disc p X Y s, (forall q q', Permutation q q' -> disc q = disc q') -> disc_input p X Y -> Permutation s (seq 0 (length Y)) ->
  disc_analyze disc p (mkMat (cols X) (map (fun k => nth k (rows X) []) s)) (map (fun k => nth k Y 0%R) s) = disc_analyze disc p X Y.
Proof. exact disc_row_order. Qed.
Print Assumptions C43_row_order.

(** The wrap-around discrepancy (method WD) of three runs: raw values 1/6 and 11/72, shares 12/23 and 11/23. *)
Definition wd_kernel (a b : R) : R := (3 / 2 - Rabs (a - b) * (1 - Rabs (a - b)))%R.
Definition wd (q : list (R * R)) : result R :=
  Ok (mean (map (fun u => mean (map (fun v => wd_kernel (fst u) (fst v) * wd_kernel (snd u) (snd v)) q)) q) - (4 / 3) ^ 2)%R.
Definition disc_ex2 : problem := mkProblem 2 ["a"; "b"]%string [[0; 2]; [10; 20]]%R None None false.
Definition disc_ex2_X : mat R := mkMat 2 [[0; 15]; [1; 10]; [2; 20]]%R.
Definition disc_ex2_Y : list R := [5; 6; 7]%R.
Lemma disc_ex2_input : disc_input disc_ex2 disc_ex2_X disc_ex2_Y.
Proof.
  split; [good|]. split; [discriminate|]. split; [reflexivity|]. split; [reflexivity|]. split.
  - inside.
  - split; [reflexivity|]. exists 5%R, 6%R. simpl. repeat split; auto. lra.
Qed.
Example C43_example : disc_analyze wd disc_ex2 disc_ex2_X disc_ex2_Y = Ok (mkDisc [Some (12/23)%R; Some (11/23)%R] ["a"; "b"]%string).
Proof.
  assert (Hmin : minl [5; 6; 7]%R = 5%R). { destruct (minl_spec [5; 6; 7]%R) as [I L]; [discriminate|]. pose proof (L 5%R ltac:(simpl; auto)) as L5. destruct I as [E|[E|[E|[]]]]; lra. }
  assert (Hmax : maxl [5; 6; 7]%R = 7%R). { destruct (maxl_spec [5; 6; 7]%R) as [I L]; [discriminate|]. pose proof (L 7%R ltac:(simpl; auto)) as L7. destruct I as [E|[E|[E|[]]]]; lra. }
  rewrite (disc_eq _ _ _ _ disc_ex2_input). cbn [p_num_vars disc_ex2 seq mapM].
  assert (P0 : pts [[0; 2]; [10; 20]]%R [[0; 15]; [1; 10]; [2; 20]]%R [5; 6; 7]%R 0 = [(0, 0); (1/2, 1/2); (1, 1)]%R).
  { unfold pts, unit_col, unit_out, lo, up. rewrite Hmin, Hmax. simpl. repeat (f_equal; try lra). }
  assert (P1 : pts [[0; 2]; [10; 20]]%R [[0; 15]; [1; 10]; [2; 20]]%R [5; 6; 7]%R 1 = [(1/2, 0); (0, 1/2); (1, 1)]%R).
  { unfold pts, unit_col, unit_out, lo, up. rewrite Hmin, Hmax. simpl. repeat (f_equal; try lra). }
  unfold disc_ex2_X, disc_ex2_Y, disc_ex2. cbn [p_bounds rows]. rewrite P0, P1.
  assert (A : forall a, (0 <= a -> Rabs a = a)%R) by (intros; apply Rabs_pos_eq; auto). assert (B : forall a, (a <= 0 -> Rabs a = - a)%R) by (intros; apply Rabs_left1; auto).
  assert (K : wd_kernel 0 0 = (3/2)%R /\ wd_kernel (1/2) (1/2) = (3/2)%R /\ wd_kernel 1 1 = (3/2)%R /\ wd_kernel 0 (1/2) = (5/4)%R /\ wd_kernel (1/2) 0 = (5/4)%R /\
     wd_kernel 0 1 = (3/2)%R /\ wd_kernel 1 0 = (3/2)%R /\ wd_kernel (1/2) 1 = (5/4)%R /\ wd_kernel 1 (1/2) = (5/4)%R).
  { unfold wd_kernel. repeat split; (rewrite A by lra; lra) || (rewrite B by lra; lra). }
  destruct K as (K1 & K2 & K3 & K4 & K5 & K6 & K7 & K8 & K9).
  assert (W0 : wd [(0, 0); (1/2, 1/2); (1, 1)]%R = Ok (1/6)%R).
  { unfold wd. cbn [map fst snd]. rewrite K1, K2, K3, K4, K5, K6, K7, K8, K9. unfold mean, Rsum. simpl. f_equal. field. }
  assert (W1 : wd [(1/2, 0); (0, 1/2); (1, 1)]%R = Ok (11/72)%R).
  { unfold wd. cbn [map fst snd]. rewrite K1, K2, K3, K4, K5, K6, K7, K8, K9. unfold mean, Rsum. simpl. f_equal. field. }
  rewrite W0, W1. cbn [bind]. unfold finish. assert (EC : check_groups disc_ex2 = None) by reflexivity. unfold disc_ex2 in EC. rewrite EC. cbn [bind map].
  assert (S : Rsum [1/6; 11/72]%R = (23/72)%R) by (unfold Rsum; simpl; lra). rewrite S. unfold fdiv.
  assert (E3 : Reqb (23/72) 0 = false) by (unfold Reqb; destruct (Req_EM_T (23/72) 0); auto; lra). rewrite E3. cbn [p_names].
  f_equal. f_equal. f_equal; [f_equal; field|]. f_equal. f_equal. field.
Qed.
