(** * Delta moment-independent analysis: C44, C45, C46, C65, C94. *)
From Coq Require Import Reals String List Arith ZArith Bool Lia Lra Permutation Sorted.
From Verif Require Import Base Arrays ListFacts ModelGroups ModelScale ProofsScale Stats Sums Quant ModelRsa SpecRsa ModelFast ModelDelta SpecDelta
  ProofsDelta ProofsDelta2 ProofsDelta3 ProofsDelta4 ProofsDelta5 ProofsDelta6 ProofsDelta7 ProofsDelta8 ProofsDelta9 ProofsDelta10.
Import ListNotations.
Local Open Scope nat_scope.

(** C44: the initial bins hold the positions of the values between their cut points; the final bins are these, put together
    from the left: a bin is extended exactly while it is smaller than the minimum. *)
Theorem C44_merge : forall edges X k init fin, bins_indices edges X k = (init, fin) <-> binned edges X init /\ merged k init fin.
Proof. exact bins_indices_spec. Qed.
Print Assumptions C44_merge.

(** C44: merging keeps the positions and their order; with cut points that cover the values every position is in exactly one
    bin; every final bin but the last has the minimum size. *)
Theorem C44_no_point_lost : forall edges X k init fin, bins_indices edges X k = (init, fin) ->
  concat fin = concat init /\ (covers edges X -> Permutation (concat fin) (seq 0 (length X))) /\
  (forall b before after, fin = before ++ b :: after -> after <> [] -> k <= length b) /\ length fin <= length init.
Proof.
  intros edges X k init fin H. apply C44_merge in H. destruct H as [B M]. split; [exact (merged_concat _ _ _ M)|].
  split; [intros C; rewrite (merged_concat _ _ _ M); exact (bins_keep_all _ _ _ C B)|]. split; [exact (merged_sizes _ _ _ M)|exact (proj1 (merged_count _ _ _ M))].
Qed.
Print Assumptions C44_no_point_lost.

(** C44: the cut points that are used: a number of equal bins, the given increasing list framed by the extremes, and ten equal
    bins (with a note unless nothing was specified) otherwise. *)
Theorem C44_bins_used : forall X spec, X <> [] ->
  exists r, check_bininfo spec (minl X) (maxl X) = r /\
  match spec with
  | Some (BInt z) => ((1 <= z)%Z -> exists edges, r = Ok (edges, []) /\ even_edges (minl X) (maxl X) (Z.to_nat z) edges) /\
                     ((-1 <= z <= 0)%Z -> exists edges, r = Ok (edges, []) /\ length edges <= 1) /\ ((z < -1)%Z -> r = Err ValueError)
  | Some (BList l) => (StronglySorted Rlt l -> (forall e, In e l -> (minl X <= e <= maxl X)%R) ->
                         r = Ok ([minl X - / 1000000000] ++ l ++ [maxl X + / 1000000000], [])%R) /\
                      (~ (StronglySorted Rlt l /\ forall e, In e l -> (minl X <= e <= maxl X)%R) ->
                         exists edges nt, r = Ok (edges, [nt]) /\ even_edges (minl X) (maxl X) 10 edges)
  | Some _ => exists edges nt, r = Ok (edges, [nt]) /\ even_edges (minl X) (maxl X) 10 edges
  | None => exists edges, r = Ok (edges, []) /\ even_edges (minl X) (maxl X) 10 edges
  end.
Proof. exact bins_used. Qed.
Print Assumptions C44_bins_used.

(** C44: all of them cover the values, unless fewer than one bin was asked for. *)
Theorem C44_bins_cover : forall X spec edges n, X <> [] -> (forall z, spec = Some (BInt z) -> (1 <= z)%Z) ->
  check_bininfo spec (minl X) (maxl X) = Ok (edges, n) -> covers edges X.
Proof. exact edges_cover. Qed.
Print Assumptions C44_bins_cover.

(** Three points, two bins, minimum 2: the last bin keeps a single point although putting both together would do. *)
Definition three : list R := [0; 1/2; 2]%R.
Example C44_example : bins_indices [0; 1; 2]%R three 2 = ([[0; 1]; [2]], [[0; 1]; [2]]).
Proof.
  unfold bins_indices. assert (E : init_bins [0; 1; 2]%R three = [[0; 1]; [2]]); [|rewrite E; reflexivity].
  unfold init_bins, where_, three. cbn [length Nat.sub seq map combine Nat.add nth Nat.eqb filter snd fst]. leb_all; reflexivity.
Qed.
(** The first bin is too small and takes the second. *)
Example C44_example2 : bins_indices [0; 1/4; 1; 2]%R three 2 = ([[0]; [1]; [2]], [[0; 1]; [2]]).
Proof.
  unfold bins_indices. assert (E : init_bins [0; 1/4; 1; 2]%R three = [[0]; [1]; [2]]); [|rewrite E; reflexivity].
  unfold init_bins, where_, three. cbn [length Nat.sub seq map combine Nat.add nth Nat.eqb filter snd fst]. leb_all; reflexivity.
Qed.

(** C44 is false for the last bin: it stays below the minimum although all points together are enough. *)
Theorem C44_last_bin_refuted : exists edges X k init fin b, covers edges X /\ bins_indices edges X k = (init, fin) /\ In b fin /\
  length b < k /\ k <= length X.
Proof.
  exists [0; 1; 2]%R, three, 2, [[0; 1]; [2]], [[0; 1]; [2]], [2]. split.
  - split; [simpl; lia|]. split.
    + intros [|[|[|i]]] [|[|[|j]]] Hij Hj; simpl in *; try lia; lra.
    + intros x [<-|[<-|[<-|[]]]]; simpl; lra.
  - split; [exact C44_example|]. simpl. repeat split; auto.
Qed.
Print Assumptions C44_last_bin_refuted.

(** C45: the balanced subset: the draws are dealt out to the bins with shares that differ by at most one, each from its own
    bin; too few bins or too small shares are errors. *)
Theorem C45_balanced : forall c X y edges k init fin, X <> [] -> ~ constant X -> bins_indices edges X k = (init, fin) ->
  match resample c X y Balanced edges k with
  | Ok ind => 2 <= length fin /\ k <= y / length fin /\ exists ds, ind = concat ds /\ dealt y (length fin) 0 fin ds
  | Err e => (e = ZeroDivisionError /\ fin = []) \/ (e = AnalysisError /\ length fin = 1) \/
             (e = ValueError /\ 2 <= length fin /\ y / length fin < k)
  end.
Proof. exact resample_balanced. Qed.
Print Assumptions C45_balanced.

(** C45: the shares differ by at most one. *)
Theorem C45_shares : forall total n i j, 1 <= n -> share_of total n i <= share_of total n j + 1 /\
  list_sum (map (share_of total n) (seq 0 n)) = total.
Proof.
  intros total n i j H. pose proof (share_bounds total n i). pose proof (share_bounds total n j). split; [lia|]. apply share_total. lia.
Qed.
Print Assumptions C45_shares.

(** C45: their total is the number asked for, unless the specified cut points contain the largest value. *)
Theorem C45_total : forall c X y spec edges n k ind, X <> [] -> (forall z, spec = Some (BInt z) -> (1 <= z)%Z) ->
  (forall l, spec = Some (BList l) -> ~ In (maxl X) l) -> check_bininfo spec (minl X) (maxl X) = Ok (edges, n) -> 1 <= k ->
  resample c X y Balanced edges k = Ok ind -> length ind = y.
Proof. exact balanced_total. Qed.
Print Assumptions C45_total.

(** C45: the raw subset: so many positions from the sample. *)
Theorem C45_raw : forall c X y edges k, X <> [] -> ~ constant X ->
  exists ind, resample c X y Raw edges k = Ok ind /\ length ind = y /\ Forall (fun i => i < length X) ind.
Proof. exact resample_raw. Qed.
Print Assumptions C45_raw.

(** C45: the step subset: half of the draws from the points that are not positive; the rest is balanced over five bins of the
    positive points, with half the minimum size. *)
Theorem C45_step : forall c X y edges k ind, resample c X y Step edges k = Ok ind ->
  exists e init fin z ds w, even_edges (minl (positives X)) (maxl (positives X)) 5 e /\ binned e (positives X) init /\ merged (k / 2) init fin /\
    ind = z ++ w /\ length z = y / 2 /\ Forall (fun i => exists x, nth_error X i = Some x /\ (x <= 0)%R) z /\
    2 <= length fin /\ k / 2 <= (y - y / 2) / length fin /\ dealt (y - y / 2) (length fin) 0 fin ds /\
    Forall2 (positive_place X) (concat ds) w.
Proof. exact step_described. Qed.
Print Assumptions C45_step.

(** C45: the step subset has the size asked for when two positive values differ. *)
Theorem C45_step_total : forall c X y edges k ind, ~ constant (positives X) -> 2 <= k -> resample c X y Step edges k = Ok ind -> length ind = y.
Proof. exact step_total. Qed.
Print Assumptions C45_step_total.

(** C45 is false when the specified cut points contain the largest value: the bin above it is empty, its share is dropped. *)
Theorem C45_top_edge_refuted : forall c X y k, X <> [] -> ~ constant X -> 1 <= k -> k <= length X -> k <= y / 2 ->
  exists edges ind, check_bininfo (Some (BList [maxl X])) (minl X) (maxl X) = Ok (edges, []) /\
    resample c X y Balanced edges k = Ok ind /\ length ind = y - y / 2.
Proof. exact top_edge_short. Qed.
Print Assumptions C45_top_edge_refuted.

(** C45 is false in the step mode when all positive values are equal, e.g. for a 0/1 parameter. *)
Theorem C45_two_valued_refuted : forall c X y edges k, (exists x, In x X /\ (x <= 0)%R) -> positives X <> [] -> constant (positives X) -> 2 <= k ->
  k / 2 <= length (positives X) -> k / 2 <= (y - y / 2) / 2 ->
  exists ind, resample c X y Step edges k = Ok ind /\ length ind = y - (y - y / 2) / 2.
Proof. exact step_two_valued. Qed.
Print Assumptions C45_two_valued_refuted.

(** Ten zeros and ten ones: 20 draws are asked for, 15 are made. *)
Lemma twenty_positives : positives twenty = repeat 1%R 10.
Proof.
  unfold twenty, positives. rewrite filter_app. rewrite filter_none.
  - simpl. destruct (Rlt_dec 0 1); [auto|lra].
  - intros x Hx. apply repeat_spec in Hx. subst. destruct (Rlt_dec 0 0); [lra|auto].
Qed.
Example C45_example : forall c edges, exists ind, resample c twenty 20 Step edges 10 = Ok ind /\ length ind = 15.
Proof.
  intros c edges. destruct (C45_two_valued_refuted c twenty 20 edges 10) as (ind & E & L); try (rewrite twenty_positives).
  - exists 0%R. split; [simpl; auto|lra].
  - discriminate.
  - intros x y Hx Hy. apply repeat_spec in Hx, Hy. congruence.
  - lia.
  - simpl. lia.
  - vm_compute. lia.
  - exists ind. split; auto.
Qed.
(** In balanced mode all 20 are made. *)
Example C45_example2 : forall c, exists edges ind, check_bininfo (Some (BInt 2)) (minl twenty) (maxl twenty) = Ok (edges, []) /\
  resample c twenty 20 Balanced edges 10 = Ok ind /\ length ind = 20.
Proof.
  intros c. destruct (C44_bins_used twenty (Some (BInt 2)) ltac:(discriminate)) as (r & E & (A & _)). destruct (A ltac:(lia)) as (edges & -> & _).
  exists edges. destruct (twenty_draw c edges [] E) as [ind R]. exists ind. split; auto. split; auto.
  apply (C45_total c twenty 20 (Some (BInt 2)) edges [] 10); auto; try discriminate; try lia. intros z H. inversion H. lia.
Qed.

(** C45: in the analysis with the delta part a constant parameter gets nan everywhere, and the error is noted. *)
Theorem C45_constant : forall kde nq dc sc p X Y n conf yo method specs out i, delta_input p X Y ->
  delta_analyze kde nq dc sc p X Y n conf yo method specs = Ok out -> method <> "sobol"%string -> i < p_num_vars p -> constant (col (rows X) i) ->
  (forall f mo, d_delta out = Some f -> nth_error (f mo) i = Some None) /\
  (forall f mo, d_delta_conf out = Some f -> nth_error (f mo) i = Some None) /\
  (forall l, d_S1 out = Some l -> nth_error l i = Some None) /\ (forall l, d_S1_conf out = Some l -> nth_error l i = Some None) /\
  (forall l, d_notes out = Some l -> nth_error l i = Some [NoteError ValueError]).
Proof. exact analysis_constant. Qed.
Print Assumptions C45_constant.

(** C45 is false for the report when all parameters are constant: the analysis succeeds and there are no notes. *)
Theorem C45_notes_lost_refuted : forall kde nq dc sc p X Y n conf yo method specs, delta_input p X Y -> (0 < conf < 1)%R ->
  In method ["delta"; "all"]%string -> (forall y, yo = Some y -> y <= length Y) -> (forall name z, specs name = Some (BInt z) -> (-1 <= z)%Z) ->
  (forall i, i < p_num_vars p -> constant (col (rows X) i)) ->
  exists out, delta_analyze kde nq dc sc p X Y n conf yo method specs = Ok out /\ d_notes out = None.
Proof.
  intros kde nq dc sc p X Y n conf yo method specs HI Hc Hm Hy HZ HC.
  destruct (analysis_constant_ok kde nq dc sc p X Y n conf yo method specs HI Hc Hm Hy HZ HC) as [out E]. exists out. split; auto.
  apply (analysis_all_constant kde nq dc sc p X Y n conf yo method specs out HI E); auto. destruct Hm as [<-|[<-|[]]]; discriminate.
Qed.
Print Assumptions C45_notes_lost_refuted.
(** A single constant parameter. *)
Example C45_example3 : forall kde nq dc sc, exists out,
  delta_analyze kde nq dc sc one_problem (col4 5 5 5 5) [0; 0; 1; 1]%R 100 (95/100) None "all" (fun _ => None) = Ok out /\ d_notes out = None /\
  d_S1 out = Some [None].
Proof.
  intros kde nq dc sc. assert (HI := one_input 5 5 5 5 [0; 0; 1; 1]%R eq_refl).
  assert (HC : forall i, i < p_num_vars one_problem -> constant (col (rows (col4 5 5 5 5)) i)).
  { intros i Hi. assert (i = 0) by (simpl in Hi; lia). subst i. intros x y Hx Hy. simpl in Hx, Hy. intuition congruence. }
  destruct (C45_notes_lost_refuted kde nq dc sc one_problem (col4 5 5 5 5) [0; 0; 1; 1]%R 100 (95/100) None "all" (fun _ => None)) as (out & E & N); auto;
    try (simpl; auto; fail); try discriminate; try lra.
  exists out. split; auto. split; auto.
  destruct (analysis_cells _ _ _ _ _ _ _ _ _ _ _ _ _ HI E) as (cs & L & H & _ & _ & ES & _). rewrite ES. cbn [String.eqb Ascii.eqb Bool.eqb negb].
  change (negb ("all" =? "delta")%string) with true. cbv iota. destruct cs as [|c0 [|c1 cs]]; try discriminate. simpl map. do 2 f_equal.
  specialize (H 0 c0 eq_refl). apply param_constant in H; [subst; auto|]. apply (HC 0). simpl. lia.
Qed.

(** C45 is false for the method "sobol": a constant parameter is analysed by the order in which its values appear. *)
Theorem C45_constant_sobol_refuted : exists X Y, constant (col (rows X) 0) /\ delta_input one_problem X Y /\
  forall kde nq dc, exists nt,
  delta_analyze kde nq dc (fun _ _ k => k) one_problem X Y 0 (1/2) None "sobol" (fun _ => None) =
    Ok (mkDelta None None (Some [Some 1%R]) (Some [None]) ["x"]%string nt).
Proof.
  exists (col4 5 5 5 5), [0; 0; 1; 1]%R. split; [intros x y Hx Hy; simpl in Hx, Hy; intuition congruence|]. split; [apply one_input; auto|].
  intros kde nq dc. destruct (four_S1 kde nq dc 5 5 5 5 [0; 0; 1; 1]%R) as [nt E]; try lra; auto. exists nt. rewrite E. do 4 f_equal.
  destruct (Req_EM_T (ptp [0; 0; 1; 1]%R) 0) as [Z|Z].
  - exfalso. assert (N : [0; 0; 1; 1]%R <> []) by discriminate. pose proof (proj1 (ptp_zero_iff _ N) Z 0%R 1%R ltac:(simpl; auto) ltac:(simpl; auto)). lra.
  - f_equal. f_equal. unfold S1_of, squares_of, outputs, mean. simpl. field.
Qed.
Print Assumptions C45_constant_sobol_refuted.

(** C46: method "sobol" succeeds for every input and reports for every parameter a first-order index in [0, 1]: the share of the
    variance between equally populated classes, of a sample drawn with replacement; the half width is a multiple of the
    standard deviation of such indices. *)
Theorem C46_sobol : forall kde nq dc sc p X Y n conf yo specs, delta_input p X Y -> (0 < conf < 1)%R ->
  let y := match yo with None => length Y | Some y => y end in 1 <= y <= length Y ->
  (forall name z, specs name = Some (BInt z) -> (-1 <= z)%Z) ->
  exists out S1 C, delta_analyze kde nq dc sc p X Y n conf yo "sobol" specs = Ok out /\
    d_delta out = None /\ d_S1 out = Some S1 /\ d_S1_conf out = Some C /\ length S1 = p_num_vars p /\ length C = p_num_vars p /\
    forall i, i < p_num_vars p ->
      (exists v, nth_error S1 i = Some (Some v) /\ good_index Y (col (rows X) i) y v) /\
      exists vs, length vs = n /\ Forall (good_index Y (col (rows X) i) y) vs /\
        nth_error C i = Some (option_map (fun s => nq (1 / 2 + conf / 2) * s)%R (sd1 vs)).
Proof. exact analysis_sobol. Qed.
Print Assumptions C46_sobol.

(** C46: whatever the method, a reported S1 is nan or such an index. *)
Theorem C46_all_methods : forall kde nq dc sc p X Y n conf yo method specs out S1, delta_input p X Y ->
  delta_analyze kde nq dc sc p X Y n conf yo method specs = Ok out -> d_S1 out = Some S1 -> length S1 = p_num_vars p /\
  forall i v, nth_error S1 i = Some (Some v) -> good_index Y (col (rows X) i) (match yo with None => length Y | Some y => y end) v.
Proof. exact analysis_S1. Qed.
Print Assumptions C46_all_methods.

(** C46: for constant output every reported S1 is 0. *)
Theorem C46_constant_output : forall kde nq dc sc p X Y n conf yo method specs out S1 i v, delta_input p X Y -> constant Y ->
  delta_analyze kde nq dc sc p X Y n conf yo method specs = Ok out -> d_S1 out = Some S1 -> nth_error S1 i = Some (Some v) -> v = 0%R.
Proof.
  intros kde nq dc sc p X Y n conf yo method specs out S1 i v HI HC H HS Hv. destruct (analysis_S1 kde nq dc sc p X Y n conf yo method specs out S1 HI H HS) as [_ G].
  destruct (G i v Hv) as (ind & _ & F & FO & _). apply FO. apply outputs_constant; auto.
Qed.
Print Assumptions C46_constant_output.

(** C46: the classes hold every point once and differ in size by at most one. *)
Theorem C46_classes : forall X M, 1 <= M <= length X -> exists cls, equal_classes X M cls /\ Permutation (concat cls) (seq 0 (length X)) /\
  Forall (fun c => c <> [] /\ length X / M <= length c <= length X / M + 1) cls /\ forall cls', equal_classes X M cls' -> cls' = cls.
Proof.
  intros X M HM. assert (S := classes_spec X M (proj1 HM)). exists (classes_list X M). split; auto. split; [apply (classes_partition X M); auto; lia|]. split.
  - apply Forall_forall. intros c Hc. pose proof (class_nonempty X M _ HM S) as N. rewrite Forall_forall in N. split; auto.
    apply In_nth_error in Hc. destruct Hc as [j Hj]. rewrite (class_size X M _ j c (proj1 HM) S Hj).
    set (n := length X) in *. assert (M <> 0) by lia.
    pose proof (Nat.div_mod (j * n) M H) as D1. pose proof (Nat.mod_upper_bound (j * n) M H) as B1.
    pose proof (Nat.div_mod n M H) as D2. pose proof (Nat.mod_upper_bound n M H) as B2.
    pose proof (Nat.div_mod ((j + 1) * n) M H) as D3. pose proof (Nat.mod_upper_bound ((j + 1) * n) M H) as B3.
    set (a := j * n / M) in *. set (b := n / M) in *. set (e := (j + 1) * n / M) in *. nia.
  - intros cls' H'. eapply equal_classes_unique; eauto.
Qed.
Print Assumptions C46_classes.

(** C46: S1 does not change when the parameters are rescaled increasingly and the output is transformed affinely. *)
Theorem C46_rescaling : forall kde nq dc sc p X Y n conf yo specs g a b out, delta_input p X Y -> (forall i, increasing (g i)) -> a <> 0%R ->
  (forall name z, specs name = Some (BInt z) -> (-1 <= z)%Z) ->
  delta_analyze kde nq dc sc p X Y n conf yo "sobol" specs = Ok out ->
  exists out', delta_analyze kde nq dc sc p (recol g X) (map (fun v => a * v + b)%R Y) n conf yo "sobol" specs = Ok out' /\
    d_S1 out' = d_S1 out /\ d_S1_conf out' = d_S1_conf out.
Proof. exact analysis_rescaled. Qed.
Print Assumptions C46_rescaling.

(** X = 1..4, Y = 0, 2, 2, 4: half of the variance is between the classes {1, 2} and {3, 4}. *)
Example C46_example : forall kde nq dc, exists nt,
  delta_analyze kde nq dc (fun _ _ k => k) one_problem (col4 1 2 3 4) [0; 2; 2; 4]%R 0 (1/2) None "sobol" (fun _ => None) =
    Ok (mkDelta None None (Some [Some (1/2)%R]) (Some [None]) ["x"]%string nt).
Proof.
  intros kde nq dc. destruct (four_S1 kde nq dc 1 2 3 4 [0; 2; 2; 4]%R) as [nt E]; try lra; auto. exists nt. rewrite E. do 4 f_equal.
  destruct (Req_EM_T (ptp [0; 2; 2; 4]%R) 0) as [Z|Z].
  - exfalso. assert (N : [0; 2; 2; 4]%R <> []) by discriminate. pose proof (proj1 (ptp_zero_iff _ N) Z 0%R 2%R ltac:(simpl; auto) ltac:(simpl; auto)). lra.
  - f_equal. f_equal. unfold S1_of, squares_of, outputs, mean. simpl. field.
Qed.

(** C46 is false for constant output with the methods "delta" and "all": the density estimate of constant data is singular, and
    as soon as a first subset can be drawn the analysis raises instead of reporting 0. *)
Theorem C46_constant_all_refuted : forall kde nq dc sc p X Y n conf yo method specs edges nt ind, delta_input p X Y -> constant Y ->
  (forall d g, constant d -> kde d g = Err LinAlgError) -> (0 < conf < 1)%R -> In method ["delta"; "all"]%string ->
  (forall y, yo = Some y -> y <= length Y) -> 1 <= p_num_vars p ->
  check_bininfo (specs (nth 0 (p_names p) ""%string)) (minl (col (rows X) 0)) (maxl (col (rows X) 0)) = Ok (edges, nt) ->
  resample (dc 0 Balanced 0) (col (rows X) 0) (match yo with None => length Y | Some y => y end) Balanced edges (Nat.max (length Y / 200) 10) = Ok ind ->
  delta_analyze kde nq dc sc p X Y n conf yo method specs = Err ValueError.
Proof.
  intros kde nq dc sc p X Y n conf yo method specs edges nt ind HI HC HK Hc Hm Hy HP HE HR.
  rewrite analyze_eq; auto; [|destruct Hm as [<-|[<-|[]]]; simpl; auto]. cbv zeta. unfold cells_of.
  assert (EM : negb (String.eqb method "sobol") = true) by (destruct Hm as [<-|[<-|[]]]; auto). rewrite EM.
  destruct (p_num_vars p) as [|d] eqn:EP; [lia|]. cbn [seq mapM].
  destruct (column_ok p X Y 0 HI ltac:(lia)) as [_ L].
  rewrite (param_constant_output kde nq HK (dc 0) (sc 0) Y (col_of X 0) _ n conf _ _ edges nt ind HC L HE); [reflexivity|]. rewrite L. exact HR.
Qed.
Print Assumptions C46_constant_all_refuted.
Example C46_example2 : forall kde nq dc sc, (forall d g, constant d -> kde d g = Err LinAlgError) ->
  delta_analyze kde nq dc sc one_problem (mkMat 1 (map (fun x => [x]) twenty)) (repeat 7%R 20) 100 (95/100) None "all" (fun _ => Some (BInt 2)) = Err ValueError.
Proof.
  intros kde nq dc sc HK. destruct (C44_bins_used twenty (Some (BInt 2)) ltac:(discriminate)) as (r & E & (A & _)). destruct (A ltac:(lia)) as (edges & -> & _).
  destruct (twenty_draw (dc 0 Balanced 0) edges [] E) as [ind R].
  assert (EC : col (rows (mkMat 1 (map (fun x => [x]) twenty))) 0 = twenty) by (unfold col; cbn [rows]; rewrite map_map; simpl; reflexivity).
  apply (C46_constant_all_refuted kde nq dc sc one_problem (mkMat 1 (map (fun x => [x]) twenty)) (repeat 7%R 20) 100 (95/100) None "all" (fun _ => Some (BInt 2)) edges [] ind); auto;
    try (rewrite EC; assumption); try lra; try discriminate.
  - split; [|split; [reflexivity|split; [reflexivity|split; [reflexivity|split; [discriminate|]]]]].
    + unfold wf_mat. cbn [rows cols]. apply Forall_forall. intros r Hr. apply in_map_iff in Hr. destruct Hr as (x & <- & _). auto.
    + exact (proj2 (proj2 (proj2 (proj2 (proj2 (one_input 1 2 3 4 [0; 0; 0; 0]%R eq_refl)))))).
  - intros x y Hx Hy. apply repeat_spec in Hx, Hy. congruence.
  - simpl. auto.
Qed.

(** C65: the distance estimate lies between 0 and the mass that the density estimates have on the grid. *)
Theorem C65_bounds : forall kde T Y g X y M d, density T kde -> StronglySorted Rle g -> 1 <= M -> length X = length Y ->
  calc_delta kde Y g X (grid_m y M) = Ok d -> (0 <= d <= T)%R.
Proof. intros kde T Y g X y M d HD. apply calc_delta_bounds. apply density_kde_ok. exact HD. Qed.
Print Assumptions C65_bounds.

(** C65: only the order of the values of the parameter matters, for the distance and for the reported index in raw mode. *)
Theorem C65_ranks : forall kde nq g Y gr X m, increasing g ->
  calc_delta kde Y gr (map g X) m = calc_delta kde Y gr X m /\
  forall c n conf y e e' k k', bias_reduced kde nq c Y gr (map g X) m n conf y Raw e k = bias_reduced kde nq c Y gr X m n conf y Raw e' k'.
Proof. intros kde nq g Y gr X m G. split; [apply calc_delta_increasing; auto|]. intros. apply raw_increasing. auto. Qed.
Print Assumptions C65_ranks.

(** C65 is false for dependence: when the output is constant on every class the distance is 0, also when the parameter
    determines the output. *)
Theorem C65_determined_refuted : forall kde Y g X y M fy, 1 <= M -> length X = length Y -> kde Y g = Ok fy ->
  (forall j, j < M -> constant (outputs Y (class_of X (grid_m y M) j))) -> calc_delta kde Y g X (grid_m y M) = Ok 0%R.
Proof. exact constant_classes_zero. Qed.
Print Assumptions C65_determined_refuted.
(** The step function at 5/2 of 1, 2, 3, 4. *)
Example C65_example : forall kde g fy, kde [0; 0; 1; 1]%R g = Ok fy -> calc_delta kde [0; 0; 1; 1]%R g [1; 2; 3; 4]%R (grid_m 4 (classes 4)) = Ok 0%R.
Proof.
  intros kde g fy H. rewrite classes_4. apply (C65_determined_refuted kde _ g _ 4 2 fy); auto. intros j Hj.
  pose proof (classes_sorted4 1 2 3 4 ltac:(lra) ltac:(lra) ltac:(lra)) as C. unfold classes_list in C. cbn [map seq length] in C. inversion C as [[C0 C1]].
  destruct j as [|[|j]]; [rewrite C0|rewrite C1|lia]; intros x y [<-|[<-|[]]] [<-|[<-|[]]]; auto.
Qed.

(** C65 is false for the reported index: the bias correction makes it negative, here with one bootstrap subset and whenever the
    density estimates of (0, 1, 1, 1) and (0, 1) differ. *)
Theorem C65_negative_refuted : forall kde nq g f0 f1 f2 conf e k,
  kde [0; 0; 1; 1]%R g = Ok f0 -> kde [0; 1; 1; 1]%R g = Ok f1 -> kde [0; 1]%R g = Ok f2 ->
  (0 < mass (map2 (fun a b => Rabs (a - b)) f1 f2) g)%R ->
  exists c d, bias_reduced kde nq c [0; 0; 1; 1]%R g [1; 2; 3; 4]%R (grid_m 4 (classes 4)) 1 conf 4 Raw e k = Ok (Some d, None, [0; 1; 2; 3]) /\ (d < 0)%R.
Proof.
  intros kde nq g f0 f1 f2 conf e k K0 K1 K2 HM. exists four_draws. eexists. rewrite classes_4. split; [apply (four_negative kde nq g f0 f1 f2 conf e k K0 K1 K2)|lra].
Qed.
Print Assumptions C65_negative_refuted.

(** C94: unless the parameter failed, its notes say that the balanced and the raw score differ exactly when they do so by more than 0.1, with their
    distance, and that the step score was left out exactly when one of its two classes is too small; the step score is then nan. *)
Theorem C94_notes : forall kde nq dc sc p X Y n conf yo method specs out notes scores i, delta_input p X Y ->
  delta_analyze kde nq dc sc p X Y n conf yo method specs = Ok out -> d_notes out = Some notes -> d_delta out = Some scores -> i < p_num_vars p ->
  exists l, nth_error notes i = Some l /\
   ((exists e, l = [NoteError e]) \/
    ((forall e, ~ In (NoteError e) l) /\
     (forall d, In (NoteDiff d) l <-> exists a b, nth_error (scores Balanced) i = Some (Some a) /\ nth_error (scores Raw) i = Some (Some b) /\ d = Rabs (a - b) /\ (1 / 10 < d)%R) /\
     (forall z w, In (NoteStep z w) l <->
        z = length (filter (fun x => if Rle_dec x 0 then true else false) (col (rows X) i)) /\ w = length (filter (fun x => if Rlt_dec 0 x then true else false) (col (rows X) i)) /\
        (z < Nat.max (length Y / 200) 10 \/ w < Nat.max (length Y / 200) 10)) /\
     (forall z w, In (NoteStep z w) l -> nth_error (scores Step) i = Some None))).
Proof. exact delta_notes. Qed.
Print Assumptions C94_notes.

(** Scores 0.1 and 0.4 of a parameter. *)
Example C94_example : let scores := fun m => match m with Balanced => Some (1/10) | Raw => Some (4/10) | Step => None end%R in
  note_diff (mkCell scores (fun _ => None) None None [] false) = Ok (mkCell scores (fun _ => None) None None [NoteDiff (Rabs (1/10 - 4/10))] false) /\ Rabs (1/10 - 4/10) = (3/10)%R.
Proof.
  assert (A : Rabs (1/10 - 4/10) = (3/10)%R) by (rewrite Rabs_left; lra). split; [|exact A]. unfold note_diff. cbn [c_delta]. destruct (Rlt_dec _ _) as [H|H]; [reflexivity|]. exfalso. apply H. rewrite A. lra.
Qed.
