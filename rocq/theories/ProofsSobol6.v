(** * Proofs: public samplers, closed formulas for the indices, totality, confidence intervals. *)
From Coq Require Import Reals String List Arith ZArith Bool Lia Lra.
From Verif Require Import Base Arrays ModelGroups SpecGroups ProofsGroups ModelScale ProofsScale
  Stats ModelSobol SpecSobol ProofsSobol ProofsSobol2 ProofsSobol3 ProofsSobol4 ProofsSobol5.
Import ListNotations.
Local Open Scope nat_scope.

(** ** Public samplers *)
Definition to_physical (v : list (R * R)) (r : list R) : list R :=
  map2 (fun x b => x + fst b)%R (map2 (fun x b => x * (snd b - fst b))%R r v) v.

Lemma to_physical_nth : forall v r j, nth_error (to_physical v r) j =
  match nth_error r j, nth_error v j with
  | Some x, Some (lo, up) => Some (lo + x * (up - lo))%R | _, _ => None end.
Proof.
  intros. unfold to_physical. rewrite !nth_error_map2. destruct (nth_error r j); auto.
  destruct (nth_error v j) as [[lo up]|]; auto. simpl. f_equal. ring.
Qed.
Lemma to_physical_length : forall v r, length r = length v -> length (to_physical v r) = length r.
Proof. intros. unfold to_physical. rewrite !length_map2. lia. Qed.

Lemma scale_ok_box : forall m bounds, 0 < cols m -> length bounds = cols m -> good_box bounds ->
  exists v, scale_inplace m bounds = (mkMat (cols m) (map (to_physical v) (rows m)), Ok tt) /\
    length v = cols m /\
    forall j lo up, nth_error v j = Some (lo, up) <-> nth_error bounds j = Some [lo; up].
Proof.
  intros m bounds Hc HL HB. unfold good_box in HB. rewrite Forall_forall in HB.
  assert (Hp : pairs bounds).
  { unfold pairs. apply Forall_forall. intros r Hr. destruct (HB r Hr) as (lo & up & -> & _). simpl; eauto. }
  assert (Hn : bounds <> []) by (intros ->; simpl in HL; lia).
  destruct (bounds_columns_pairs bounds Hp Hn) as [lu Hlu].
  destruct (bounds_columns_nth _ _ Hlu) as [Ll Hnth].
  assert (Hill : any_illegal lu = false).
  { destruct (any_illegal lu) eqn:E; auto. apply any_illegal_true in E.
    destruct E as (j & lo & up & Hj & Hle). apply Hnth in Hj. destruct Hj as [r Hr].
    apply nth_error_In in Hr. destruct (HB _ Hr) as (lo' & up' & E & Hlt). injection E as -> -> ->. lra. }
  exists lu. split; [|split].
  - unfold scale_inplace, check_bounds. rewrite Hlu. cbn [bind]. rewrite Hill. rewrite Hill.
    unfold broadcast. replace (length lu =? cols m) with true by (symmetry; apply Nat.eqb_eq; lia).
    unfold inplace. simpl. rewrite map_map. reflexivity.
  - lia.
  - intros j lo up. rewrite Hnth. split.
    + intros [r Hr]. assert (Hi := nth_error_In _ _ Hr). destruct (HB _ Hi) as (a & b & E & _).
      injection E as -> -> ->. auto.
    + intros H. exists []. auto.
Qed.

Lemma replaced_physical : forall sel v a b r, length a = length v -> length b = length v ->
  replaced sel a b r -> replaced sel (to_physical v a) (to_physical v b) (to_physical v r).
Proof.
  intros sel v a b r La Lb [Lr Hr]. split.
  - rewrite !to_physical_length by lia. auto.
  - intros j. destruct (Hr j) as [H1 H2]. split; intros H; rewrite !to_physical_nth;
      [rewrite H1|rewrite H2]; auto.
Qed.

Lemma block_physical : forall p G second a b row v, length a = length v -> length b = length v ->
  saltelli_block p G second a b row ->
  saltelli_block p G second (to_physical v a) (to_physical v b) (fun t => option_map (to_physical v) (row t)).
Proof.
  intros p G second a b row v La Lb (H0 & H1 & H2 & H3). split; [|split; [|split]].
  - rewrite H0. reflexivity.
  - rewrite H1. reflexivity.
  - intros k Hk. destruct (H2 k Hk) as (r & Hr & HR). rewrite Hr. simpl. eexists. split; [reflexivity|].
    apply replaced_physical; auto.
  - intros Hs k Hk. destruct (H3 Hs k Hk) as (r & Hr & HR). rewrite Hr. simpl. eexists. split; [reflexivity|].
    apply replaced_physical; auto.
Qed.

Lemma physical_spec : forall v bounds a, length a = length v -> length bounds = length v ->
  (forall j lo up, nth_error v j = Some (lo, up) <-> nth_error bounds j = Some [lo; up]) ->
  physical bounds a (to_physical v a).
Proof.
  intros v bounds a La Lb Hv. split; [apply to_physical_length; auto|].
  intros j x lo up Hx Hb. rewrite to_physical_nth, Hx. apply Hv in Hb. rewrite Hb. reflexivity.
Qed.

Lemma sampled_and_scaled : forall nq tq base idxs p second,
  labelled p -> p_dists p = None -> 0 < p_num_vars p -> length (p_bounds p) = p_num_vars p ->
  good_box (p_bounds p) -> proper_base base idxs p ->
  exists rs m p' G, cross_sample 0%R base idxs p second = Ok rs /\
    scale_samples nq tq (mkMat (p_num_vars p) rs) p = (m, p', Ok (InPlace m)) /\
    group_count p G /\ length (rows m) = length idxs * block_size G second /\
    (forall r, In r (rows m) -> length r = p_num_vars p) /\
    forall i n a b, nth_error idxs i = Some n -> nth_error base n = Some (a ++ b) ->
      length a = p_num_vars p -> length b = p_num_vars p ->
      exists a' b', physical (p_bounds p) a a' /\ physical (p_bounds p) b b' /\
        saltelli_block p G second a' b'
          (fun t => if t <? block_size G second then nth_error (rows m) (i * block_size G second + t)
                    else None).
Proof.
  intros nq tq base idxs p second HL Hd Hn HBl HBx HB.
  destruct (cross_sample_layout 0%R base idxs p second HL HB) as (rs & G & E & HG & HLen & HW & Hlay).
  destruct (scale_ok_box (mkMat (p_num_vars p) rs) (p_bounds p) Hn HBl HBx) as (v & Es & Lv & Hv).
  simpl in Es, Lv.
  exists rs, (mkMat (p_num_vars p) (map (to_physical v) rs)). eexists. exists G.
  split; auto. split; [unfold scale_samples; rewrite Hd, Es; reflexivity|]. split; auto.
  split; [simpl; rewrite map_length; auto|]. split.
  - simpl. intros r Hr. apply in_map_iff in Hr. destruct Hr as (r0 & <- & Hr0).
    rewrite Forall_forall in HW. rewrite to_physical_length by (rewrite (HW r0 Hr0); auto). auto.
  - intros i n a b Hi Hb La Lb. exists (to_physical v a), (to_physical v b).
    split; [apply physical_spec; auto; lia|]. split; [apply physical_spec; auto; lia|].
    specialize (Hlay i n a b Hi Hb La Lb).
    assert (Q := block_physical _ _ _ _ _ _ v (eq_trans La (eq_sym Lv)) (eq_trans Lb (eq_sym Lv)) Hlay).
    assert (Hext : forall t, (if t <? block_size G second
        then nth_error (map (to_physical v) rs) (i * block_size G second + t) else None)
      = option_map (to_physical v) (if t <? block_size G second
        then nth_error rs (i * block_size G second + t) else None)).
    { intros t. destruct (t <? block_size G second); auto. apply nth_error_map'. }
    destruct Q as (Q0 & Q1 & Q2 & Q3). simpl rows. split; [|split; [|split]].
    + rewrite Hext. auto.
    + rewrite Hext. auto.
    + intros k Hk. rewrite Hext. auto.
    + intros Hs k Hk. rewrite Hext. auto.
Qed.

(** [sampled] as in SpecSobol, for any function giving the base row number. *)
Lemma sobol_public : forall nq tq qrng p N second skip,
  (0 <= skip)%Z -> (N = 0 -> skip = 0%Z) -> labelled p -> p_dists p = None -> 0 < p_num_vars p ->
  length (p_bounds p) = p_num_vars p -> good_box (p_bounds p) ->
  proper_base (qrng (Z.to_nat skip) N) (seq 0 N) p ->
  exists p' m G, sobol_sample nq tq qrng p N second skip = (p', Ok (InPlace m)) /\
    group_count p G /\ length (rows m) = N * block_size G second /\
    (forall r, In r (rows m) -> length r = p_num_vars p) /\
    forall i a b, i < N -> nth_error (qrng (Z.to_nat skip) N) i = Some (a ++ b) ->
      length a = p_num_vars p -> length b = p_num_vars p ->
      exists a' b', physical (p_bounds p) a a' /\ physical (p_bounds p) b b' /\
        saltelli_block p G second a' b'
          (fun t => if t <? block_size G second then nth_error (rows m) (i * block_size G second + t)
                    else None).
Proof.
  intros nq tq qrng p N second skip Hsk HN0 HL Hd Hn HBl HBx HB.
  destruct (sampled_and_scaled nq tq _ _ p second HL Hd Hn HBl HBx HB)
    as (rs & m & p' & G & E1 & E2 & HG & HLen & HW & Hlay).
  exists p', m, G. unfold sobol_sample. destruct (Z.ltb_spec skip 0); [lia|].
  replace (Z.ltb 0 skip && (N =? 0)) with false
    by (symmetry; apply andb_false_iff; destruct (Nat.eqb_spec N 0) as [E|E]; [left; rewrite (HN0 E); reflexivity|auto]).
  rewrite E1, E2. rewrite seq_length in HLen. split; auto. split; auto. split; auto. split; auto.
  intros i a b Hi Hb La Lb. apply (Hlay i i); auto. rewrite nth_error_seq.
  destruct (Nat.ltb_spec i N); [auto|lia].
Qed.

Lemma saltelli_public : forall nq tq sequence p N second skip s,
  saltelli_skip N skip = Ok s -> labelled p -> p_dists p = None -> 0 < p_num_vars p ->
  length (p_bounds p) = p_num_vars p -> good_box (p_bounds p) ->
  proper_base (sequence (N + s)) (seq s N) p ->
  exists p' m G, saltelli_sample nq tq sequence p N second skip = (p', Ok (InPlace m)) /\
    group_count p G /\ length (rows m) = N * block_size G second /\
    (forall r, In r (rows m) -> length r = p_num_vars p) /\
    forall i a b, i < N -> nth_error (sequence (N + s)) (s + i) = Some (a ++ b) ->
      length a = p_num_vars p -> length b = p_num_vars p ->
      exists a' b', physical (p_bounds p) a a' /\ physical (p_bounds p) b b' /\
        saltelli_block p G second a' b'
          (fun t => if t <? block_size G second then nth_error (rows m) (i * block_size G second + t)
                    else None).
Proof.
  intros nq tq sequence p N second skip s Hsk HL Hd Hn HBl HBx HB.
  destruct (sampled_and_scaled nq tq _ _ p second HL Hd Hn HBl HBx HB)
    as (rs & m & p' & G & E1 & E2 & HG & HLen & HW & Hlay).
  exists p', m, G. unfold saltelli_sample. rewrite Hsk.
  rewrite E1, E2. rewrite seq_length in HLen. split; auto. split; auto. split; auto. split; auto.
  intros i a b Hi Hb La Lb. apply (Hlay i (s + i)); auto. rewrite nth_error_seq.
  destruct (Nat.ltb_spec i N); [auto|lia].
Qed.

Lemma saltelli_skip_ok : forall N, 0 < N -> exists s, saltelli_skip N None = Ok s /\
  16 <= s /\ N <= s /\ exists e, s = 2 ^ e.
Proof.
  intros N HN. unfold saltelli_skip. destruct (Nat.eqb_spec N 0); [lia|].
  exists (Nat.max (2 ^ Nat.log2_up N) 16). split; auto. split; [lia|].
  assert (N <= 2 ^ Nat.log2_up N) by (apply Nat.log2_log2_up_spec; auto). split; [lia|].
  destruct (Nat.max_dec (2 ^ Nat.log2_up N) 16) as [->| ->]; [eauto|]. exists 4. reflexivity.
Qed.

(** ** When an analysis succeeds *)
Lemma analyze_total : forall mu sigma Zq resample cpus p Y second conf keep workers,
  let bs := block_size (snd (extract_group_names p)) second in
  0 < snd (extract_group_names p) ->
  (forall np, workers = Some np -> np <> Some 0 /\ (np = None -> 0 < cpus)) ->
  ((length Y mod bs <> 0 \/ ~ (0 < conf < 1)%R) ->
   analyze_with mu sigma Zq resample cpus p Y second conf keep workers = Err RuntimeError) /\
  (length Y mod bs = 0 -> (0 < conf < 1)%R -> (Y = [] \/ resample (length Y / bs) = []) ->
   analyze_with mu sigma Zq resample cpus p Y second conf keep workers = Err ValueError) /\
  (length Y mod bs = 0 -> (0 < conf < 1)%R -> Y <> [] -> resample (length Y / bs) <> [] ->
   exists s, analyze_with mu sigma Zq resample cpus p Y second conf keep workers = Ok s).
Proof.
  intros mu sigma Zq resample cpus p Y second conf keep workers bs HD Hw.
  assert (Hbs : 0 < bs) by apply block_size_pos.
  unfold analyze_with.
  set (D := snd (extract_group_names p)) in *.
  change (if second then 2 * D + 2 else D + 2) with bs.
  assert (Hconf : negb (Rltb 0 conf && Rltb conf 1) = true <-> ~ (0 < conf < 1)%R).
  { destruct (Rltb 0 conf) eqn:E1, (Rltb conf 1) eqn:E2; simpl;
      (apply Rltb_true in E1 || apply Rltb_false in E1); (apply Rltb_true in E2 || apply Rltb_false in E2);
      split; intros; try lra; try discriminate; auto. }
  split; [|split].
  - intros H. destruct (Nat.eqb_spec (length Y mod bs) 0); simpl; auto.
    destruct H as [H|H]; [congruence|]. apply Hconf in H. rewrite H. reflexivity.
  - intros H1 H2 H3. rewrite (proj2 (Nat.eqb_eq _ _) H1). simpl negb. cbv iota.
    rewrite (not_true_is_false _ (fun E => proj1 Hconf E H2)).
    replace (0 <? D) with true by (symmetry; apply Nat.ltb_lt; auto). simpl andb.
    destruct H3 as [->| ->]; simpl length.
    + rewrite Nat.div_small by auto. reflexivity.
    + rewrite orb_true_r. reflexivity.
  - intros H1 H2 HY HR. rewrite (proj2 (Nat.eqb_eq _ _) H1). simpl negb. cbv iota.
    rewrite (not_true_is_false _ (fun E => proj1 Hconf E H2)).
    assert (HL : length Y = length Y / bs * bs).
    { pose proof (Nat.div_mod (length Y) bs). lia. }
    assert (HN : length Y / bs <> 0).
    { intros E0. rewrite E0 in HL. destruct Y; simpl in *; [congruence|lia]. }
    assert (HR' : length (resample (length Y / bs)) <> 0)
      by (destruct (resample (length Y / bs)); simpl; congruence).
    replace ((0 <? D) && ((length Y / bs =? 0) || (length (resample (length Y / bs)) =? 0))) with false.
    2:{ rewrite (proj2 (Nat.eqb_neq _ _) HN), (proj2 (Nat.eqb_neq _ _) HR'). simpl.
        rewrite andb_false_r. reflexivity. }
    destruct (Reqb sigma 0); [eauto|].
    destruct (separate_ok R (map (fun y => (y - mu) / sigma)%R Y) D (length Y / bs) second) as
      (A & B & AB & BA & Esep & LA & LB & LAB & FAB & HBA & HnBA & _ & _ & _).
    { rewrite map_length. exact HL. }
    rewrite Esep. cbn [bind].
    assert (HBA' : second = true -> exists ba, BA = Some ba /\ length ba = D).
    { intros Hs. destruct (HBA Hs) as (ba & ? & ? & _). eauto. }
    destruct workers as [np|].
    + destruct (Hw np eq_refl) as [W1 W2].
      destruct (parallel_covers (Zq conf) A B AB BA (resample (length Y / bs)) D second LAB HBA'
        (length (resample (length Y / bs))) keep np cpus) as (s2 & -> & _); eauto.
    + destruct (serial_covers (Zq conf) A B AB BA (resample (length Y / bs)) D second LAB HBA'
        (length (resample (length Y / bs))) keep) as (s1 & -> & _). eauto.
Qed.

(** ** Closed formulas *)
Lemma sep_raw : forall Y D N second, length Y = N * block_size D second ->
  exists ba, separate_output_values Y D N second =
    Ok (map (fun i => out Y D second i 0) (seq 0 N),
        map (fun i => out Y D second i (block_size D second - 1)) (seq 0 N),
        map (fun k => map (fun i => out Y D second i (1 + k)) (seq 0 N)) (seq 0 D), ba) /\
    (second = true -> ba = Some (map (fun k => map (fun i => out Y D second i (1 + D + k)) (seq 0 N)) (seq 0 D))).
Proof.
  intros Y D N second HL.
  pose proof (block_size_pos D second) as Hbs.
  destruct (separate_ok R Y D N second HL) as
    (A & B & AB & BA & Esep & LA & LB & LAB & FAB & HBA & HnBA & RA & RB & RAB).
  assert (Hout : forall i o, i < N -> o < block_size D second ->
     nth_error Y (i * block_size D second + o) = Some (out Y D second i o)).
  { intros i o Hi Ho. unfold out. apply nth_error_nth'. nia. }
  assert (Hvec : forall l o, length l = N -> o < block_size D second ->
    (forall i, i < N -> nth_error l i = nth_error Y (i * block_size D second + o)) ->
    l = map (fun i => out Y D second i o) (seq 0 N)).
  { intros l o Hl Ho H. apply nth_error_ext'. intros i. rewrite nth_error_map', nth_error_seq.
    destruct (Nat.ltb_spec i N) as [Hi|Hi]; simpl.
    - rewrite H, Hout; auto.
    - apply nth_error_None. lia. }
  assert (Hmat : forall M off, length M = D -> Forall (fun c => length c = N) M -> off + D <= block_size D second ->
    (forall i k, i < N -> k < D -> entry M k i = nth_error Y (i * block_size D second + (off + k))) ->
    M = map (fun k => map (fun i => out Y D second i (off + k)) (seq 0 N)) (seq 0 D)).
  { intros M off HM HF Hoff H. apply nth_error_ext'. intros k. rewrite nth_error_map', nth_error_seq.
    destruct (Nat.ltb_spec k D) as [Hk|Hk]; simpl; [|apply nth_error_None; lia].
    destruct (nth_error_lt_Some M (i := k)) as [c Hc]; [lia|]. rewrite Hc. f_equal.
    apply Hvec; [|lia|].
    - rewrite Forall_forall in HF. apply HF. eapply nth_error_In; eauto.
    - intros i Hi. specialize (H i k Hi Hk). unfold entry in H. rewrite Hc in H. auto. }
  exists BA. split.
  - rewrite Esep. f_equal. f_equal. f_equal; [f_equal|].
    + apply (Hvec A 0); auto. intros i Hi. rewrite Nat.add_0_r. auto.
    + apply (Hvec B); auto. lia.
    + apply (Hmat AB 1); auto. unfold block_size. destruct second; lia.
  - intros Hs. destruct (HBA Hs) as (ba & -> & Hl & HF & He). f_equal. apply Hmat; auto.
    unfold block_size. rewrite Hs. lia.
Qed.

Lemma excluded_middle_const : forall l : list R,
  {forall x y, In x l -> In y l -> x = y} + {~ (forall x y, In x l -> In y l -> x = y)}.
Proof.
  intros l. destruct l as [|a l]; [left; simpl; tauto|].
  destruct (Req_EM_T (ptp (a :: l)) 0) as [E|E].
  - left. apply ptp_zero_iff; [congruence|auto].
  - right. intros H. apply E. apply ptp_zero_iff; [congruence|auto].
Qed.

Definition norml (mu sigma : R) (l : list R) : list R := map (fun y => (y - mu) / sigma)%R l.

Lemma norml_ne : forall mu sigma l, l <> [] -> norml mu sigma l <> [].
Proof. intros mu sigma [|x l] H; simpl; congruence. Qed.

Lemma var_norml : forall mu sigma l, l <> [] -> sigma <> 0%R -> var (norml mu sigma l) = (var l / sigma ^ 2)%R.
Proof.
  intros mu sigma l Hl Hs. unfold norml.
  rewrite (map_ext _ (fun y => / sigma * y + - (mu / sigma))%R) by (intros; field; auto).
  rewrite var_affine by auto. field. auto.
Qed.

Lemma ptp_norml : forall mu sigma l, l <> [] -> sigma <> 0%R ->
  (ptp (norml mu sigma l) = 0%R <-> forall x y, In x l -> In y l -> x = y).
Proof.
  intros mu sigma l Hl Hs. rewrite ptp_zero_iff by (destruct l; simpl; congruence). split.
  - intros H x y Hx Hy. assert (E : ((x - mu) / sigma = (y - mu) / sigma)%R).
    { apply H; apply in_map_iff; eauto. }
    assert (E' : (x - mu = y - mu)%R).
    { apply (Rmult_eq_reg_r (/ sigma)%R); [exact E|]. apply Rinv_neq_0_compat; auto. }
    lra.
  - intros H x y Hx Hy. apply in_map_iff in Hx, Hy. destruct Hx as (a & <- & Ha), Hy as (b & <- & Hb).
    rewrite (H a b); auto.
Qed.

Lemma map2_map_seq : forall X Y Z W (f : X -> Y -> Z) (g : W -> X) (h : W -> Y) l,
  map2 f (map g l) (map h l) = map (fun i => f (g i) (h i)) l.
Proof. induction l; simpl; congruence. Qed.

Lemma mean_ext_scal : forall (l : list nat) (f g : nat -> R) c,
  (forall i, In i l -> f i = c * g i)%R -> mean (map f l) = (c * mean (map g l))%R.
Proof.
  intros l f g c H. rewrite <- mean_map_scal. f_equal. apply map_ext_in. auto.
Qed.

Section Formulas.
Variables (mu sigma : R) (N : nat) (a b ab abk ba : nat -> R).
Hypothesis Hs : sigma <> 0%R.
Hypothesis HN : 0 < N.
Let L := map a (seq 0 N) ++ map b (seq 0 N).
Let nrm (f : nat -> R) := norml mu sigma (map f (seq 0 N)).

Lemma L_ne : L <> [].
Proof. unfold L. destruct N; [lia|]. simpl. congruence. Qed.
Lemma nrm_app : nrm a ++ nrm b = norml mu sigma L.
Proof. unfold nrm, L, norml. symmetry. apply map_app. Qed.

Lemma first_formula :
  first_order (nrm a) (nrm ab) (nrm b) =
  if excluded_middle_const L then Some 0%R
  else Some (mean (map (fun i => (b i - mu) * (ab i - a i))%R (seq 0 N)) / var L)%R.
Proof.
  unfold first_order, first_col. rewrite nrm_app.
  destruct (excluded_middle_const L) as [Hc|Hc].
  - replace (Reqb (ptp (norml mu sigma L)) 0) with true; auto. symmetry. apply Reqb_true.
    apply ptp_norml; auto using L_ne.
  - assert (Hp : Reqb (ptp (norml mu sigma L)) 0 = false).
    { apply Reqb_false. intros E. apply Hc. apply (ptp_norml mu sigma); auto using L_ne. }
    rewrite Hp. unfold fdiv. rewrite var_of_ptp by (auto using norml_ne, L_ne).
    f_equal. rewrite var_norml by auto using L_ne.
    assert (Hv : var L <> 0%R).
    { intros E. apply Hc. apply (ptp_norml mu sigma); auto using L_ne.
      apply ptp_var; [auto using norml_ne, L_ne|].
      rewrite var_norml by auto using L_ne. rewrite E. unfold Rdiv. ring. }
    unfold nrm, norml. rewrite !map_map, !map2_map_seq.
    rewrite (mean_ext_scal _ _ (fun i => (b i - mu) * (ab i - a i))%R (/ sigma ^ 2)%R).
    + field. auto.
    + intros i _. field. auto.
Qed.

Lemma total_formula :
  total_order (nrm a) (nrm ab) (nrm b) =
  if excluded_middle_const L then Some 0%R
  else Some (mean (map (fun i => (a i - ab i) ^ 2)%R (seq 0 N)) / (2 * var L))%R.
Proof.
  unfold total_order, total_col. rewrite nrm_app.
  destruct (excluded_middle_const L) as [Hc|Hc].
  - replace (Reqb (ptp (norml mu sigma L)) 0) with true; auto. symmetry. apply Reqb_true.
    apply ptp_norml; auto using L_ne.
  - assert (Hp : Reqb (ptp (norml mu sigma L)) 0 = false).
    { apply Reqb_false. intros E. apply Hc. apply (ptp_norml mu sigma); auto using L_ne. }
    rewrite Hp. unfold fdiv. rewrite var_of_ptp by (auto using norml_ne, L_ne).
    f_equal. rewrite var_norml by auto using L_ne.
    assert (Hv : var L <> 0%R).
    { intros E. apply Hc. apply (ptp_norml mu sigma); auto using L_ne.
      apply ptp_var; [auto using norml_ne, L_ne|].
      rewrite var_norml by auto using L_ne. rewrite E. unfold Rdiv. ring. }
    unfold nrm, norml. rewrite !map_map, !map2_map_seq, !map_map.
    rewrite (mean_ext_scal _ _ (fun i => (a i - ab i) ^ 2)%R (/ sigma ^ 2)%R).
    + field. auto.
    + intros i _. field. auto.
Qed.
End Formulas.

Lemma second_formula : forall mu sigma N a b abj abk baj, sigma <> 0%R -> 0 < N ->
  let nrm (f : nat -> R) := norml mu sigma (map f (seq 0 N)) in
  let L := map a (seq 0 N) ++ map b (seq 0 N) in
  second_order (nrm a) (nrm abj) (nrm abk) (nrm baj) (nrm b) =
  if excluded_middle_const L then Some 0%R
  else Some ((mean (map (fun i => (baj i - mu) * (abk i - mu) - (a i - mu) * (b i - mu))%R (seq 0 N))
             - mean (map (fun i => (b i - mu) * (abj i - a i))%R (seq 0 N))
             - mean (map (fun i => (b i - mu) * (abk i - a i))%R (seq 0 N))) / var L)%R.
Proof.
  intros mu sigma N a b abj abk baj Hs HN nrm L. unfold second_order.
  unfold nrm. rewrite !first_formula by auto. rewrite nrm_app. fold L.
  assert (HLne : L <> []) by (apply L_ne; auto).
  destruct (excluded_middle_const L) as [Hc|Hc].
  - replace (Reqb (ptp (norml mu sigma L)) 0) with true; auto. symmetry. apply Reqb_true.
    apply ptp_norml; auto.
  - assert (Hp : Reqb (ptp (norml mu sigma L)) 0 = false).
    { apply Reqb_false. intros E. apply Hc. apply (ptp_norml mu sigma); auto using L_ne. }
    rewrite Hp. unfold fdiv. rewrite var_of_ptp by (auto using norml_ne, L_ne).
    simpl fsub. f_equal. rewrite var_norml by auto.
    assert (Hv : var L <> 0%R).
    { intros E. apply Hc. apply (ptp_norml mu sigma); auto using L_ne.
      apply ptp_var; [auto using norml_ne, L_ne|].
      rewrite var_norml by auto. rewrite E. unfold Rdiv. ring. }
    unfold norml. rewrite !map_map, !map2_map_seq.
    rewrite (mean_ext_scal _ _ (fun i => (baj i - mu) * (abk i - mu) - (a i - mu) * (b i - mu))%R (/ sigma ^ 2)%R).
    + field. auto.
    + intros i _. field. auto.
Qed.

Lemma sep_norml : forall mu sigma Y D N second A B AB BA, length Y = N * block_size D second ->
  separate_output_values (map (fun y => (y - mu) / sigma)%R Y) D N second = Ok (A, B, AB, BA) ->
  let col o := norml mu sigma (map (fun i => out Y D second i o) (seq 0 N)) in
  A = col 0 /\ B = col (block_size D second - 1) /\
  (forall k, k < D -> nth k AB [] = col (1 + k)) /\
  (second = true -> forall k, k < D ->
     (match BA with Some m => nth k m [] | None => [] end) = col (1 + D + k)).
Proof.
  intros mu sigma Y D N second A B AB BA HL H. cbv zeta.
  destruct (sep_raw Y D N second HL) as (ba & E & Hba).
  rewrite separate_map, E in H. injection H as <- <- <- <-.
  split; auto. split; auto. split.
  - intros k Hk. apply nth_error_nth. rewrite !nth_error_map', nth_error_seq.
    destruct (Nat.ltb_spec k D); [reflexivity|lia].
  - intros Hsec k Hk. rewrite (Hba Hsec). cbn [option_map]. apply nth_error_nth.
    rewrite !nth_error_map', nth_error_seq. destruct (Nat.ltb_spec k D); [reflexivity|lia].
Qed.

Lemma analyze_formulas : forall mu sigma Zq resample cpus p Y second conf keep workers s,
  let D := snd (extract_group_names p) in
  let N := length Y / block_size D second in
  let a i := out Y D second i 0 in
  let b i := out Y D second i (block_size D second - 1) in
  let ab k i := out Y D second i (1 + k) in
  let ba k i := out Y D second i (1 + D + k) in
  let base := map a (seq 0 N) ++ map b (seq 0 N) in
  sigma <> 0%R ->
  analyze_with mu sigma Zq resample cpus p Y second conf keep workers = Ok s ->
  ((forall x y, In x base -> In y base -> x = y) ->
   (forall k, k < D -> nth_error (S1 s) k = Some (Some 0%R) /\ nth_error (ST s) k = Some (Some 0%R)) /\
   (second = true -> forall j k, j < k -> k < D ->
      exists m, S2 s = Some m /\ entry m j k = Some (Some 0%R))) /\
  (~ (forall x y, In x base -> In y base -> x = y) ->
   (forall k, k < D ->
      nth_error (S1 s) k =
        Some (Some (mean (map (fun i => (b i - mu) * (ab k i - a i))%R (seq 0 N)) / var base)%R) /\
      nth_error (ST s) k =
        Some (Some (mean (map (fun i => (a i - ab k i) ^ 2)%R (seq 0 N)) / (2 * var base))%R)) /\
   (second = true -> forall j k, j < k -> k < D ->
      exists m, S2 s = Some m /\ entry m j k = Some (Some
       ((mean (map (fun i => (ba j i - mu) * (ab k i - mu) - (a i - mu) * (b i - mu))%R (seq 0 N))
         - mean (map (fun i => (b i - mu) * (ab j i - a i))%R (seq 0 N))
         - mean (map (fun i => (b i - mu) * (ab k i - a i))%R (seq 0 N))) / var base)%R))).
Proof.
  intros mu sigma Zq resample cpus p Y second conf keep workers s D N a b ab ba base Hsig HA.
  destruct (analyze_inv _ _ _ _ _ _ _ _ _ _ _ _ Hsig HA) as
    (N' & A & B & AB & BA & HYl & HN & HR & Es & LA & LB & LAB & FAB & HBA & Hsh & Hcov & _ & _).
  fold D in HYl, HN, HR, Es, LAB, HBA, Hsh, Hcov.
  assert (EN : N' = N).
  { unfold N. rewrite HYl, Nat.div_mul; auto. pose proof (block_size_pos D second). lia. }
  symmetry in EN. destruct EN.
  destruct (sep_norml _ _ _ _ _ _ _ _ _ _ HYl Es) as (EA & EB & EAB & EBA). cbv zeta in EA, EB, EAB, EBA.
  set (val := match workers with
             | None => ser_value (Zq conf) A B AB BA (resample N)
             | Some _ => par_value (Zq conf) A B AB BA (resample N)
             end) in *.
  assert (V1 : forall k, k < D -> nth_error (S1 s) k = Some (first_order A (nth k AB []) B)).
  { intros k Hk. change (nth_error (S1 s) k) with (read s (kS1, k, None)).
    rewrite (proj1 (Hcov _)) by (apply in_first_tasks; simpl; auto). unfold val. destruct workers; reflexivity. }
  assert (VT : forall k, k < D -> nth_error (ST s) k = Some (total_order A (nth k AB []) B)).
  { intros k Hk. change (nth_error (ST s) k) with (read s (kST, k, None)).
    rewrite (proj1 (Hcov _)) by (apply in_first_tasks; simpl; auto). unfold val. destruct workers; reflexivity. }
  assert (V2 : second = true -> forall j k, j < k -> k < D -> exists m, S2 s = Some m /\
     entry m j k = Some (second_order A (nth j AB []) (nth k AB [])
        (match BA with Some m => nth j m [] | None => [] end) B)).
  { intros Hsec j k Hj Hk.
    assert (Q : read s (kS2, j, Some k) = Some (val (kS2, j, Some k))).
    { apply Hcov. rewrite Hsec. apply in_second_tasks; simpl; auto. }
    simpl in Q. destruct (S2 s) as [m|]; [|discriminate]. exists m. split; auto. rewrite Q.
    unfold val. destruct workers; reflexivity. }
  assert (HNpos : forall k, k < D -> 0 < N) by (intros; apply HN; lia).
  split; intros Hb; split.
  - intros k Hk. rewrite V1, VT by auto. rewrite EA, EB, EAB by auto.
    rewrite first_formula, total_formula by eauto. fold base.
    fold a b. change (map a (seq 0 N) ++ map b (seq 0 N)) with base.
    destruct (excluded_middle_const base); [auto|contradiction].
  - intros Hsec j k Hj Hk. destruct (V2 Hsec j k Hj Hk) as (m & E1 & E2). exists m. split; auto. rewrite E2.
    rewrite EA, EB, EBA, !EAB by (auto; lia). rewrite second_formula by eauto. 
    fold a b. change (map a (seq 0 N) ++ map b (seq 0 N)) with base.
    destruct (excluded_middle_const base); [auto|contradiction].
  - intros k Hk. rewrite V1, VT by auto. rewrite EA, EB, EAB by auto.
    rewrite first_formula, total_formula by eauto. 
    fold a b. change (map a (seq 0 N) ++ map b (seq 0 N)) with base.
    destruct (excluded_middle_const base); [contradiction|auto].
  - intros Hsec j k Hj Hk. destruct (V2 Hsec j k Hj Hk) as (m & E1 & E2). exists m. split; auto. rewrite E2.
    rewrite EA, EB, EBA, !EAB by (auto; lia). rewrite second_formula by eauto. 
    fold a b. change (map a (seq 0 N) ++ map b (seq 0 N)) with base.
    destruct (excluded_middle_const base); [contradiction|auto].
Qed.
