(** * The DGSM analyser. *)
From Coq Require Import Reals String List Arith ZArith Bool Lia Lra.
From Verif Require Import Base Arrays ListFacts ModelGroups ModelScale ProofsScale Stats Sums SpecSobol SpecFF ProofsSobol6
  ProofsFF ProofsFF2 ProofsFF3 ModelFast ProofsFast2 ModelMorrisAnalyze SpecMorris ProofsMorris2 ProofsMorris5 ProofsMorris6 ProofsMorris7 ProofsMorris9
  ModelDgsm SpecDgsm ProofsDgsm.
Import ListNotations.
Local Open Scope nat_scope.

Definition slope_at (X : list (list R)) (Y : list R) (D j i : nat) : fval :=
  slope2 (nth (i * (D + 1)) Y 0%R) (nth (i * (D + 1) + 1 + j) Y 0%R) (step_of X D i j).

Lemma slope_at_some : forall X Y D j i, step_of X D i j <> 0%R -> slope_at X Y D j i = Some (secant X Y D i j ^ 2)%R.
Proof.
  intros X Y D j i H. unfold slope_at, slope2, fdiv. destruct (Reqb _ 0) eqn:E; [apply Reqb_true in E; contradiction|].
  reflexivity.
Qed.
Lemma slope_at_none : forall X Y D j i, step_of X D i j = 0%R -> slope_at X Y D j i = None.
Proof. intros X Y D j i H. unfold slope_at, slope2, fdiv. rewrite H. rewrite (proj2 (Reqb_true 0 0) eq_refl). reflexivity. Qed.

Definition param_of (nq : R -> R) (bounds X : list (list R)) (Y : list R) (N D : nat) (cl : R) (rs : list (list nat)) (j : nat)
  : fval * fval * fval * fval :=
  let vi := fmean (map (slope_at X Y D j) (seq 0 N)) in
  (vi, fsd (map (slope_at X Y D j) (seq 0 N)),
   match vi with Some v => fdiv (v * (upper bounds j - lower bounds j) ^ 2) (var (base_outputs Y D N) * PI ^ 2)%R | None => None end,
   fmul (Some (nq (1 / 2 + cl / 2)%R)) (fsd1 (map (fun idx => fmean (map (slope_at X Y D j) idx)) rs))).

Lemma column_ok : forall X D j f N, Forall (fun r => length r = D) X -> j < D -> (forall i, i < N -> f i < length X) ->
  mapM (fun i => do r <- get X (f i) ;; get r j) (seq 0 N) = Ok (map (fun i => nth j (nth (f i) X []) 0%R) (seq 0 N)).
Proof.
  intros X D j f N HF Hj Hf. rewrite <- mapM_Ok_map. apply mapM_ext. intros i Hi. apply in_seq in Hi.
  assert (E : nth_error X (f i) = Some (nth (f i) X [])) by (apply nth_error_nth'; apply Hf; lia).
  unfold get at 1. rewrite E. cbn [bind]. unfold get.
  rewrite Forall_forall in HF. specialize (HF _ (nth_error_In _ _ E)).
  rewrite (nth_error_nth' (nth (f i) X []) 0%R) by lia. reflexivity.
Qed.

Lemma dgsm_param_ok : forall nq bounds X Y N D cl rs j, block_rows D N X -> length Y = N * (D + 1) -> 0 < N -> j < D ->
  good_box bounds -> length bounds = D -> valid_resample N rs ->
  dgsm_param nq bounds X Y N D cl rs j = Ok (param_of nq bounds X Y N D cl rs j).
Proof.
  intros nq bounds X Y N D cl rs j [LX FX] LY HN Hj HB LB HR. unfold dgsm_param.
  destruct (Nat.ltb_spec (length X) (length Y)); [lia|]. cbv zeta.
  rewrite (column_ok X D j (fun i => i * (D + 1)) N) by (auto; intros; rewrite LX; nia). cbn [bind].
  rewrite (column_ok X D j (fun i => i * (D + 1) + (j + 1)) N) by (auto; intros; rewrite LX; nia). cbn [bind].
  destruct (good_box_pair bounds j HB ltac:(lia)) as [Hp _]. unfold get at 1. rewrite Hp. cbn [bind].
  unfold get at 1 2. cbn [nth_error bind]. destruct (Nat.eqb_spec N 0); [lia|].
  set (sl := fun i : nat => slope2 (nth i (map (fun i0 => nth (i0 * (D + 1)) Y 0%R) (seq 0 N)) 0%R) _ _).
  assert (ES : forall i, i < N -> sl i = slope_at X Y D j i).
  { intros i Hi. unfold sl, slope_at. rewrite !nth_map_seq by auto. f_equal.
    - f_equal. lia.
    - unfold step_of. apply nth_error_nth. rewrite nth_error_map2, !nth_error_map_seq.
      destruct (Nat.ltb_spec i N); [|lia]. replace (i * (D + 1) + (j + 1)) with (i * (D + 1) + 1 + j) by lia. reflexivity. }
  assert (EM : map sl (seq 0 N) = map (slope_at X Y D j) (seq 0 N)).
  { apply map_ext_in. intros i Hi. apply in_seq in Hi. apply ES. lia. }
  assert (ER : map (fun idx => fmean (map sl idx)) rs = map (fun idx => fmean (map (slope_at X Y D j) idx)) rs).
  { apply map_ext_in. intros idx Hi. f_equal. apply map_ext_in. intros i Hi'. apply ES.
    unfold valid_resample in HR. rewrite Forall_forall in HR. destruct (HR _ Hi) as [_ HR']. rewrite Forall_forall in HR'. auto. }
  rewrite EM. unfold param_of. rewrite <- ER. reflexivity.
Qed.

Lemma dgsm_ok : forall nq p X Y N cl resample, let D := p_num_vars p in
  block_rows D N X -> length Y = N * (D + 1) -> 0 < N ->
  good_box (p_bounds p) -> length (p_bounds p) = D -> (forall j, valid_resample N (resample j)) -> (0 < cl < 1)%R ->
  let r := fun j => param_of nq (p_bounds p) X Y N D cl (resample j) j in
  dgsm_analyze nq p X Y cl resample =
  Ok (mkDgsm (map (fun j => fst (fst (fst (r j)))) (seq 0 D)) (map (fun j => snd (fst (fst (r j)))) (seq 0 D))
      (map (fun j => snd (fst (r j))) (seq 0 D)) (map (fun j => snd (r j)) (seq 0 D)) (p_names p)).
Proof.
  intros nq p X Y N cl resample D HX LY HN HB LB HR Hc r. unfold dgsm_analyze. fold D.
  rewrite LY, Nat.mod_mul by lia. cbn [Nat.eqb negb].
  rewrite (proj2 (Rltb_true 0 cl)), (proj2 (Rltb_true cl 1)) by lra. cbn [andb negb]. cbv zeta.
  rewrite Nat.div_mul by lia.
  assert (E : mapM (fun j => dgsm_param nq (p_bounds p) X Y N D cl (resample j) j) (seq 0 D) = Ok (map r (seq 0 D))).
  { rewrite <- mapM_Ok_map. apply mapM_ext. intros j Hj. apply in_seq in Hj. apply dgsm_param_ok; auto. lia. }
  etransitivity; [apply f_equal with (f := fun z => bind z _); exact E|]. cbn [bind]. rewrite !map_map. reflexivity.
Qed.

Lemma dgsm_rejected : forall nq p X Y cl resample,
  length Y mod (p_num_vars p + 1) <> 0 \/ (cl <= 0)%R \/ (1 <= cl)%R ->
  dgsm_analyze nq p X Y cl resample = Err RuntimeError.
Proof.
  intros nq p X Y cl resample H. unfold dgsm_analyze. destruct (Nat.eqb_spec (length Y mod (p_num_vars p + 1)) 0); cbn [negb]; auto.
  destruct H as [H|[H|H]]; [contradiction| |].
  - rewrite (proj2 (Rltb_false 0 cl)) by lra. reflexivity.
  - rewrite (proj2 (Rltb_false cl 1)) by lra. rewrite andb_false_r. reflexivity.
Qed.

Lemma fsd_of : forall A (l : list A) f (g : A -> R), (forall x, In x l -> f x = Some (g x)) ->
  fsd (map f l) = Some (sd (map g l)).
Proof. intros. unfold fsd. erewrite all_some_of; eauto. Qed.

Lemma all_some_none : forall A B (f : A -> option B) l x, In x l -> f x = None -> all_some (map f l) = None.
Proof.
  induction l as [|y l IH]; intros x Hx E; simpl; [destruct Hx|]. destruct Hx as [->|Hx].
  - rewrite E. reflexivity.
  - destruct (f y); auto. rewrite (IH x Hx E). reflexivity.
Qed.

Section Entry.
  Variables (nq : R -> R) (p : problem) (X : list (list R)) (Y : list R) (N : nat) (cl : R) (resample : nat -> list (list nat)).
  Let D := p_num_vars p.
  Hypotheses (HX : block_rows D N X) (LY : length Y = N * (D + 1)) (HN : 0 < N) (HB : good_box (p_bounds p))
    (LB : length (p_bounds p) = D) (HR : forall j, valid_resample N (resample j)) (Hc : (0 < cl < 1)%R).

  Lemma dgsm_shape : exists out, dgsm_analyze nq p X Y cl resample = Ok out /\ d_names out = p_names p /\
    length (d_vi out) = D /\ length (d_vi_std out) = D /\ length (d_dgsm out) = D /\ length (d_conf out) = D /\
    forall j, j < D -> let r := param_of nq (p_bounds p) X Y N D cl (resample j) j in
      nth_error (d_vi out) j = Some (fst (fst (fst r))) /\ nth_error (d_vi_std out) j = Some (snd (fst (fst r))) /\
      nth_error (d_dgsm out) j = Some (snd (fst r)) /\ nth_error (d_conf out) j = Some (snd r).
  Proof.
    eexists. split; [apply (dgsm_ok nq p X Y N cl resample); auto|]. cbn [d_names d_vi d_vi_std d_dgsm d_conf].
    rewrite !map_length, !seq_length. do 5 (split; [reflexivity|]).
    intros j Hj. cbv zeta. rewrite !nth_error_map, !nth_error_seq. destruct (Nat.ltb_spec j (p_num_vars p)) as [_|Hx]; [|unfold D in Hj; lia].
    cbn [option_map]. auto.
  Qed.

  Lemma param_slopes : forall j (g : nat -> R), (forall i, i < N -> slope_at X Y D j i = Some (g i)) ->
    let vi := mean (map g (seq 0 N)) in
    param_of nq (p_bounds p) X Y N D cl (resample j) j =
    (Some vi, Some (sd (map g (seq 0 N))),
     fdiv (vi * (upper (p_bounds p) j - lower (p_bounds p) j) ^ 2) (var (base_outputs Y D N) * PI ^ 2)%R,
     fmul (Some (nq (1 / 2 + cl / 2)%R)) (sd1 (map (fun idx => mean (map g idx)) (resample j)))).
  Proof using HR.
    clear HX LY LB HB Hc HN.
    intros j g Hg vi. unfold param_of.
    rewrite (fmean_of _ (seq 0 N) _ g) by (intros i Hi; apply in_seq in Hi; apply Hg; lia).
    rewrite (fsd_of _ (seq 0 N) _ g) by (intros i Hi; apply in_seq in Hi; apply Hg; lia).
    rewrite (fsd1_of _ (resample j) _ (fun idx => mean (map g idx))); [reflexivity|].
    intros idx Hi. apply fmean_of. intros i Hi'. apply Hg. specialize (HR j). unfold valid_resample in HR.
    rewrite Forall_forall in HR. destruct (HR _ Hi) as [_ HR']. rewrite Forall_forall in HR'. auto.
  Qed.

  Lemma param_nan : forall j i, i < N -> step_of X D i j = 0%R ->
    exists c, param_of nq (p_bounds p) X Y N D cl (resample j) j = (None, None, None, c).
  Proof using nq p X Y N cl resample.
    clear HX LY LB HB Hc HN HR.
    intros j i Hi H0. unfold param_of, fmean, fsd.
    assert (E : all_some (map (slope_at X Y D j) (seq 0 N)) = None).
    { apply (all_some_none _ _ (slope_at X Y D j) (seq 0 N) i); [apply in_seq; lia|apply slope_at_none; auto]. }
    rewrite E. eauto.
  Qed.

  Lemma param_const : forall j g, (forall i, i < N -> slope_at X Y D j i = Some g) -> 2 <= length (resample j) ->
    var (base_outputs Y D N) <> 0%R ->
    param_of nq (p_bounds p) X Y N D cl (resample j) j =
    (Some g, Some 0%R, Some (g * (upper (p_bounds p) j - lower (p_bounds p) j) ^ 2 / (var (base_outputs Y D N) * PI ^ 2))%R, Some 0%R).
  Proof using HN HR.
    clear HX LY LB HB Hc.
    intros j g Hg H2 Hv. rewrite (param_slopes j (fun _ => g)) by auto.
    assert (Hs : seq 0 N <> []) by (destruct N; [lia|discriminate]).
    rewrite mean_const by auto.
    assert (E0 : sd (map (fun _ : nat => g) (seq 0 N)) = 0%R).
    { apply sd_zero_iff; [destruct N; [lia|discriminate]|]. intros x y Hx Hy. apply in_map_iff in Hx, Hy.
      destruct Hx as (? & <- & _), Hy as (? & <- & _). auto. }
    rewrite E0. rewrite (sd1_const _ g).
    - cbn [fmul]. unfold fdiv. destruct (Reqb _ 0) eqn:E.
      { apply Reqb_true in E. apply Rmult_integral in E. pose proof PI_RGT_0. destruct E as [E|E]; [contradiction|]. exfalso. nra. }
      rewrite Rmult_0_r. reflexivity.
    - rewrite map_length. auto.
    - intros x Hx. apply in_map_iff in Hx. destruct Hx as (idx & <- & Hi). apply mean_const.
      specialize (HR j). unfold valid_resample in HR. rewrite Forall_forall in HR. destruct (HR _ Hi) as [L _].
      destruct idx; [simpl in L; lia|discriminate].
  Qed.
End Entry.

Lemma fmean_nonneg : forall l v, (forall x, In (Some x) l -> 0 <= x)%R -> fmean l = Some v -> (0 <= v)%R.
Proof.
  intros l v H E. destruct (fmean_some l v E) as (r & -> & ->). apply mean_nonneg. intros x Hx. apply H. apply in_map; auto.
Qed.
Lemma slope2_nonneg : forall b q d v, slope2 b q d = Some v -> (0 <= v)%R.
Proof. intros b q d v H. unfold slope2 in H. destruct (fdiv (q - b) d); [|discriminate]. injection H as <-. apply sq_nonneg. Qed.

Lemma dgsm_param_nonneg : forall nq bounds X Y N D cl rs j vi st dg c,
  dgsm_param nq bounds X Y N D cl rs j = Ok (vi, st, dg, c) ->
  (forall v, vi = Some v -> 0 <= v)%R /\ (forall v, st = Some v -> 0 <= v)%R /\ (forall v, dg = Some v -> 0 <= v)%R.
Proof.
  intros nq bounds X Y N D cl rs j vi st dg c H. unfold dgsm_param in H.
  destruct (length X <? length Y); [discriminate|]. cbv zeta in H.
  destruct (mapM _ (seq 0 N)) as [xb|]; [|discriminate]. cbn [bind] in H.
  destruct (mapM _ (seq 0 N)) as [xp|]; [|discriminate]. cbn [bind] in H.
  destruct (get bounds j) as [b|]; [|discriminate]. cbn [bind] in H.
  destruct (get b 1) as [hi|]; [|discriminate]. cbn [bind] in H.
  destruct (get b 0) as [lo|]; [|discriminate]. cbn [bind] in H.
  destruct (N =? 0); [discriminate|]. injection H as <- <- <- <-.
  assert (HV : forall f v, fmean (map (fun i : nat => slope2 (nth i (map (fun i0 => nth (i0 * (D + 1)) Y 0%R) (seq 0 N)) 0%R)
     (nth i (map (fun i0 => nth (i0 * (D + 1) + (j + 1)) Y 0%R) (seq 0 N)) 0%R) (nth i (map2 (fun a b => (a - b)%R) xp xb) 0%R)) f) = Some v -> (0 <= v)%R).
  { intros f v E. apply fmean_nonneg in E; auto. intros x Hx. apply in_map_iff in Hx. destruct Hx as (i & Hi & _).
    eapply slope2_nonneg; eauto. }
  split; [|split].
  - intros v E. eapply HV; eauto.
  - intros v E. unfold fsd in E. destruct (all_some _); [|discriminate]. injection E as <-. apply sd_nonneg.
  - intros v E. destruct (fmean _) as [w|] eqn:Ew; [|discriminate]. apply HV in Ew. unfold fdiv in E.
    destruct (Reqb _ 0) eqn:Eq; [discriminate|]. injection E as <-. apply Reqb_false in Eq.
    pose proof (var_nonneg (map (fun i0 => nth (i0 * (D + 1)) Y 0%R) (seq 0 N))) as HV0. pose proof PI_RGT_0 as HPI.
    set (V := var _) in *. pose proof (sq_nonneg (hi - lo)). pose proof (sq_nonneg PI).
    assert (0 < V * PI ^ 2)%R.
    { assert (0 <= V * PI ^ 2)%R by (apply Rmult_le_pos; auto). lra. }
    apply Rmult_le_pos; [apply Rmult_le_pos; auto|]. left. apply Rinv_0_lt_compat; auto.
Qed.

Lemma dgsm_nonneg : forall nq p X Y cl resample out, dgsm_analyze nq p X Y cl resample = Ok out ->
  (forall v, In (Some v) (d_vi out) -> 0 <= v)%R /\ (forall v, In (Some v) (d_vi_std out) -> 0 <= v)%R /\
  (forall v, In (Some v) (d_dgsm out) -> 0 <= v)%R.
Proof.
  intros nq p X Y cl resample out H. unfold dgsm_analyze in H.
  destruct (negb _); [discriminate|]. destruct (negb _); [discriminate|]. cbv zeta in H.
  destruct (mapM _ (seq 0 (p_num_vars p))) as [rs|] eqn:E; [|discriminate]. cbn [bind] in H. injection H as <-.
  cbn [d_vi d_vi_std d_dgsm].
  assert (HF : forall r, In r rs -> exists j, dgsm_param nq (p_bounds p) X Y (length Y / (p_num_vars p + 1)) (p_num_vars p) cl (resample j) j = Ok r).
  { intros r Hr. apply In_nth_error in Hr. destruct Hr as [k Hk].
    assert (Lk : k < length (seq 0 (p_num_vars p))).
    { rewrite <- (mapM_Ok_length _ _ E). apply nth_error_Some. congruence. }
    destruct (nth_error_lt_Some _ Lk) as [x Hx]. destruct (mapM_Ok_nth _ _ k E Hx) as (y & Hy & Hk'). exists x. congruence. }
  repeat split; intros v Hv; apply in_map_iff in Hv; destruct Hv as ([[[vi st] dg] c] & Hv & Hr); cbn in Hv;
    destruct (HF _ Hr) as [j Hj]; apply dgsm_param_nonneg in Hj; destruct Hj as (A & B & C); eauto.
Qed.

(** ** Models *)
Lemma difference_block : forall D N X, difference_design D N X -> Forall (fun r => length r = D) X /\ block_rows D N X.
Proof.
  intros D N X [LX H]. assert (F : Forall (fun r => length r = D) X).
  { rewrite Forall_forall. intros r Hr. apply In_nth_error in Hr. destruct Hr as [k Hk].
    assert (Hl : k < length X) by (apply nth_error_Some; congruence). rewrite LX in Hl.
    assert (Hi : k / (D + 1) < N) by (apply Nat.div_lt_upper_bound; lia).
    pose proof (Nat.div_mod k (D + 1) ltac:(lia)) as E. pose proof (Nat.mod_upper_bound k (D + 1) ltac:(lia)) as Hm.
    set (i := k / (D + 1)) in *. set (m := k mod (D + 1)) in *.
    destruct (H i Hi) as (b & Hb & Lb & Hj). clearbody m i. destruct m as [|m].
    - rewrite E in Hk. replace ((D + 1) * i + 0) with (i * (D + 1)) in Hk by lia. congruence.
    - destruct (Hj m ltac:(lia)) as (r' & Hr' & [La _] & _).
      replace k with (i * (D + 1) + 1 + m) in Hk by lia. assert (r = r') by congruence. subst. congruence. }
  split; auto. split; auto.
Qed.

Lemma difference_at : forall D N X i j, difference_design D N X -> i < N -> j < D ->
  agree_except j (nth (i * (D + 1)) X []) (nth (i * (D + 1) + 1 + j) X []) /\ step_of X D i j <> 0%R /\
  length (nth (i * (D + 1)) X []) = D.
Proof.
  intros D N X i j [LX H] Hi Hj. destruct (H i Hi) as (b & Hb & Lb & Hr). destruct (Hr j Hj) as (r & Er & Ha & Hne).
  unfold step_of. rewrite (nth_error_nth _ _ _ Hb), (nth_error_nth _ _ _ Er). split; auto. split; auto. lra.
Qed.

Lemma agree_linear : forall D c0 c j (b r : list R), j < D -> length b = D -> agree_except j b r ->
  (c0 + linear D c r - (c0 + linear D c b) = c j * (nth j r 0 - nth j b 0))%R.
Proof.
  intros D c0 c j b r Hj Lb [La Ha]. unfold linear. fold (sum D (fun k => c k * nth k r 0)%R) (sum D (fun k => c k * nth k b 0)%R).
  replace (c0 + sum D (fun k => c k * nth k r 0) - (c0 + sum D (fun k => c k * nth k b 0)))%R
    with (sum D (fun k => c k * nth k r 0) - sum D (fun k => c k * nth k b 0))%R by ring.
  rewrite <- sum_minus. rewrite (sum_delta D _ j Hj); [ring|].
  intros k Hk Hkj. specialize (Ha k Hkj).
  rewrite (nth_error_nth' b 0%R), (nth_error_nth' r 0%R) in Ha by lia. injection Ha as Ha. rewrite Ha. ring.
Qed.

(** ** Results *)
Section Results.
  Variables (nq : R -> R) (p : problem) (X : list (list R)) (Y : list R) (N : nat) (cl : R) (resample : nat -> list (list nat)).
  Let D := p_num_vars p.
  Hypotheses (LY : length Y = N * (D + 1)) (HN : 0 < N) (HP : plain_problem p)
    (HR : forall j, valid_resample N (resample j)) (Hc : (0 < cl < 1)%R).

  Lemma dgsm_formula : block_rows D N X -> exists out, dgsm_analyze nq p X Y cl resample = Ok out /\ d_names out = p_names p /\
    length (d_vi out) = D /\ length (d_vi_std out) = D /\ length (d_dgsm out) = D /\ length (d_conf out) = D /\
    forall j, j < D ->
    ((forall i, i < N -> step_of X D i j <> 0%R) ->
     let sq := fun i => (secant X Y D i j ^ 2)%R in
     let vi := mean (map sq (seq 0 N)) in
     let V := var (base_outputs Y D N) in
     nth_error (d_vi out) j = Some (Some vi) /\ nth_error (d_vi_std out) j = Some (Some (sd (map sq (seq 0 N)))) /\
     nth_error (d_dgsm out) j = Some (if Req_EM_T V 0 then None
        else Some (vi * (upper (p_bounds p) j - lower (p_bounds p) j) ^ 2 / (V * PI ^ 2))%R) /\
     nth_error (d_conf out) j = Some (option_map (fun s => nq (1 / 2 + cl / 2) * s)%R
        (sd1 (map (fun idx => mean (map sq idx)) (resample j))))) /\
    ((exists i, i < N /\ step_of X D i j = 0%R) ->
     nth_error (d_vi out) j = Some None /\ nth_error (d_vi_std out) j = Some None /\ nth_error (d_dgsm out) j = Some None).
  Proof.
    intros HX. destruct HP as (Hn & HL & HB & Hd).
    destruct (dgsm_shape nq p X Y N cl resample HX LY HN HB HL HR Hc) as (out & E & En & L1 & L2 & L3 & L4 & H).
    exists out. do 6 (split; [assumption|]). intros j Hj. specialize (H j Hj). cbv zeta in H.
    split.
    - intros Hs. cbv zeta.
      rewrite (param_slopes nq p X Y N cl resample HR j (fun i => secant X Y D i j ^ 2)%R) in H
        by (intros i Hi; apply slope_at_some; auto).
      cbv zeta in H. cbn [fst snd] in H. destruct H as (H1 & H2 & H3 & H4). split; [exact H1|]. split; [exact H2|]. split.
      + etransitivity; [exact H3|]. f_equal. fold D. unfold fdiv. destruct (Req_EM_T (var (base_outputs Y D N)) 0) as [Ez|Hz].
        * rewrite (proj2 (Reqb_true _ 0)); auto. rewrite Ez. ring.
        * rewrite (proj2 (Reqb_false _ 0)); auto. apply Rmult_integral_contrapositive. split; auto.
          apply pow_nonzero. apply PI_neq0.
      + etransitivity; [exact H4|]. destruct (sd1 _); reflexivity.
    - intros (i & Hi & Hs). destruct (param_nan nq p X Y N cl resample j i Hi Hs) as [c Ec]. rewrite Ec in H.
      cbn [fst snd] in H. tauto.
  Qed.

  Definition recovered (out : dgsm_out) (j : nat) (g : R) : Prop :=
    nth_error (d_vi out) j = Some (Some g) /\ nth_error (d_vi_std out) j = Some (Some 0%R) /\
    nth_error (d_dgsm out) j = Some (Some (g * (upper (p_bounds p) j - lower (p_bounds p) j) ^ 2 / (var (base_outputs Y D N) * PI ^ 2))%R) /\
    nth_error (d_conf out) j = Some (Some 0%R).

  Lemma dgsm_constant_slope : forall (G : nat -> R -> Prop), difference_design D N X -> var (base_outputs Y D N) <> 0%R ->
    (forall j, 2 <= length (resample j)) ->
    (forall j g, G j g -> forall i, i < N -> (nth (i * (D + 1) + 1 + j) Y 0 - nth (i * (D + 1)) Y 0 = g * step_of X D i j)%R) ->
    exists out, dgsm_analyze nq p X Y cl resample = Ok out /\ forall j g, j < D -> G j g -> recovered out j (g ^ 2)%R.
  Proof.
    intros G HD Hv H2 HG. destruct HP as (Hn & HL & HB & Hd).
    destruct (difference_block _ _ _ HD) as [_ HX].
    destruct (dgsm_shape nq p X Y N cl resample HX LY HN HB HL HR Hc) as (out & E & En & L1 & L2 & L3 & L4 & H).
    exists out. split; auto. intros j g Hj Hg. specialize (H j Hj). cbv zeta in H.
    rewrite (param_const nq p X Y N cl resample HN HR j (g ^ 2)%R) in H; auto.
    intros i Hi. destruct (difference_at D N X i j HD Hi Hj) as (_ & Hs & _).
    fold D. rewrite slope_at_some by auto. f_equal. f_equal. unfold secant.
    specialize (HG j g Hg i Hi). rewrite HG. unfold step_of in *. field. auto.
  Qed.
End Results.

Lemma nth_map_in : forall A B (f : A -> B) l i d d', i < length l -> nth i (map f l) d' = f (nth i l d).
Proof. intros. rewrite (nth_indep _ d' (f d)) by (rewrite map_length; auto). apply map_nth. Qed.

Lemma design_index : forall D N i k, i < N -> k < D + 1 -> i * (D + 1) + k < N * (D + 1).
Proof. intros. nia. Qed.

Lemma dgsm_linear : forall nq p X N cl resample c0 c, plain_problem p -> 0 < N -> (0 < cl < 1)%R ->
  let D := p_num_vars p in let Y := map (fun x => c0 + linear D c x)%R X in
  difference_design D N X -> (forall j, valid_resample N (resample j) /\ 2 <= length (resample j)) ->
  var (base_outputs Y D N) <> 0%R ->
  exists out, dgsm_analyze nq p X Y cl resample = Ok out /\
    forall j, j < D -> recovered p Y N out j (c j ^ 2)%R.
Proof.
  intros nq p X N cl resample c0 c HP HN Hc D Y HD HR Hv. pose proof (proj1 HD) as LX.
  assert (LY : length Y = N * (D + 1)) by (unfold Y; rewrite map_length; auto).
  destruct (dgsm_constant_slope nq p X Y N cl resample LY HN HP (fun j => proj1 (HR j)) Hc (fun j g => j < D /\ g = c j) HD Hv
    (fun j => proj2 (HR j))) as (out & E & H).
  - intros j g [Hj ->] i Hi. destruct (difference_at D N X i j HD Hi Hj) as (Ha & Hs & Lb). unfold Y.
    rewrite !(nth_map_in _ _ _ X _ []).
    + apply agree_linear; auto.
    + rewrite LX. fold D. nia.
    + rewrite LX. fold D. nia.
  - exists out. split; auto.
Qed.

Lemma dgsm_ignored : forall nq p X N cl resample f j, plain_problem p -> 0 < N -> (0 < cl < 1)%R ->
  let D := p_num_vars p in let Y := map f X in
  difference_design D N X -> (forall j, valid_resample N (resample j) /\ 2 <= length (resample j)) ->
  var (base_outputs Y D N) <> 0%R -> j < D ->
  (forall a b, agree_except j a b -> f a = f b) ->
  exists out, dgsm_analyze nq p X Y cl resample = Ok out /\
    nth_error (d_vi out) j = Some (Some 0%R) /\ nth_error (d_vi_std out) j = Some (Some 0%R) /\
    nth_error (d_dgsm out) j = Some (Some 0%R) /\ nth_error (d_conf out) j = Some (Some 0%R).
Proof.
  intros nq p X N cl resample f j HP HN Hc D Y HD HR Hv Hj Hf. pose proof (proj1 HD) as LX.
  assert (LY : length Y = N * (D + 1)) by (unfold Y; rewrite map_length; auto).
  destruct (dgsm_constant_slope nq p X Y N cl resample LY HN HP (fun j => proj1 (HR j)) Hc (fun k g => k = j /\ g = 0%R) HD Hv
    (fun j => proj2 (HR j))) as (out & E & H).
  - intros k g [-> ->] i Hi. destruct (difference_at D N X i j HD Hi Hj) as (Ha & Hs & Lb). unfold Y.
    rewrite !(nth_map_in _ _ _ X _ []).
    + fold D. rewrite (Hf _ _ Ha). ring.
    + rewrite LX. fold D. nia.
    + rewrite LX. fold D. nia.
  - exists out. split; auto. destruct (H j 0%R Hj (conj eq_refl eq_refl)) as (H1 & H2 & H3 & H4).
    replace (0 ^ 2)%R with 0%R in * by ring. split; auto. split; auto. split; auto.
    etransitivity; [exact H3|]. do 2 f_equal. unfold Rdiv. rewrite !Rmult_0_l. reflexivity.
Qed.
