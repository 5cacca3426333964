(** * Morris statistics are unbiased: whole samples. *)
From Coq Require Import Reals String List Arith ZArith Bool Lia Lra Permutation.
From Verif Require Import Base Arrays ListFacts ModelGroups ModelScale Stats Sums SpecGroups SpecSobol SpecFF
  ProofsGroups ProofsSobol6 ProofsFF2 ModelMorris ModelMorrisAnalyze SpecMorris SpecExpect ProofsExpect ProofsExpect2 SpecMorris2
  ProofsMorris1 ProofsMorris2 ProofsMorris8 ProofsMorris11 ProofsMorris12.
Import ListNotations.
Local Open Scope nat_scope.

(** ** Independent points under different functions *)
Lemma seq_S_map : forall A (F : nat -> A) N, map F (seq 0 (S N)) = F 0 :: map (fun i => F (S i)) (seq 0 N).
Proof. intros. cbn [seq map]. f_equal. rewrite <- seq_shift, map_map. reflexivity. Qed.

Lemma points_sums : forall A N (ds : list (@law A)) (h : nat -> list A -> R) m, Forall probability ds -> (forall i, expect ds (h i) = m) ->
  expect_points N ds (fun xs => Rsum (map (fun i => h i (nth i xs [])) (seq 0 N))) = (INR N * m)%R.
Proof.
  intros A. induction N as [|N IH]; intros ds h m P H; cbn [expect_points]; [cbn; ring|].
  rewrite (expect_ext ds _ (fun x => (h 0%nat x + INR N * m)%R)).
  - rewrite expect_plus, expect_const, H, S_INR by assumption. ring.
  - intros x _. rewrite <- (IH ds (fun i => h (S i)) m P (fun i => H (S i))).
    rewrite (points_ext N ds _ (fun xs => (h 0%nat x + Rsum (map (fun i => h (S i) (nth i xs [])) (seq 0 N)))%R)).
    + rewrite points_plus, points_const by assumption. reflexivity.
    + intros xs _. rewrite seq_S_map. reflexivity.
Qed.

Lemma points_squares : forall A N (ds : list (@law A)) (h : nat -> list A -> R) m q, Forall probability ds -> (forall i, expect ds (h i) = m) ->
  (forall i, expect ds (fun x => (h i x ^ 2)%R) = q) ->
  expect_points N ds (fun xs => (Rsum (map (fun i => h i (nth i xs [])) (seq 0 N)) ^ 2)%R) = (INR N * q + INR N * (INR N - 1) * m ^ 2)%R.
Proof.
  intros A. induction N as [|N IH]; intros ds h m q P H Q; cbn [expect_points]; [cbn; ring|].
  rewrite (expect_ext ds _ (fun x => (h 0%nat x ^ 2 + (2 * (INR N * m)) * h 0%nat x + (INR N * q + INR N * (INR N - 1) * m ^ 2))%R)).
  - rewrite expect_plus, expect_const by assumption. rewrite (expect_plus ds (fun x => (h 0%nat x ^ 2)%R) (fun x => (2 * (INR N * m) * h 0%nat x)%R)).
    rewrite expect_scal, H, Q, S_INR. ring.
  - intros x _. rewrite <- (IH ds (fun i => h (S i)) m q P (fun i => H (S i)) (fun i => Q (S i))).
    rewrite <- (points_sums A N ds (fun i => h (S i)) m P (fun i => H (S i))).
    rewrite (points_ext N ds _ (fun xs => (h 0%nat x ^ 2 + 2 * h 0%nat x * Rsum (map (fun i => h (S i) (nth i xs [])) (seq 0 N))
       + Rsum (map (fun i => h (S i) (nth i xs [])) (seq 0 N)) ^ 2)%R)).
    + rewrite points_plus. rewrite (points_plus N ds (fun _ => (h 0%nat x ^ 2)%R)). rewrite points_const, points_scal by assumption. ring.
    + intros xs _. rewrite seq_S_map. cbn [nth]. match goal with |- (Rsum (?a :: ?l) ^ 2 = _)%R => change (Rsum (a :: l)) with (a + Rsum l)%R end. ring.
Qed.

Lemma points_means : forall A N (ds : list (@law A)) (h : nat -> list A -> R) m, Forall probability ds -> 1 <= N -> (forall i, expect ds (h i) = m) ->
  expect_points N ds (fun xs => mean (map (fun i => h i (nth i xs [])) (seq 0 N))) = m.
Proof.
  intros A N ds h m P N1 H. assert (n0 : INR N <> 0%R) by (apply not_0_INR; lia).
  rewrite (points_ext N ds _ (fun xs => (/ INR N * Rsum (map (fun i => h i (nth i xs [])) (seq 0 N)))%R)).
  - rewrite points_scal, (points_sums A N ds h m P H). field. assumption.
  - intros xs _. unfold mean. rewrite map_length, seq_length. unfold Rdiv. ring.
Qed.

Lemma points_Rsum : forall A B N (ds : list (@law A)) (F : B -> list (list A) -> R) l,
  expect_points N ds (fun xs => Rsum (map (fun b => F b xs) l)) = Rsum (map (fun b => expect_points N ds (F b)) l).
Proof.
  intros A B N ds F. induction l as [|b l IH].
  - cbn [map]. change (Rsum []) with 0%R. rewrite <- (points_ext N ds (fun _ => (0 * 0)%R)); [rewrite points_scal; ring|]. intros. ring.
  - cbn [map]. change (Rsum (expect_points N ds (F b) :: map (fun b => expect_points N ds (F b)) l)) with (expect_points N ds (F b) + Rsum (map (fun b => expect_points N ds (F b)) l))%R.
    rewrite <- IH, <- points_plus. reflexivity.
Qed.

(** Sum of squared deviations. *)
Lemma deviations : forall l, l <> [] -> Rsum (map (fun x => ((x - mean l) ^ 2)%R) l) = (Rsum (map (fun x => (x ^ 2)%R) l) - / INR (length l) * Rsum l ^ 2)%R.
Proof.
  intros l NE. assert (L : INR (length l) <> 0%R) by (apply not_0_INR; destruct l; [congruence|cbn; lia]).
  rewrite (map_ext _ (fun x => (x ^ 2 - (2 * mean l * x - mean l ^ 2))%R)) by (intros; ring).
  rewrite Rsum_map_minus. rewrite (Rsum_map_minus R (fun x => (2 * mean l * x)%R) (fun _ => (mean l ^ 2)%R)), Rsum_const, Rsum_map_scal, map_id. unfold mean. field. assumption.
Qed.

Section Whole.
Variables (rnd : R -> R) (score : list R -> R) (argsort : list R -> list nat) (nq : R -> R) (tq : R -> R -> R -> R) (chunk : nat).
Variables (p q : problem) (ls : list string) (G n N : nat) (f : list R -> R) (opt : option Z) (local : bool).
Variables (conf_level : R) (resample : nat -> list (list nat)) (orders : nat -> list nat).
Hypothesis HP : morris_problem p ls.
Hypothesis HQ : labels_of q ls /\ p_num_vars q = p_num_vars p.
Hypothesis HG : distinct_count ls G.
Hypothesis Hn : 1 <= n.
Hypothesis HN : 1 <= N.
Hypothesis HO : forall t, Permutation (orders t) (seq 0 G).
Hypothesis Hopt : opt = None \/ opt = Some 0%Z.
Hypothesis HC : (0 < conf_level < 1)%R.
Hypothesis HR : forall j, valid_resample N (resample j).
Let D := p_num_vars p.
Let draws (cs : list (list (bool * nat))) (t : nat) : draw := draw_of (orders t) (nth t cs []).
Let sampled cs := morris_sample rnd score argsort nq tq chunk p N (2 * n) opt local (draws cs).

Lemma draws_valid : forall cs, Forall (choice_of n D) cs -> forall t, valid_draw G n (draws cs t).
Proof.
  intros cs F t. split; [apply HO|]. intros j. unfold draws, draw_of. cbn [t_start].
  destruct (Nat.lt_ge_cases t (length cs)) as [T|T]; [|rewrite (nth_overflow cs) by lia; destruct j; cbn; lia].
  destruct (Nat.lt_ge_cases j (length (nth t cs []))) as [J|J]; [|rewrite nth_overflow by lia; cbn; lia].
  rewrite Forall_forall in F. destruct (F (nth t cs [])) as (_ & H); [apply nth_In; auto|]. apply H, nth_In, J.
Qed.

(** What the analysis reports. *)
Lemma reported : forall x kx, nth_error (pd_unique ls) kx = Some x -> exists grp, grouping ls grp /\
  forall cs, length cs = N -> Forall (choice_of n D) cs ->
  exists p' X out, sampled cs = (p', Ok (InPlace X)) /\
    snd (morris_analyze nq q X (map f (rows X)) conf_level false (2 * n) resample) = Ok out /\
    forall js, members_of ls x js -> exists k, nth_error (m_names out) k = Some x /\
    let E i j := grid_effect (p_bounds p) ls n f x j (before n grp (orders i) kx (nth i cs [])) in
    nth_error (m_mu out) k = Some (Some (mean (map (fun j => mean (map (fun i => E i j) (seq 0 N))) js))) /\
    nth_error (m_mu_star out) k = Some (Some (mean (map (fun j => mean (map (fun i => Rabs (E i j)) (seq 0 N))) js))) /\
    (forall j, js = [j] -> nth_error (m_sigma out) k = Some (sd1 (map (fun i => E i j) (seq 0 N)))).
Proof.
  intros x kx Hk. destruct (grouping_ex ls) as (grp & Hg). exists grp. split; [exact Hg|]. intros cs Lc Fc.
  pose proof HP as (Hls & HL & Hp & HB & HGB & _). assert (HG' := distinct_count_unique _ _ HG).
  assert (E2 : 2 * n / 2 = n) by (rewrite Nat.mul_comm; apply Nat.div_mul; lia).
  assert (VD : valid_draws ls (2 * n) (draws cs)) by (exists G; split; [exact HG|intros t; rewrite E2; apply draws_valid; exact Fc]).
  destruct (sample_levels rnd score argsort nq tq chunk p ls grp n N opt local (draws cs) HP Hn VD Hopt Hg) as (p' & ES).
  rewrite <- HG' in ES. set (Ts := map (fun t => level_traj (p_bounds p) n G (draws cs t) grp) (seq 0 N)) in *.
  assert (LT : length Ts = N) by (unfold Ts; rewrite map_length, seq_length; reflexivity).
  set (v := map (fun j => (lower (p_bounds p) j, upper (p_bounds p) j)) (seq 0 (length (p_bounds p)))).
  assert (SV : scaler (p_bounds p) v).
  { split; [unfold v; rewrite map_length, seq_length; reflexivity|]. intros j J. unfold v. rewrite nth_error_map_seq. apply Nat.ltb_lt in J. rewrite J. reflexivity. }
  assert (FT : Forall (trajectory ls (fun j => step (2 * n) * ranges (p_bounds p) j)%R) Ts).
  { apply Forall_forall. intros T IT. unfold Ts in IT. apply in_map_iff in IT as (t & <- & _). rewrite HG'.
    apply (level_trajectory (p_bounds p) ls n grp ltac:(lia) Hn Hg v); [exact SV|rewrite <- HG'; apply HO|apply draws_valid; exact Fc]. }
  destruct HQ as (Q1 & Q2). destruct (levels_facts (2 * n) ltac:(lia)) as (_ & _ & ST).
  destruct (effects_reported nq q ls (fun j => step (2 * n) * ranges (p_bounds p) j)%R Ts (map (map f) Ts) conf_level (2 * n) resample)
    as (E & out & EA & SU & EF); auto; try lia.
  { destruct Ts; [cbn in LT; lia|discriminate]. }
  { split; [exact FT|]. clear. induction Ts as [|T l IH]; constructor; [apply map_length|exact IH]. }
  { intros j J. destruct (good_box_nth (p_bounds p) j HGB ltac:(lia)) as [_ Hlt]. unfold ranges. apply Rmult_lt_0_compat; lra. }
  { rewrite LT. exact HR. }
  exists p', (mkMat (p_num_vars p) (concat Ts)), out. split; [exact ES|]. cbn [rows]. split.
  { rewrite concat_map, <- Q2. exact EA. }
  intros js Hjs. destruct SU as ((NDn & INn & _) & _ & _ & _ & _ & SU).
  assert (IX : In x (m_names out)).
  { apply INn. apply pd_unique_In. eapply nth_error_In; eauto. }
  apply In_nth_error in IX as (k & Ek). exists k. split; [exact Ek|].
  destruct (SU k x js Ek Hjs) as (U1 & U2 & U3 & _). rewrite LT in *.
  assert (EE : forall i j, i < N -> In j js -> E i j = grid_effect (p_bounds p) ls n f x j (before n grp (orders i) kx (nth i cs []))).
  { intros i j I J. apply Hjs in J. assert (JL : j < length ls) by (eapply nth_error_Some_lt; eauto). symmetry. apply (EF i j); auto.
    assert (NT : nth i Ts [] = level_traj (p_bounds p) n G (draws cs i) grp).
    { apply nth_error_nth. unfold Ts. rewrite nth_error_map_seq. apply Nat.ltb_lt in I. rewrite I. reflexivity. }
    assert (NY : nth i (map (map f) Ts) [] = map f (level_traj (p_bounds p) n G (draws cs i) grp)).
    { rewrite <- NT. change (@nil R) with (map f []). apply map_nth. }
    rewrite NT, NY, HG'. apply (eff_row (p_bounds p) ls n f grp HGB ltac:(lia) Hn Hg (orders i) kx x j); auto.
    - rewrite <- HG'. apply HO.
    - rewrite HL. rewrite Forall_forall in Fc. apply Fc, nth_In. lia. }
  assert (M1 : forall g : R -> R, map (fun j => mean (map (fun i => g (E i j)) (seq 0 N))) js
    = map (fun j => mean (map (fun i => g (grid_effect (p_bounds p) ls n f x j (before n grp (orders i) kx (nth i cs [])))) (seq 0 N))) js).
  { intros g. apply map_ext_in. intros j J. f_equal. apply map_ext_in. intros i I. apply in_seq in I. rewrite EE by (auto; lia). reflexivity. }
  split; [|split].
  - rewrite U1. do 3 f_equal. apply (M1 (fun e => e)).
  - rewrite U2. do 3 f_equal. apply (M1 Rabs).
  - intros j ->. rewrite (U3 j eq_refl). do 2 f_equal. apply map_ext_in. intros i I. apply in_seq in I. apply EE; [lia|left; reflexivity].
Qed.

Lemma label_index : forall x, In x ls -> exists kx, nth_error (pd_unique ls) kx = Some x.
Proof. intros x I. apply In_nth_error. apply pd_unique_In. exact I. Qed.
Lemma choices_possible : forall cs, Forall (possible (choices n D)) cs -> Forall (choice_of n D) cs.
Proof.
  intros cs F. eapply Forall_impl; [|exact F]. intros c P. apply possible_uniform in P as (L & H). split; [exact L|].
  intros [b s] I. apply H in I. apply in_prod_iff in I as (_ & I). apply in_seq in I. cbn [snd]. lia.
Qed.

Theorem unbiased : forall x js, In x ls -> members_of ls x js -> exists mu mu_star : list (list (bool * nat)) -> R,
  (forall cs, length cs = N -> Forall (choice_of n D) cs -> exists p' X out k, sampled cs = (p', Ok (InPlace X)) /\
     snd (morris_analyze nq q X (map f (rows X)) conf_level false (2 * n) resample) = Ok out /\ nth_error (m_names out) k = Some x /\
     nth_error (m_mu out) k = Some (Some (mu cs)) /\ nth_error (m_mu_star out) k = Some (Some (mu_star cs))) /\
  expect_points N (choices n D) mu = mean (map (fun j => expect (grid_law (2 * n) D) (grid_effect (p_bounds p) ls n f x j)) js) /\
  expect_points N (choices n D) mu_star
  = expect (grid_law (2 * n) D) (fun z => (Rabs (f (grid_point (p_bounds p) (2 * n) (stepped ls n x z)) - f (grid_point (p_bounds p) (2 * n) z)) / step (2 * n))%R).
Proof.
  intros x js IX HJ. destruct (label_index x IX) as (kx & Hk). destruct (reported x kx Hk) as (grp & Hg & REP).
  set (E := fun j i c => grid_effect (p_bounds p) ls n f x j (before n grp (orders i) kx c)).
  assert (CP := choices_probability n D Hn).
  assert (J0 : js <> []).
  { intros ->. apply In_nth_error in IX as (j & Hj). apply (proj2 (proj2 HJ j) Hj). }
  assert (JL : INR (length js) <> 0%R) by (apply not_0_INR; destruct js; [congruence|cbn; lia]).
  exists (fun cs => mean (map (fun j => mean (map (fun i => E j i (nth i cs [])) (seq 0 N))) js)),
    (fun cs => mean (map (fun j => mean (map (fun i => Rabs (E j i (nth i cs []))) (seq 0 N))) js)).
  split; [|split].
  - intros cs Lc Fc. destruct (REP cs Lc Fc) as (p' & X & out & R1 & R2 & R3). destruct (R3 js HJ) as (k & K1 & K2 & K3 & _).
    exists p', X, out, k. repeat split; assumption.
  - rewrite (points_ext N _ _ (fun cs => (/ INR (length js) * Rsum (map (fun j => mean (map (fun i => E j i (nth i cs [])) (seq 0 N))) js))%R)).
    + rewrite points_scal, (points_Rsum _ _ N (choices n D) (fun j cs => mean (map (fun i => E j i (nth i cs [])) (seq 0 N)))).
      unfold mean at 2. rewrite map_length. unfold Rdiv. rewrite Rmult_comm. f_equal. apply Rsum_ext. intros j _.
      apply points_means; auto. intros i. unfold E, before. apply (choice_law n D _ (grid_effect (p_bounds p) ls n f x j)). exact Hn.
    + intros cs _. unfold mean at 1. rewrite map_length. unfold Rdiv. ring.
  - rewrite (points_ext N _ _ (fun cs => (/ INR (length js) * Rsum (map (fun j => mean (map (fun i => Rabs (E j i (nth i cs []))) (seq 0 N))) js))%R)).
    + rewrite points_scal, (points_Rsum _ _ N (choices n D) (fun j cs => mean (map (fun i => Rabs (E j i (nth i cs []))) (seq 0 N)))).
      rewrite (Rsum_ext _ _ (fun _ => expect (grid_law (2 * n) D) (fun z => (Rabs (f (grid_point (p_bounds p) (2 * n) (stepped ls n x z)) - f (grid_point (p_bounds p) (2 * n) z)) / step (2 * n))%R))).
      * rewrite Rsum_const. field. exact JL.
      * intros j _. apply (points_means _ N (choices n D) (fun i c => Rabs (E j i c))); auto. intros i. unfold E, before.
        rewrite (choice_law n D _ (fun z => Rabs (grid_effect (p_bounds p) ls n f x j z)) Hn). apply expect_ext. intros z _.
        destruct (levels_facts (2 * n) ltac:(lia)) as (_ & _ & ST).
        unfold grid_effect, Rdiv. rewrite Rabs_mult, (Rabs_right (/ step (2 * n))) by (apply Rle_ge; left; apply Rinv_0_lt_compat; lra). f_equal.
        destruct (nth j z 0 <? n); [reflexivity|apply Rabs_minus_sym].
    + intros cs _. unfold mean at 1. rewrite map_length. unfold Rdiv. ring.
Qed.

Theorem unbiased_spread : forall x j, members_of ls x [j] -> 2 <= N -> exists sigma : list (list (bool * nat)) -> R,
  (forall cs, length cs = N -> Forall (choice_of n D) cs -> exists p' X out k, sampled cs = (p', Ok (InPlace X)) /\
     snd (morris_analyze nq q X (map f (rows X)) conf_level false (2 * n) resample) = Ok out /\ nth_error (m_names out) k = Some x /\
     nth_error (m_sigma out) k = Some (Some (sigma cs))) /\
  expect_points N (choices n D) (fun cs => (sigma cs ^ 2)%R) = variance (grid_law (2 * n) D) (grid_effect (p_bounds p) ls n f x j).
Proof.
  intros x j HJ N2. assert (IX : In x ls) by (eapply nth_error_In, (proj2 HJ j); left; reflexivity).
  destruct (label_index x IX) as (kx & Hk). destruct (reported x kx Hk) as (grp & Hg & REP).
  set (E := fun i c => grid_effect (p_bounds p) ls n f x j (before n grp (orders i) kx c)).
  assert (CP := choices_probability n D Hn). assert (GP : Forall probability (grid_law (2 * n) D)) by (apply grid_probability; lia).
  set (l := fun cs => map (fun i => E i (nth i cs [])) (seq 0 N)).
  assert (LL : forall cs, length (l cs) = N) by (intros; unfold l; rewrite map_length, seq_length; reflexivity).
  assert (N0 : INR N <> 0%R) by (apply not_0_INR; lia). assert (N1 : INR (N - 1) <> 0%R) by (apply not_0_INR; lia).
  exists (fun cs => sqrt (Rsum (map (fun e => ((e - mean (l cs)) ^ 2)%R) (l cs)) / INR (N - 1))). split.
  - intros cs Lc Fc. destruct (REP cs Lc Fc) as (p' & X & out & R1 & R2 & R3). destruct (R3 [j] HJ) as (k & K1 & _ & _ & K4).
    exists p', X, out, k. repeat split; try assumption. rewrite (K4 j eq_refl). fold (E). change (map (fun i => grid_effect (p_bounds p) ls n f x j (before n grp (orders i) kx (nth i cs []))) (seq 0 N)) with (l cs).
    unfold sd1. rewrite LL. assert (N <? 2 = false) as -> by (apply Nat.ltb_ge; lia). reflexivity.
  - rewrite (points_ext N _ _ (fun cs => (/ INR (N - 1) * (Rsum (map (fun i => (E i (nth i cs []) ^ 2)%R) (seq 0 N)) - / INR N * Rsum (l cs) ^ 2))%R)).
    + assert (Em : forall i, expect (choices n D) (E i) = expect (grid_law (2 * n) D) (grid_effect (p_bounds p) ls n f x j)).
      { intros i. unfold E, before. apply (choice_law n D _ (grid_effect (p_bounds p) ls n f x j)). exact Hn. }
      assert (Eq : forall i, expect (choices n D) (fun c => (E i c ^ 2)%R) = expect (grid_law (2 * n) D) (fun z => (grid_effect (p_bounds p) ls n f x j z ^ 2)%R)).
      { intros i. unfold E, before. apply (choice_law n D _ (fun z => (grid_effect (p_bounds p) ls n f x j z ^ 2)%R)). exact Hn. }
      rewrite points_scal, points_minus, points_scal. unfold l.
      rewrite (points_sums _ N (choices n D) (fun i c => (E i c ^ 2)%R) _ CP Eq), (points_squares _ N (choices n D) E _ _ CP Em Eq).
      rewrite variance_alt by assumption. rewrite minus_INR in * by lia. cbn [INR] in *. field. split; assumption.
    + intros cs _. assert (NE : l cs <> []) by (intros Q; pose proof (LL cs) as L; rewrite Q in L; cbn in L; lia).
      rewrite <- Rsqr_pow2, Rsqr_sqrt.
      * rewrite deviations by assumption. rewrite LL. unfold Rdiv. rewrite Rmult_comm. do 2 f_equal. unfold l. rewrite map_map. reflexivity.
      * apply Rmult_le_pos; [apply Rsum_nonneg; intros z Z; apply in_map_iff in Z as (e & <- & _); apply pow2_ge_0|].
        left. apply Rinv_0_lt_compat, lt_0_INR. lia.
Qed.
End Whole.

(** An odd number of levels: the middle level is not sampled. *)
Theorem odd_middle : forall rnd score argsort nq tq chunk p ls n N opt local draws p' X,
  morris_problem p ls -> 1 <= n -> valid_draws ls (2 * n + 1) draws -> opt = None \/ opt = Some 0%Z ->
  morris_sample rnd score argsort nq tq chunk p N (2 * n + 1) opt local draws = (p', Ok (InPlace X)) ->
  forall x j, In x (rows X) -> j < p_num_vars p ->
    nth_error x j <> Some (lower (p_bounds p) j + INR n / (INR (2 * n + 1) - 1) * ranges (p_bounds p) j)%R.
Proof.
  intros rnd score argsort nq tq chunk p ls n N opt local draws p' X HP Hn Hd Ho ES x j IX J.
  destruct (morris_sample_plain rnd score argsort nq tq chunk p ls N (2 * n + 1) opt local draws HP ltac:(lia) Hd Ho)
    as (q & v & Ts & (Lv & Hv) & EM & LT & _ & _ & EX).
  rewrite EX in ES. injection ES as _ <-. cbn [rows] in IX. destruct HP as (Hls & HL & Hp & HB & HGB & _).
  apply in_map_iff in IX as (y & <- & IY). rewrite to_physical_nth, (Hv j) by lia.
  destruct (nth_error y j) as [a|] eqn:Ea; [|discriminate]. intros Q.
  assert (SI : forall u w : R, Some u = Some w -> u = w) by (intros u w H; congruence). apply SI in Q.
  unfold sample_morris in EM. destruct (compute_groups_matrix_total ls) as [m Hm]. rewrite Hm in EM. cbn [bind fst snd] in EM.
  destruct Hd as (G & HG & Hd). apply distinct_count_unique in HG.
  destruct (mapM _ _) as [Ts'|] eqn:ET in EM; [|discriminate]. cbn [bind] in EM. injection EM as EM.
  rewrite <- EM in IY. apply in_concat in IY as (T & IT & IY). destruct (In_nth_error _ _ IT) as (t & Ht).
  assert (TN : t < N).
  { apply nth_error_Some_lt in Ht. rewrite (mapM_Ok_length _ _ ET), seq_length in Ht. exact Ht. }
  assert (Hs : nth_error (seq 0 N) t = Some t) by (rewrite nth_error_seq; apply Nat.ltb_lt in TN; rewrite TN; reflexivity).
  destruct (mapM_Ok_nth _ _ t ET (x := t) Hs) as (T' & ET' & HT'). rewrite Ht in HT'. injection HT' as <-.
  destruct (generate_trajectory_eq ls m (pd_unique ls) (2 * n + 1) (draws t) ltac:(lia) Hm) as (grp & Hg & E).
  { rewrite <- HG. apply Hd. }
  rewrite E in ET'. injection ET' as <-. apply in_map_iff in IY as (i & <- & _). rewrite nth_error_map_seq in Ea.
  destruct (j <? length ls); [|discriminate]. apply SI in Ea. subst a.
  destruct (Hd t) as (_ & St). pose proof (grid_range (2 * n + 1) (t_start (draws t) j) ltac:(lia) (St j)) as (G1 & G2).
  destruct (good_box_nth (p_bounds p) j HGB ltac:(lia)) as [_ Hlt].
  assert (NR : (1 <= INR n)%R) by (change 1%R with (INR 1); apply le_INR; auto).
  assert (ST : step (2 * n + 1) = (1 / 2 + / (4 * INR n))%R).
  { unfold step. rewrite plus_INR, mult_INR. cbn [INR]. field. lra. }
  assert (P4 : (0 < / (4 * INR n))%R) by (apply Rinv_0_lt_compat; lra).
  assert (MID : (INR n / (INR (2 * n + 1) - 1) = 1 / 2)%R).
  { rewrite plus_INR, mult_INR. cbn [INR]. field. lra. }
  rewrite MID in Q. unfold ranges in Q. unfold traj_point in Q.
  assert (Q2 : (grid_value (2 * n + 1) (t_start (draws t) j) + (if Bool.eqb (nth (grp j) (t_perm (draws t)) 0%nat <? i)%nat (t_up (draws t) j) then step (2 * n + 1) else 0) = 1 / 2)%R).
  { change (n + (n + 0) + 1)%nat with (2 * n + 1)%nat in Q. apply (Rmult_eq_reg_r (upper (p_bounds p) j - lower (p_bounds p) j)); lra. }
  destruct (Bool.eqb _ _); lra.
Qed.
