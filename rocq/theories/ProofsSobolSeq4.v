(** * Planes and orthants of the Sobol' sequence, and of the Saltelli sampler on top of it. *)
From Coq Require Import Reals List Arith NArith ZArith Bool Lia Lra.
From Verif Require Import Base Arrays ModelGroups ModelScale ModelSobol SpecSobol ProofsSobol6
  ModelSobolSeq SpecSobolSeq ProofsSobolSeq ProofsSobolSeq2 ProofsSobolSeq3.
Import ListNotations.
Local Open Scope nat_scope.

Lemma plane_net : forall L k1 k2, L <= 31 -> k1 + k2 <= L -> net_ok directions L [(0, k1); (1, k2)] = true.
Proof.
  intros L k1 k2 HL HK. pose proof planes as P. rewrite forallb_forall in P. specialize (P L ltac:(apply in_seq; lia)).
  unfold plane_ok in P. rewrite forallb_forall in P. specialize (P k1 ltac:(apply in_seq; lia)).
  rewrite forallb_forall in P. apply P. apply in_seq. lia.
Qed.
Lemma orthant_net : forall L E, L <= 31 -> E <= L -> net_ok directions L (map (fun d => (d, 1)) (seq 0 E)) = true.
Proof.
  intros L E HL HE. pose proof orthants as P. rewrite forallb_forall in P. specialize (P L ltac:(apply in_seq; lia)).
  unfold orthant_ok in P. rewrite forallb_forall in P. apply P. apply in_seq. lia.
Qed.

Lemma bits_ge : forall bits N m q, enough_bits bits N -> (q + 1) * 2 ^ m <= N -> m <= bits N.
Proof. intros bits N m q HB Hq. unfold enough_bits in HB. apply Nat.pow_le_mono_r_iff with 2; [lia|]. nia. Qed.

Lemma sequence_plane : forall N D bits rs, enough_bits bits N -> sequence_sample bits directions N D = Ok rs ->
  forall k1 k2 q i1 i2, 2 <= D -> (q + 1) * 2 ^ (k1 + k2) <= N -> i1 < 2 ^ k1 -> i2 < 2 ^ k2 ->
  one_in_box rs (q * 2 ^ (k1 + k2)) (2 ^ (k1 + k2)) [(0, k1, i1); (1, k2, i2)].
Proof.
  intros N D bits rs HB H k1 k2 q i1 i2 HD Hq H1 H2.
  pose proof (sequence_boxes directions N D bits rs directions_good HB H [(0, k1, i1); (1, k2, i2)] q) as S. cbn [map fst snd total fold_right] in S.
  rewrite Nat.add_0_r in S. apply S.
  - apply plane_net; [|eapply bits_ge; eassumption]. destruct (sequence_columns directions N D bits rs directions_good HB H) as (B & _). exact B.
  - intros d k i [E|[E|[]]]; injection E as <- <- <-; lia.
  - assumption.
Qed.

Lemma total_ones : forall (h : nat -> nat) l, total (map snd (map fst (map (fun d => (d, 1, h d)) l))) = length l.
Proof. induction l as [|a l IH]; [reflexivity|]. cbn [map fst snd total fold_right length]. unfold total in IH. rewrite IH. reflexivity. Qed.

Lemma sequence_orthant : forall N D bits rs, enough_bits bits N -> sequence_sample bits directions N D = Ok rs ->
  forall E q (h : nat -> nat), E <= D -> (q + 1) * 2 ^ E <= N -> (forall d, h d < 2) ->
  one_in_box rs (q * 2 ^ E) (2 ^ E) (map (fun d => (d, 1, h d)) (seq 0 E)).
Proof.
  intros N D bits rs HB H E q h HE Hq Hh.
  pose proof (sequence_boxes directions N D bits rs directions_good HB H (map (fun d => (d, 1, h d)) (seq 0 E)) q) as S. cbv zeta in S.
  rewrite total_ones, seq_length in S. apply S.
  - rewrite map_map. cbn [fst]. apply orthant_net; [|eapply bits_ge; eassumption]. destruct (sequence_columns directions N D bits rs directions_good HB H) as (B & _). exact B.
  - intros d k i I. apply in_map_iff in I. destruct I as (d' & X & I). injection X as <- <- <-. apply in_seq in I. split; [lia|]. apply (Hh d').
  - assumption.
Qed.

(** ** Quarters in four dimensions *)
Lemma quarters : exists rs, sequence_sample Nat.log2_up directions 256 4 = Ok rs /\
  ~ one_in_box rs 0 256 [(0, 2, 0); (1, 2, 0); (2, 2, 0); (3, 2, 0)].
Proof.
  assert (HB : enough_bits Nat.log2_up 256) by (vm_compute; lia).
  destruct (proj1 (proj1 (sequence_total directions 256 4 Nat.log2_up directions_good HB))) as (rs & H).
  { split; [lia|]. split; [pose proof directions_length; lia|]. vm_compute. lia. }
  exists rs. split; [assumption|].
  destruct (sequence_columns_V directions 256 4 Nat.log2_up rs directions_good HB H) as (_ & _ & _ & Vs & HV & ->).
  intros (s & _ & _ & U).
  assert (RW : forall j, j < 256 -> nth_error (tab 256 4 (fun r c => to_unit (point (Vs c) r))) j = Some (map (fun c => to_unit (point (Vs c) j)) (seq 0 4))).
  { intros j Hj. unfold tab. rewrite nth_error_map_seq, (proj2 (Nat.ltb_lt _ _) Hj). reflexivity. }
  assert (Q : forall j, j = 0 \/ j = 216 -> in_box (map (fun c => to_unit (point (Vs c) j)) (seq 0 4)) [(0, 2, 0); (1, 2, 0); (2, 2, 0); (3, 2, 0)]).
  { assert (P : forall d j, d < 4 -> j = 0 \/ j = 216 -> N.shiftr (point (Vs d) j) (31 - N.of_nat 2) = N.of_nat 0).
    { intros d j Hd Hj. destruct (HV d Hd) as (_ & E). change (Nat.log2_up 256) with 8 in E.
      assert (C : match dimension_V directions 8 d with Ok V => N.shiftr (point V j) 29 = 0%N | Err _ => True end).
      { destruct d as [|[|[|[|d]]]]; [| | | |lia]; destruct Hj as [-> | ->]; vm_compute; reflexivity. }
      rewrite E in C. exact C. }
    intros j Hj d k i I. assert (X : d < 4 /\ k = 2 /\ i = 0) by (cbn in I; repeat (destruct I as [I|I]; [injection I as <- <- <-; lia|]); destruct I).
    destruct X as (Hd & -> & ->). exists (to_unit (point (Vs d) j)). split.
    - rewrite nth_error_map, nth_error_seq. destruct (Nat.ltb_spec d 4); [reflexivity|lia].
    - apply stratum_iff; [lia|]. apply P; assumption. }
  assert (A0 : 0 = s) by (eapply U; [lia|apply RW; lia|apply Q; left; reflexivity]).
  assert (A1 : 216 = s) by (eapply U; [lia|apply RW; lia|apply Q; right; reflexivity]).
  lia.
Qed.

(** ** The Saltelli sampler *)
Lemma saltelli_plane : forall bits nq tq p k1 k2 second s seqs,
  let N := 2 ^ (k1 + k2) in
  saltelli_skip N None = Ok s ->
  enough_bits bits (N + s) -> sequence_sample bits directions (N + s) (2 * p_num_vars p) = Ok (seqs (N + s)) ->
  labelled p -> p_dists p = None -> 2 <= p_num_vars p ->
  length (p_bounds p) = p_num_vars p -> good_box (p_bounds p) ->
  exists p' m G, saltelli_sample nq tq seqs p N second None = (p', Ok (InPlace m)) /\ group_count p G /\
    forall lo0 up0 lo1 up1 i1 i2, nth_error (p_bounds p) 0 = Some [lo0; up0] -> nth_error (p_bounds p) 1 = Some [lo1; up1] -> i1 < 2 ^ k1 -> i2 < 2 ^ k2 ->
      let inside t := exists x y, entry (rows m) (t * block_size G second) 0 = Some x /\ entry (rows m) (t * block_size G second) 1 = Some y /\
        (lo0 + INR i1 / INR (2 ^ k1) * (up0 - lo0) <= x < lo0 + (INR i1 + 1) / INR (2 ^ k1) * (up0 - lo0))%R /\
        (lo1 + INR i2 / INR (2 ^ k2) * (up1 - lo1) <= y < lo1 + (INR i2 + 1) / INR (2 ^ k2) * (up1 - lo1))%R in
      exists t, t < N /\ inside t /\ forall t', t' < N -> inside t' -> t' = t.
Proof.
  intros bits nq tq p k1 k2 second s seqs N Hs HB Hq HL Hd Hn HBl HG. set (k := k1 + k2) in *.
  destruct (sequence_range _ _ _ _ _ directions_good HB Hq) as (Lrs & Wrs & _).
  assert (PB : proper_base (seqs (N + s)) (seq s N) p).
  { intros i Hi. apply in_seq in Hi. destruct (nth_error_lt_Some (seqs (N + s)) (i:=i)) as [b Eb]; [lia|].
    exists b. split; auto. rewrite Forall_forall in Wrs. apply Wrs. eapply nth_error_In; eauto. }
  destruct (saltelli_public nq tq seqs p N second None s Hs HL Hd ltac:(lia) HBl HG PB)
    as (p' & m & G & E & HGc & Lm & Wm & Hlay).
  exists p', m, G. split; auto. split; auto.
  assert (P0 : 0 < N) by (apply Nat.neq_0_lt_0, Nat.pow_nonzero; lia).
  assert (Hal : exists q, s = q * N).
  { unfold saltelli_skip in Hs. rewrite (proj2 (Nat.eqb_neq _ _)) in Hs by lia. injection Hs as <-. unfold N.
    rewrite Nat.log2_up_pow2 by lia. change 16 with (2 ^ 4).
    destruct (Nat.le_gt_cases k 4).
    - exists (2 ^ (4 - k)). rewrite <- Nat.pow_add_r, Nat.max_r by (apply Nat.pow_le_mono_r; lia). f_equal. lia.
    - exists 1. rewrite Nat.max_l by (apply Nat.pow_le_mono_r; lia). lia. }
  destruct Hal as [q Hq0].
  assert (Rows : forall t, t < N -> exists a b a',
    nth_error (seqs (N + s)) (s + t) = Some (a ++ b) /\ length a = p_num_vars p /\
    physical (p_bounds p) a a' /\ nth_error (rows m) (t * block_size G second) = Some a').
  { intros t Ht. destruct (PB (s + t)) as (r & Er & Lr); [apply in_seq; lia|].
    destruct (split_row _ r _ Lr) as (a & b & -> & La & Lb).
    destruct (Hlay t a b Ht Er La Lb) as (a' & b' & Pa & Pb & Q0 & Q1 & _).
    exists a, b, a'. do 3 (split; auto).
    assert (0 < block_size G second) by (unfold block_size; destruct second; lia).
    rewrite (proj2 (Nat.ltb_lt _ _)) in Q0 by lia. rewrite Nat.add_0_r in Q0. auto. }
  intros lo0 up0 lo1 up1 i1 i2 E0 E1 H1 H2 inside.
  assert (LU : forall j lo up, nth_error (p_bounds p) j = Some [lo; up] -> (lo < up)%R).
  { intros j lo up Hj. unfold good_box in HG. rewrite Forall_forall in HG.
    destruct (HG _ (nth_error_In _ _ Hj)) as (l & u & El & Hlt). injection El as -> ->. auto. }
  assert (I : forall t, t < N -> (inside t <-> exists row, nth_error (seqs (N + s)) (s + t) = Some row /\ in_box row [(0, k1, i1); (1, k2, i2)])).
  { intros t Ht. destruct (Rows t Ht) as (a & b & a' & Er & La & Pa & Ra).
    destruct (nth_error_lt_Some a (i:=0)) as [x Ex]; [lia|]. destruct (nth_error_lt_Some a (i:=1)) as [y Ey]; [lia|].
    pose proof (proj2 Pa 0 x lo0 up0 Ex E0) as Ex'. pose proof (proj2 Pa 1 y lo1 up1 Ey E1) as Ey'.
    unfold inside. split.
    - intros (x' & y' & Hx & Hy & Bx & By). unfold entry in Hx, Hy. rewrite Ra in Hx, Hy.
      assert (x' = (lo0 + x * (up0 - lo0))%R) by congruence. assert (y' = (lo1 + y * (up1 - lo1))%R) by congruence. subst x' y'.
      apply scaled_stratum in Bx; [|eapply LU; eassumption]. apply scaled_stratum in By; [|eapply LU; eassumption].
      exists (a ++ b). split; [assumption|]. intros d kk i [X|[X|[]]]; injection X as <- <- <-; [exists x|exists y]; (split; [|assumption]);
        rewrite nth_error_app1 by lia; assumption.
    - intros (row & Hr & B). rewrite Er in Hr. injection Hr as <-.
      destruct (B 0 k1 i1 (or_introl eq_refl)) as (x1 & X1 & B1). destruct (B 1 k2 i2 (or_intror (or_introl eq_refl))) as (y1 & Y1 & B2).
      rewrite nth_error_app1 in X1, Y1 by lia. assert (x1 = x) by congruence. assert (y1 = y) by congruence. subst x1 y1.
      exists (lo0 + x * (up0 - lo0))%R, (lo1 + y * (up1 - lo1))%R. unfold entry. rewrite Ra. do 2 (split; [assumption|]).
      split; apply scaled_stratum; try assumption; eapply LU; eassumption. }
  destruct (sequence_plane (N + s) (2 * p_num_vars p) bits (seqs (N + s)) HB Hq k1 k2 q i1 i2 ltac:(lia) ltac:(fold k; fold N; lia) H1 H2) as (r & Hr & (row & Er & Br) & U).
  fold k in Hr, U. fold N in Hr, U. rewrite <- Hq0 in Hr, U.
  exists (r - s). split; [lia|]. split.
  - apply I; [lia|]. exists row. replace (s + (r - s)) with r by lia. split; assumption.
  - intros t' Ht' It'. apply I in It'; [|assumption]. destruct It' as (row' & Er' & Br'). assert (s + t' = r); [|lia]. eapply U; [lia|eassumption|assumption].
Qed.
