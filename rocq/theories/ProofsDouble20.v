(** * The Morris analysis in double precision: the statements. *)
From Coq Require Import Reals String List Arith ZArith Bool Lia Lra Permutation.
From Flocq Require Import Core.
From Verif Require Import Base Arrays ModelGroups ModelScale SpecGroups Stats ModelFast ModelMorris ModelMorrisAnalyze SpecMorris
  ModelDouble ModelDouble2 ModelDouble4 ModelDouble5 SpecDouble3 ProofsDouble ProofsDouble8 ProofsDouble9 ProofsDouble10 ProofsDouble14 ProofsDouble15 ProofsDouble16 ProofsDouble17 ProofsDouble18 ProofsDouble19.
Import ListNotations.
Local Open Scope nat_scope.

Lemma total : forall S nq p ls G N X Y cl scaled levels resample, proper p ls G N X Y -> levels <> 1 -> (0 < cl < 1)%R ->
  exists out, snd (morris_analyze_fl S nq p X Y cl scaled levels resample) = Ok out /\ length (m_names out) = G.
Proof.
  intros S nq p ls G N X Y cl scaled levels resample (H1 & H2 & H3 & H4 & H5 & H6 & H7 & H8) Hl Hc.
  destruct (shaped S nq p ls G N X Y cl scaled levels resample) as (p1 & m & Em & EG & Lm & E); auto. cbv zeta in E. rewrite E. eexists. split; [reflexivity|]. cbn. auto.
Qed.
Lemma flat_group : forall S nq p ls G N X Y cl scaled levels resample out k x, proper p ls G N X Y -> levels <> 1 -> (0 < cl < 1)%R ->
  snd (morris_analyze_fl S nq p X Y cl scaled levels resample) = Ok out -> nth_error (m_names out) k = Some x ->
  arrangement (s_einsum S) -> (forall y, In y Y -> double y) ->
  (forall j, nth_error ls j = Some x -> one_move (G + 1) (rows X) j /\ flat N (G + 1) (rows X) Y j) ->
  forall v, nth_error (m_mu out) k = Some (Some v) \/ nth_error (m_mu_star out) k = Some (Some v) \/ nth_error (m_sigma out) k = Some (Some v) \/ nth_error (m_conf out) k = Some (Some v) -> v = 0%R.
Proof.
  intros S nq p ls G N X Y cl scaled levels resample out k x (H1 & H2 & H3 & H4 & H5 & H6 & H7 & H8) Hl Hc Ho Hk A D H.
  eapply (flat_zero S nq p ls G N X Y cl scaled levels resample out k x); eauto; intros j J; apply H; auto.
Qed.
Lemma rising_group : forall S nq p ls G N X Y cl scaled levels resample out k x, proper p ls G N X Y -> levels <> 1 -> (0 < cl < 1)%R ->
  snd (morris_analyze_fl S nq p X Y cl scaled levels resample) = Ok out -> nth_error (m_names out) k = Some x ->
  arrangement (s_einsum S) -> (forall y, In y Y -> double y) ->
  (forall j, nth_error ls j = Some x -> one_move (G + 1) (rows X) j /\ rises N (G + 1) (rows X) Y j) ->
  nth_error (m_mu out) k = nth_error (m_mu_star out) k.
Proof.
  intros S nq p ls G N X Y cl scaled levels resample out k x (H1 & H2 & H3 & H4 & H5 & H6 & H7 & H8) Hl Hc Ho Hk A D H.
  eapply (rising S nq p ls G N X Y cl scaled levels resample out k x); eauto; intros j J; apply H; auto.
Qed.
Lemma falling_group : forall S nq p ls G N X Y cl scaled levels resample out k x, proper p ls G N X Y -> levels <> 1 -> (0 < cl < 1)%R ->
  snd (morris_analyze_fl S nq p X Y cl scaled levels resample) = Ok out -> nth_error (m_names out) k = Some x ->
  arrangement (s_einsum S) -> (forall y, In y Y -> double y) ->
  (forall j, nth_error ls j = Some x -> one_move (G + 1) (rows X) j /\ falls N (G + 1) (rows X) Y j) ->
  nth_error (m_mu_star out) k = option_map (times (-1)) (nth_error (m_mu out) k).
Proof.
  intros S nq p ls G N X Y cl scaled levels resample out k x (H1 & H2 & H3 & H4 & H5 & H6 & H7 & H8) Hl Hc Ho Hk A D H.
  eapply (falling S nq p ls G N X Y cl scaled levels resample out k x); eauto; intros j J; apply H; auto.
Qed.
Lemma unit_group : forall e S nq p ls G N X Y cl levels resample, proper p ls G N X Y -> (0 < cl < 1)%R ->
  2 <= levels -> (Z.of_nat levels <= 2 ^ 52)%Z -> (Z.of_nat N <= 2 ^ 53)%Z -> (Z.of_nat (p_num_vars p) <= 2 ^ 53)%Z ->
  (forall j, (Z.of_nat (length (resample j)) <= 2 ^ 53)%Z /\ forall idx, In idx (resample j) -> (Z.of_nat (length idx) <= 2 ^ 53)%Z) ->
  (let z := nq (fl (/ 2 + fl (cl / 2))) in z = 0 \/ powerRZ 2 (-100) <= Rabs z)%R ->
  let c := powerRZ 2 e in
  (forall y, In y Y -> not_tiny y /\ not_tiny (c * y)%R) ->
  snd (morris_analyze_fl S nq p X (map (Rmult c) Y) cl false levels resample) =
  match snd (morris_analyze_fl S nq p X Y cl false levels resample) with
  | Ok o => Ok (mkMorris (m_names o) (map (times c) (m_mu o)) (map (times c) (m_mu_star o)) (map (times c) (m_sigma o)) (map (times c) (m_conf o)))
  | Err e => Err e
  end.
Proof.
  intros e S nq p ls G N X Y cl levels resample (H1 & H2 & H3 & H4 & H5 & H6 & H7 & H8) Hc L1 L2 N2 V2 R2 Z c H. unfold c in *. rewrite (powerRZ_2 e) in *. apply (power_of_two e S nq p ls G N); auto.
Qed.

Lemma tenth_not_tiny : not_tiny tenth.
Proof.
  split; [apply tenth_double|right]. rewrite powerRZ_2. rewrite Rabs_pos_eq by (unfold tenth; apply fl_pos; lra). apply Rle_trans with (bpow radix2 (-4)); [apply bpow_le; lia|].
  unfold tenth. apply fl_ge; [apply generic_format_FLT_bpow; [reflexivity|lia]|]. change (bpow radix2 (-4)) with (/ 16)%R. lra.
Qed.
Lemma sigma_refuted : ~ (forall S nq p N X Y b cl resample out s,
  arrangement (s_einsum S) -> arrangement (s_along S) -> arrangement (s_over S) -> arrangement (s_within S) -> arrangement (s_again S) ->
  p_num_vars p = 1 -> cols X = 1 -> rows X = concat (repeat [[0%R]; [1%R]] N) -> Y = concat (repeat [0%R; b] N) -> not_tiny b -> (0 < cl < 1)%R ->
  snd (morris_analyze_fl S nq p X Y cl false 2 resample) = Ok out -> m_sigma out = [Some s] -> s = 0%R).
Proof.
  intros H. destruct (six_result (fun _ => 2%R) (/ 2)%R (fun _ => []) ltac:(lra)) as (out & s & E & _ & _ & _ & Es & P).
  assert (Z : s = 0%R) by (eapply (H left_sums (fun _ => 2%R) six_p 6 six_X six_Y tenth (/ 2)%R); eauto using left_arrangement, tenth_not_tiny; lra). lra.
Qed.
Lemma six_at : forall i q, q < 2 -> coord (rows six_X) (i * 2 + q) 0 = (if (i <? 6) && (q =? 1) then 1 else 0)%R /\ nth (i * 2 + q) six_Y 0%R = (if (i <? 6) && (q =? 1) then tenth else 0)%R.
Proof.
  intros i q Q. destruct (Nat.ltb_spec i 6) as [L|L].
  - do 6 (destruct i as [|i]; [destruct q as [|[|q]]; [split; reflexivity|split; reflexivity|lia]|]). lia.
  - cbn [andb]. unfold coord. rewrite (nth_overflow (rows six_X)) by (cbn; lia). rewrite (nth_overflow six_Y) by (cbn; lia). split; reflexivity.
Qed.
Lemma example : proper six_p ["a"%string] 1 6 six_X six_Y /\ one_move 2 (rows six_X) 0 /\ rises 6 2 (rows six_X) six_Y 0 /\
  exists out s, snd (morris_analyze_fl left_sums (fun _ => 2%R) six_p six_X six_Y (/ 2) false 2 (fun _ => [])) = Ok out /\
  m_mu out = [Some (tenth - powerRZ 2 (-56))%R] /\ m_mu_star out = [Some (tenth - powerRZ 2 (-56))%R] /\ m_sigma out = [Some s] /\ (0 < s)%R.
Proof.
  split; [|split; [|split]].
  - split; [apply six_labels|]. split; [apply six_count|]. cbn. repeat split; lia.
  - intros i k k' K K'. lia.
  - intros i k I K. assert (k = 0) by lia. subst k. cbv zeta. cbn [Nat.add]. destruct (six_at i 0 ltac:(lia)) as [-> ->]. destruct (six_at i 1 ltac:(lia)) as [-> ->].
    rewrite (proj2 (Nat.ltb_lt i 6) I). cbn [andb Nat.eqb]. split; [|lra]. intros _. unfold tenth. apply fl_pos. lra.
  - destruct (six_result (fun _ => 2%R) (/ 2)%R (fun _ => []) ltac:(lra)) as (out & s & E & _ & M & Ms & Es & P). exists out, s. rewrite powerRZ_2. auto.
Qed.
