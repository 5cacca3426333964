(** * PAWN in double precision: three equal slices whose mean exceeds their maximum. *)
From Coq Require Import Reals String List Arith ZArith Bool Lia Lra Psatz Permutation.
From Flocq Require Import Core.
From Verif Require Import Base Arrays ListFacts ModelGroups ProofsGroups SpecGroups SpecSobol ModelScale ProofsScale Stats Sums ModelFast ModelMorris ModelMorrisAnalyze Quant ModelPawn SpecPawn
  ModelDouble ModelDouble4 ModelDouble5 ModelSingle ModelLevels ModelPawn2 SpecPawn2 SpecLevels.
From Verif Require Import ProofsMorris7 ProofsPawn ProofsPawn2 ProofsPawn4 ProofsDouble ProofsDouble5 ProofsDouble8 ProofsDouble9 ProofsDouble10 ProofsSingle ProofsSingle2 ProofsLevels ProofsLevels2 ProofsLevels3 ProofsPawn5 ProofsPawn6.
Import ListNotations.
Local Open Scope R_scope.

Definition ten : list R := [0; 1; 2; 3; 4; 5; 6; 7; 8; 9].
Definition ten_X : list (list fval) := map (fun x => [Some x]) ten.
Definition ten_Y : list R := [1; 1; 1; 1; 1; 1; 1; 1; 1; 0].
Definition ten_p : problem := mkProblem 1 ["a"]%string [[0; 9]] None None false.

Ltac rdec := repeat match goal with
  | |- context [Rle_dec ?a ?b] => destruct (Rle_dec a b); try (exfalso; lra)
  | |- context [Rlt_dec ?a ?b] => destruct (Rlt_dec a b); try (exfalso; lra)
  end.
Ltac rdec1 := match goal with
  | |- context [Rle_dec ?a ?b] => let H := fresh in destruct (Rle_dec a b) as [H|H]; try (exfalso; lra); clear H
  | |- context [Rlt_dec ?a ?b] => let H := fresh in destruct (Rlt_dec a b) as [H|H]; try (exfalso; lra); clear H
  end.
Lemma ten_sorted : sortR ten = ten.
Proof. unfold sortR, ten. cbn [fold_right]. repeat (cbn [insertR]; rdec). reflexivity. Qed.

Lemma ten_quantile : forall q, 0 <= q <= 1 -> quantile ten q = 9 * q.
Proof.
  intros q Q. rewrite quantile_interp, ten_sorted. replace (INR (length ten - 1)) with 9 by (simpl; lra). rewrite (Rmult_comm q). unfold interp.
  set (v := 9 * q). assert (V : 0 <= v <= 9) by (unfold v; lra). clearbody v. destruct (base_Int_part v) as (B1 & B2).
  assert (I : (0 <= Int_part v <= 9)%Z).
  { split; [assert (K : (-1 < Int_part v)%Z) by (apply lt_IZR; lra); lia|apply le_IZR; lra]. }
  rewrite INR_IZR_INZ, Z2Nat.id by lia. set (z := Int_part v) in *. clearbody z.
  assert (C : (z = 0 \/ z = 1 \/ z = 2 \/ z = 3 \/ z = 4 \/ z = 5 \/ z = 6 \/ z = 7 \/ z = 8 \/ z = 9)%Z) by lia.
  decompose [or] C; subst z; simpl; lra.
Qed.

Lemma third : edge 3 0 = 0 /\ edge 3 1 = IZR 6004799503160661 / IZR 18014398509481984 /\ edge 3 2 = IZR 6004799503160661 / IZR 9007199254740992 /\ edge 3 3 = 1.
Proof.
  assert (H : fl (1 / INR 3) = IZR 6004799503160661 / IZR 18014398509481984).
  { replace (INR 3) with 3 by (simpl; lra). apply (proj2 (proj2 (rnd_spec 1 3 6004799503160661 18014398509481984 ltac:(vm_compute; reflexivity)))). }
  assert (D : double (fl (1 / INR 3))) by apply double_fl.
  unfold edge. split; [simpl INR; rewrite Rmult_0_l; apply fl_0|].
  split; [simpl (INR 1); rewrite Rmult_1_l, fl_double; auto|].
  split.
  - change (INR 2) with 2. rewrite fl_double by (apply fl_twice; auto). rewrite H. lra.
  - rewrite H. replace (INR 3 * (IZR 6004799503160661 / IZR 18014398509481984)) with (IZR 18014398509481983 / IZR 18014398509481984) by (simpl INR; lra).
    rewrite (proj2 (proj2 (rnd_spec 18014398509481983 18014398509481984 9007199254740992 9007199254740992 ltac:(vm_compute; reflexivity)))). lra.
Qed.

Lemma ten_column : column_of ten_X 0 = map Some ten.
Proof. reflexivity. Qed.
Lemma ten_nanquantile : forall q, 0 <= q <= 1 -> nanquantile (map Some ten) q = Some (9 * q).
Proof. intros q Q. unfold nanquantile. change (numbers (map Some ten)) with ten. unfold ten at 1. rewrite ten_quantile by auto. reflexivity. Qed.

Lemma ks_is : forall a b d, a <> [] -> b <> [] -> greatest_gap a b d -> ks_2samp a b = d.
Proof.
  intros a b d Ha Hb [U (t & E)]. destruct (ks_spec a b Ha Hb) as [U' (t' & _ & E')]. apply Rle_antisym.
  - rewrite <- E'. apply U.
  - rewrite <- E. apply U'.
Qed.
Lemma ten_ks : ks_2samp [1; 1; 1] ten_Y = 1 / 10.
Proof.
  apply ks_is; try discriminate. split.
  - intros t. unfold ecdf, mean, Rsum, ten_Y. cbn [map length fold_right]. unfold Rabs. rdec; simpl; destruct (Rcase_abs _); lra.
  - exists 0. unfold ecdf, mean, Rsum, ten_Y. cbn [map length fold_right]. rdec. simpl. rewrite Rabs_left; lra.
Qed.

Lemma ten_cells : map (cell_at (edge 3) (column_of ten_X 0) ten_Y) (seq 0 3) = [Some (1 / 10); Some (1 / 10); Some (1 / 10)].
Proof.
  destruct third as (T0 & T1 & T2 & T3). rewrite ten_column.
  assert (C : forall s, (s < 3)%nat -> cell_at (edge 3) (map Some ten) ten_Y s = Some (1 / 10)).
  { intros s Hs. unfold cell_at. cbv zeta.
    assert (E : outputs_where (keep_at (map Some ten) (edge 3) s) (map Some ten) ten_Y = [1; 1; 1]); [|rewrite E, ten_ks; auto].
    unfold outputs_where, keep_at. assert (B : 2 < 9 * edge 3 1 <= 3 /\ 5 < 9 * edge 3 2 <= 6) by (rewrite T1, T2; lra).
    assert (Q : forall k, (k <= 3)%nat -> nanquantile (map Some ten) (edge 3 k) = Some (9 * edge 3 k)).
    { intros k Hk. apply ten_nanquantile. apply edge_range; auto; vm_compute; discriminate. }
    destruct s as [|[|[|s]]]; [| | |lia]; cbn [Nat.add]; rewrite !Q by lia; rewrite ?T0, ?T3; clear Q T0 T1 T2 T3.
    all: destruct B as (B1 & B2); set (c1 := 9 * edge 3 1) in *; set (c2 := 9 * edge 3 2) in *; clearbody c1 c2.
    all: unfold ten, ten_Y; cbn [map combine filter fst fle flt]; repeat (rdec1; cbn [andb]); reflexivity. }
  cbn [seq map]. rewrite !C by lia. reflexivity.
Qed.

Definition ulp_tenth : R := bpow radix2 (-56).
Lemma ten_mean : nanmean_fl left_to_right [Some tenth; Some tenth; Some tenth] = tenth + ulp_tenth.
Proof.
  unfold nanmean_fl, sum_fl. cbn [nan_to_zero map length left_to_right Nat.sub comb tsum nth numbers flat_map app]. rewrite tenth_value.
  rewrite (add_by 7205759403792794 72057594037927936 7205759403792794 72057594037927936 7205759403792794 36028797018963968) by (reflexivity || (vm_compute; reflexivity)).
  rewrite (add_by 7205759403792794 36028797018963968 7205759403792794 72057594037927936 5404319552844596 18014398509481984) by (reflexivity || (vm_compute; reflexivity)).
  replace (IZR 5404319552844596 / IZR 18014398509481984 / INR 3) with (IZR 5404319552844596 / IZR 54043195528445952) by (simpl INR; lra).
  rewrite (proj2 (proj2 (rnd_spec 5404319552844596 54043195528445952 7205759403792795 72057594037927936 ltac:(vm_compute; reflexivity)))).
  unfold ulp_tenth. change (bpow radix2 (-56)) with (/ IZR 72057594037927936). lra.
Qed.

Lemma ten_std : nanstd_fl left_to_right [Some tenth; Some tenth; Some tenth] = ulp_tenth.
Proof.
  unfold nanstd_fl. cbv zeta. rewrite ten_mean. cbn [map]. replace (tenth - (tenth + ulp_tenth)) with (- ulp_tenth) by ring.
  assert (DU : double ulp_tenth) by (apply double_bpow; lia). rewrite (fl_double (- ulp_tenth)) by (apply double_opp; auto).
  replace (- ulp_tenth * - ulp_tenth) with (bpow radix2 (-112)) by (unfold ulp_tenth; change (-112)%Z with (-56 + -56)%Z; rewrite bpow_plus; ring).
  assert (D : forall m, (Z.abs m < 2 ^ 53)%Z -> double (IZR m * bpow radix2 (-112))) by (intros; apply double_F; auto; lia).
  rewrite (fl_double (bpow radix2 (-112))) by (apply double_bpow; lia).
  unfold sum_fl. cbn [map length left_to_right Nat.sub comb tsum nth numbers flat_map app].
  replace (bpow radix2 (-112) + bpow radix2 (-112)) with (IZR 2 * bpow radix2 (-112)) by ring. rewrite (fl_double (IZR 2 * _)) by (apply D; reflexivity).
  replace (IZR 2 * bpow radix2 (-112) + bpow radix2 (-112)) with (IZR 3 * bpow radix2 (-112)) by ring. rewrite (fl_double (IZR 3 * _)) by (apply D; reflexivity).
  replace (IZR 3 * bpow radix2 (-112) / INR 3) with (bpow radix2 (-112)) by (simpl INR; field).
  rewrite (fl_double (bpow radix2 (-112))) by (apply double_bpow; lia).
  replace (sqrt (bpow radix2 (-112))) with ulp_tenth; [apply fl_double; auto|]. unfold ulp_tenth. change (-112)%Z with (-56 + -56)%Z. rewrite bpow_plus. symmetry. apply sqrt_square, bpow_ge_0.
Qed.

Lemma three_equal : forall x a : R, In x [a; a; a] -> x = a.
Proof. intros x a [<-|[<-|[<-|[]]]]; auto. Qed.
Lemma ten_all : all_cells ten_p ten_X ten_Y 3 = Ok [[Some (1 / 10); Some (1 / 10); Some (1 / 10)]].
Proof.
  assert (HI : pawn_input 1 ten_X ten_Y) by (split; [unfold ten_X, ten; cbn [map]; repeat constructor|reflexivity]).
  assert (FIT : pawn_fits 3). { apply (pawn_fits_100 3 ltac:(lia)). intros H. cbn in H. repeat (destruct H as [H|H]; [discriminate|]). destruct H. }
  rewrite <- ten_cells. unfold all_cells. change (seq 0 (p_num_vars ten_p)) with [0%nat]. cbn [mapM]. rewrite (get_column ten_X 1 0) by (try apply HI; lia). cbn [bind].
  destruct (levels_accepted 3 ltac:(lia) ltac:(vm_compute; discriminate) FIT) as (EL & EX). unfold nanquantiles. rewrite EX, EL. cbn [bind].
  rewrite (mapM_ext _ (fun s => Ok (cell_at (edge 3) (column_of ten_X 0) ten_Y s))); [rewrite mapM_Ok_map; reflexivity|].
  intros s Hs. apply in_seq in Hs. apply cell_at_eq; [reflexivity|lia].
Qed.

Lemma ten_dbl : exists cv, pawn_dbl left_to_right left_to_right ten_p ten_X ten_Y 3 =
  Ok (mkPawn [[Some tenth; Some (tenth + ulp_tenth); Some tenth; Some tenth; cv; Some ulp_tenth]] ["a"%string]).
Proof.
  rewrite dbl_eq by lia.
  rewrite ten_all. cbn [bind map]. unfold finish_fl. assert (HU : ungrouped ten_p) by (intros g (H & _); discriminate). rewrite (ungrouped_check ten_p HU). cbn [bind].
  unfold summary_dbl. rewrite summary_fl_eq by discriminate. cbn [map option_map numbers flat_map app]. fold tenth. rewrite ten_mean, ten_std.
  eexists. unfold median_fl. cbv zeta.
  assert (ES : sortR [tenth; tenth; tenth] = [tenth; tenth; tenth]). { unfold sortR. cbn [fold_right insertR]. repeat (cbn [insertR]; rdec). reflexivity. }
  rewrite ES. cbn [length Nat.even Nat.div Nat.divmod fst nth].
  assert (M1 : minl [1 / 10; 1 / 10; 1 / 10] = 1 / 10) by (apply three_equal, minl_spec; discriminate).
  assert (M2 : maxl [1 / 10; 1 / 10; 1 / 10] = 1 / 10) by (apply three_equal, maxl_spec; discriminate).
  rewrite M1, M2. reflexivity.
Qed.

Lemma ten_exact : exists cv, pawn_analyze_fl ten_p ten_X ten_Y 3 = Ok (mkPawn [[Some (1 / 10); Some (1 / 10); Some (1 / 10); Some (1 / 10); cv; Some 0]] ["a"%string]).
Proof.
  rewrite exact_eq, ten_all by lia. cbn [bind map]. unfold finish_exact. assert (HU : ungrouped ten_p) by (intros g (H & _); discriminate). rewrite (ungrouped_check ten_p HU). cbn [bind].
  rewrite summary_eq by discriminate. cbn [numbers flat_map app]. eexists.
  assert (M1 : minl [1 / 10; 1 / 10; 1 / 10] = 1 / 10) by (apply three_equal, minl_spec; discriminate).
  assert (M2 : maxl [1 / 10; 1 / 10; 1 / 10] = 1 / 10) by (apply three_equal, maxl_spec; discriminate).
  assert (ME : mean [1 / 10; 1 / 10; 1 / 10] = 1 / 10) by (unfold mean, Rsum; simpl; lra).
  assert (MD : median [1 / 10; 1 / 10; 1 / 10] = 1 / 10).
  { unfold median. cbv zeta. assert (ES : sortR [1 / 10; 1 / 10; 1 / 10] = [1 / 10; 1 / 10; 1 / 10]) by (unfold sortR; cbn [fold_right]; repeat (cbn [insertR]; rdec); reflexivity).
    rewrite ES. reflexivity. }
  assert (SD : sd [1 / 10; 1 / 10; 1 / 10] = 0).
  { unfold sd. assert (EV : var [1 / 10; 1 / 10; 1 / 10] = 0) by (unfold var; rewrite ME; unfold mean, Rsum; simpl; lra). rewrite EV. apply sqrt_0. }
  rewrite M1, M2, ME, MD, SD. reflexivity.
Qed.
