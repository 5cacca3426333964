(** * Forward errors of the standard deviations of PAWN in double precision. *)
From Coq Require Import Reals String List Arith ZArith Bool Lia Lra Psatz Permutation.
From Flocq Require Import Core Relative.
From Verif Require Import Base Arrays ListFacts ModelGroups ModelScale ProofsScale Stats Sums ModelMorrisAnalyze ModelPawn ModelDouble ModelDouble4 ModelDouble5 ModelLevels ModelPawn2 SpecError
  ProofsRidge ProofsDouble ProofsDouble5 ProofsDouble8 ProofsDouble10 ProofsPawn4 ProofsPawn5 ProofsPawn6 ProofsError ProofsError9 ProofsError10 ProofsError11.
From Verif Require ProofsDouble21.
Import ListNotations.
Local Open Scope R_scope.

(** A deviation from any computed mean and variance. *)
Lemma std_core : forall l d m y a c, l <> [] -> 1 <= d -> d <= INR (length l) <= 2 * d ->
  let b := m - mean l in
  let M := mean (map Rabs l) in
  let S := sqrt (Rsum (map (fun x => (x - mean l) ^ 2) l) / d) in
  let x := Rsum (map (fun x => (x - m) ^ 2) l) / d in
  Rabs b <= err a * (M + tiny) -> 0 <= y -> off c (x + small4) x y ->
  Rabs (fl (sqrt y) - S) <= err (a + c + 2) * (S + 2 * M + bpow radix2 (-456)).
Proof.
  intros l d m y a c NE D1 DL b M S x0 MB Y0 V. set (n := length l) in *. pose proof tiny_pos as T. pose proof u_pos as U.
  assert (PI : 0 < / d) by (apply Rinv_0_lt_compat; lra).
  unfold x0 in V. rewrite (sum_about l m NE) in V. fold n b in V. clear x0.
  set (Q := Rsum (map (fun x => (x - mean l) ^ 2) l)) in *.
  assert (Q0 : 0 <= Q) by (apply Rsum_nonneg; intros x Hx; apply in_map_iff in Hx as (z & <- & _); apply pow2_ge_0).
  set (x := (Q + INR n * b ^ 2) / d) in *.
  assert (X0 : 0 <= x). { unfold x, Rdiv. apply Rmult_le_pos; [|lra]. pose proof (pow2_ge_0 b). pose proof (pos_INR n). nra. }
  unfold off in V. pose proof (err_pos c) as E3. pose proof (root_off _ x y E3 X0 Y0 V) as RO.
  assert (S0 : 0 <= S) by apply sqrt_pos.
  assert (TS : S <= sqrt x <= S + 2 * Rabs b).
  { split.
    - apply sqrt_le_1_alt. unfold x, Rdiv. apply Rmult_le_compat_r; [lra|]. pose proof (pow2_ge_0 b). pose proof (pos_INR n). nra.
    - assert (X4 : x <= Q / d + (2 * Rabs b) * (2 * Rabs b)).
      { unfold x, Rdiv. rewrite Rmult_plus_distr_r. apply Rplus_le_compat_l. apply Rmult_le_reg_r with d; [lra|]. rewrite Rmult_assoc, Rinv_l by lra.
        pose proof (pow2_abs b) as PB. pose proof (pow2_ge_0 b). replace (2 * Rabs b * (2 * Rabs b)) with (4 * b ^ 2) by (rewrite <- PB; ring). nra. }
      eapply Rle_trans; [apply sqrt_le_1_alt, X4|]. pose proof (Rabs_pos b).
      eapply Rle_trans; [apply root_sum; [unfold Rdiv; apply Rmult_le_pos; lra|nra]|]. rewrite (sqrt_square (2 * Rabs b)) by lra. fold S. lra. }
  set (t := sqrt x) in *. set (r := sqrt y) in *. assert (R0 : 0 <= r) by apply sqrt_pos.
  pose proof (fl_err r) as FR. rewrite (Rabs_pos_eq r) in FR by auto.
  set (th := bpow radix2 (-510)) in *. assert (TH : 0 < th) by apply bpow_gt_0.
  assert (M0 : 0 <= M). { unfold M. apply mean_nonneg. intros z Hz. apply in_map_iff in Hz as (w & <- & _). apply Rabs_pos. }
  set (e3 := err c) in *. set (e4 := err (c + 1)).
  assert (E4 : e4 = u * (1 + e3) + e3) by (unfold e4, e3; replace (c + 1)%nat with (Datatypes.S c) by lia; apply err_S).
  assert (B1 : Rabs (fl r - S) <= e4 * S + 2 * (1 + e4) * Rabs b + (1 + e4) * th + u * tiny).
  { apply Rabs_le_inv in RO. apply Rabs_le_inv in FR. pose proof (Rabs_pos b).
    assert (UR : u * r <= u * ((1 + e3) * t + (1 + e3) * th)) by (apply Rmult_le_compat_l; lra).
    assert (ET : e4 * t <= e4 * (S + 2 * Rabs b)) by (apply Rmult_le_compat_l; [rewrite E4; nra|lra]).
    assert (EQ : u * ((1 + e3) * t + (1 + e3) * th) + e3 * t + (1 + e3) * th = e4 * t + (1 + e4) * th) by (rewrite E4; ring).
    apply Rabs_le. split; lra. }
  set (N := (a + c + 2)%nat). assert (EN : err a * (1 + e4) <= err N).
  { pose proof (err_add a (c + 1)) as EA. fold e4 in EA. assert (e4 >= 0) by (apply Rle_ge, err_pos). pose proof (err_le (a + (c + 1)) N ltac:(unfold N; lia)). pose proof (err_pos a). nra. }
  assert (EN4 : e4 <= err N) by (apply err_le; unfold N; lia).
  assert (EU : u <= err N). { apply Rle_trans with (err 1); [rewrite err_S, err_0; lra|apply err_le; unfold N; lia]. }
  assert (BB : (1 + e4) * Rabs b <= err N * (M + tiny)).
  { assert (0 <= e4) by apply err_pos. apply Rle_trans with ((1 + e4) * (err a * (M + tiny))); [apply Rmult_le_compat_l; lra|].
    replace ((1 + e4) * (err a * (M + tiny))) with (err a * (1 + e4) * (M + tiny)) by ring. apply Rmult_le_compat_r; lra. }
  assert (TU : th = u * bpow radix2 (-457)) by (unfold th, u; rewrite <- bpow_plus; reflexivity).
  assert (TI : 3 * tiny <= th).
  { unfold th, tiny. apply Rle_trans with (bpow radix2 2 * bpow radix2 (-1022)); [pose proof tiny_pos; simpl (bpow radix2 2); unfold tiny in *; lra|]. rewrite <- bpow_plus. apply bpow_le. lia. }
  assert (T2 : 2 * th <= bpow radix2 (-457)). { change 2 with (bpow radix2 1) at 1. unfold th. rewrite <- bpow_plus. apply bpow_le. lia. }
  assert (P7 : bpow radix2 (-456) = 2 * bpow radix2 (-457)) by (change 2 with (bpow radix2 1); rewrite <- bpow_plus; reflexivity).
  pose proof (bpow_gt_0 radix2 (-457)) as P57. set (q := bpow radix2 (-457)) in *. rewrite P7. pose proof (err_pos N) as NP. set (e := err N) in *.
  assert (A1 : e4 * S <= e * S) by (apply Rmult_le_compat_r; lra).
  assert (A2 : e4 * th <= e * th) by (apply Rmult_le_compat_r; lra).
  assert (A3 : u * q <= e * q) by (apply Rmult_le_compat_r; lra).
  assert (A4 : u * tiny <= e * tiny) by (apply Rmult_le_compat_r; lra).
  assert (A5 : e * (th + 3 * tiny) <= e * q) by (apply Rmult_le_compat_l; lra).
  nra.
Qed.

(** ** Arrays with nan *)
Definition over (f : R -> R) (v : fval) : R := match v with Some x => f x | None => 0 end.
Lemma over_sum : forall f cells, Rsum (map (over f) cells) = Rsum (map f (numbers cells)).
Proof. intros f cells. induction cells as [|[x|] l IH]; unfold Rsum in *; cbn [map fold_right over]; [reflexivity| |]; rewrite IH; [reflexivity|]. rewrite Rplus_0_l. reflexivity. Qed.
Lemma sum_const : forall (l : list R) f t, Rsum (map (fun x => f x + t) l) = Rsum (map f l) + INR (length l) * t.
Proof. intros l f t. induction l; unfold Rsum in *; cbn [map fold_right length]; [simpl; ring|]. rewrite S_INR, IHl. ring. Qed.

Section Nan.
Variable arr : nat -> tree.
Hypothesis A : arrangement arr.

Lemma nanstd_error : forall cells, numbers cells <> [] -> (forall x, In (Some x) cells -> double x) ->
  let v := numbers cells in
  Rabs (nanstd_fl arr cells - sd v) <= err (2 * length cells + 5) * (sd v + 2 * mean (map Rabs v) + bpow radix2 (-456)).
Proof using A.
  intros cells NE D v. set (L := length cells). assert (NC : cells <> []) by (intros ->; apply NE; reflexivity). assert (PL : (0 < L)%nat) by (unfold L; destruct cells; [congruence|simpl; lia]).
  pose proof tiny_pos as T. assert (P : 1 <= INR (length v)) by (change 1 with (INR 1); apply le_INR; fold v in NE; destruct v; [congruence|simpl; lia]).
  assert (DO : forall c, In c cells -> double (over (fun x => x) c)) by (intros [x|] I; cbn; [auto|apply double_0]).
  assert (MO : off L (mean (map Rabs v) + tiny) (mean v) (nanmean_fl arr cells)).
  { destruct (sum_off arr A fval (over (fun x => x)) (over (fun x => x)) (over Rabs) 0 cells NC) as (_ & O).
    { intros c I. split; [auto|]. split; [destruct c; cbn; [lra|rewrite Rabs_R0; lra]|]. unfold off. rewrite Rminus_diag_eq, Rabs_R0, err_0 by auto. lra. }
    rewrite !over_sum, map_id in O. fold v in O. unfold nanmean_fl, mean. rewrite map_length. fold v.
    replace L with (S (0 + (L - 1))) by lia. apply (div_off (0 + (L - 1))); [lra| |exact O].
    clear. induction v as [|x l IH]; unfold Rsum in *; cbn [map fold_right]; [rewrite Rabs_R0; lra|]. eapply Rle_trans; [apply Rabs_triang|]. lra. }
  set (m := nanmean_fl arr cells) in *. assert (DM : double m) by apply double_fl.
  set (sq := fun x => (x - m) ^ 2).
  assert (Q0 : 0 <= Rsum (map sq v)) by (apply Rsum_nonneg; intros x Hx; apply in_map_iff in Hx as (z & <- & _); apply pow2_ge_0).
  set (y := fl (sum_fl arr (map (over (fun x => fl (fl (x - m) * fl (x - m)))) cells) / INR (length v))).
  assert (V : off (L + 3) (Rsum (map sq v) / INR (length v) + small4) (Rsum (map sq v) / INR (length v)) y).
  { destruct (sum_off arr A fval (over sq) (over (fun x => fl (fl (x - m) * fl (x - m)))) (over (fun x => sq x + tiny)) 3 cells NC) as (_ & O).
    { intros [x|] I; cbn [over].
      - split; [apply double_fl|]. unfold sq. split; [rewrite Rabs_pos_eq by apply pow2_ge_0; lra|]. apply square_off; auto.
      - split; [apply double_0|]. rewrite Rabs_R0. split; [lra|]. unfold off. rewrite Rminus_diag_eq, Rabs_R0 by auto. lra. }
    rewrite !over_sum, sum_const in O. fold v L in O. replace (L + 3)%nat with (S (3 + (L - 1))) by lia.
    apply off_weaken with (S (3 + (L - 1))) ((Rsum (map sq v) + INR (length v) * tiny) / INR (length v) + tiny); auto.
    - assert (0 <= (Rsum (map sq v) + INR (length v) * tiny) * / INR (length v)) by (apply Rmult_le_pos; [nra|left; apply Rinv_0_lt_compat; lra]). unfold Rdiv. lra.
    - rewrite small4_is. replace ((Rsum (map sq v) + INR (length v) * tiny) / INR (length v)) with (Rsum (map sq v) / INR (length v) + tiny) by (field; lra). lra.
    - unfold y. apply (div_off (3 + (L - 1))); [lra| |exact O]. rewrite Rabs_pos_eq by auto. nra. }
  assert (Y0 : 0 <= y).
  { unfold y. apply fl_pos. unfold Rdiv. apply Rmult_le_pos; [|left; apply Rinv_0_lt_compat; lra]. apply tsum_pos. intros z Hz. apply in_map_iff in Hz as ([x|] & <- & _); cbn; [apply square_pos|lra]. }
  pose proof (std_core v (INR (length v)) m y L (L + 3) NE P ltac:(lra) MO Y0 V) as B. replace (2 * L + 5)%nat with (L + (L + 3) + 2)%nat by lia.
  unfold sd, var. unfold mean at 1 3. rewrite map_length. exact B.
Qed.

(** The distances are rounded too. *)
Lemma pawn_std : forall cells, good_cells cells -> numbers cells <> [] -> Rabs (nanstd_fl arr (map (option_map fl) cells) - sd (numbers cells)) <= 4 * err (2 * length cells + 6).
Proof using A.
  intros cells G NE. set (v := numbers cells) in *. set (n := length v). pose proof tiny_pos as T.
  assert (PN : (0 < n)%nat) by (unfold n; destruct v; [congruence|simpl; lia]). assert (P1 : 1 <= INR n) by (change 1 with (INR 1); apply le_INR; lia).
  assert (V : forall x, In x v -> 0 <= x <= 1) by (intros x Hx; apply G, numbers_in; auto).
  pose proof (nanstd_error (map (option_map fl) cells)) as B. rewrite numbers_map, map_length in B. fold v in B. cbv zeta in B.
  assert (NV : map fl v <> []) by (intros Z; apply map_eq_nil in Z; contradiction).
  specialize (B NV). assert (DD : forall x, In (Some x) (map (option_map fl) cells) -> double x).
  { intros x Hx. apply in_map_iff in Hx as ([z|] & E & _); [|discriminate]. injection E as <-. apply double_fl. }
  specialize (B DD). set (E := fun i => nth i v 0). set (g := fun i => fl (E i)).
  assert (EV : map E (seq 0 n) = v).
  { apply nth_ext with 0 0; [rewrite map_length, seq_length; auto|]. intros k Hk. rewrite map_length, seq_length in Hk. rewrite ProofsDouble21.nth_seq_fun, (proj2 (Nat.ltb_lt _ _)) by auto. reflexivity. }
  assert (GV : map g (seq 0 n) = map fl v) by (rewrite <- EV, map_map; reflexivity).
  assert (SP : forall f l, l = map f (seq 0 n) -> sd l = spread (INR n) f (seq 0 n)).
  { intros f l ->. unfold sd, var, spread, size2. unfold mean at 1. rewrite !map_length, seq_length, map_map. reflexivity. }
  rewrite (SP E v (eq_sym EV)). rewrite (SP g (map fl v) (eq_sym GV)), <- GV in B.
  assert (O : off (2 * length cells + 5 + 1) (3 * size2 (INR n) (fun i => Rabs (E i) + tiny) (seq 0 n) + bpow radix2 (-456)) (spread (INR n) E (seq 0 n)) (nanstd_fl arr (map (option_map fl) cells))).
  { apply (spread_off_by g); auto; rewrite ?seq_length; try lra; [destruct n; [lia|discriminate]|].
    intros i I. split; [lra|]. unfold off, g. rewrite err_S, err_0. replace (u * (1 + 0) + 0) with u by ring. apply fl_err. }
  unfold off in O. replace (2 * length cells + 5 + 1)%nat with (2 * length cells + 6)%nat in O by lia. eapply Rle_trans; [exact O|]. rewrite (Rmult_comm 4). apply Rmult_le_compat_l; [apply err_pos|].
  assert (S1 : size2 (INR n) (fun i => Rabs (E i) + tiny) (seq 0 n) <= 1 + tiny).
  { apply Rle_trans with (size2 (INR n) (fun _ => 1 + tiny) (seq 0 n)).
    - apply size2_mono; [lra|]. intros i I. apply in_seq in I. assert (VI : 0 <= E i <= 1) by (apply V, nth_In; fold n; lia). rewrite (Rabs_pos_eq (E i)) by lra. rewrite !Rabs_pos_eq by lra. lra.
    - unfold size2. replace (Rsum (map (fun _ : nat => (1 + tiny) ^ 2) (seq 0 n))) with (INR n * ((1 + tiny) * (1 + tiny))).
      + replace (INR n * ((1 + tiny) * (1 + tiny)) / INR n) with ((1 + tiny) * (1 + tiny)) by (field; lra). rewrite sqrt_square by lra. lra.
      + rewrite <- (seq_length n 0) at 1. clear. induction (seq 0 n); unfold Rsum in *; cbn [map fold_right length]; [simpl; ring|]. rewrite S_INR, <- IHl. ring. }
  assert (BT : bpow radix2 (-456) <= / 4) by (change (/ 4) with (bpow radix2 (-2)); apply bpow_le; lia).
  assert (TT : tiny <= / 4) by (unfold tiny; change (/ 4) with (bpow radix2 (-2)); apply bpow_le; lia). lra.
Qed.

Definition std_near (S : nat) (row row' : list fval) : Prop :=
  (row = repeat None 6 /\ row' = repeat None 6) \/
  exists s s', nth 5 row None = Some s /\ nth 5 row' None = Some s' /\ Rabs (s' - s) <= 4 * err (2 * S + 6).
Lemma summary_std : forall cells, good_cells cells -> std_near (length cells) (pawn_summary cells) (summary_dbl arr cells).
Proof using A.
  intros cells G. destruct (list_eq_dec Req_EM_T (numbers cells) []) as [E|NE].
  - left. unfold summary_dbl, pawn_summary, pawn_summary_fl. rewrite numbers_map, E. auto.
  - right. unfold summary_dbl. rewrite summary_eq, summary_fl_eq by auto. do 2 eexists. split; [reflexivity|]. split; [reflexivity|]. apply pawn_std; auto.
Qed.

Lemma dbl_std : forall arr2 p X Y S out, (Z.of_nat (length Y) <= 2 ^ 53)%Z -> check_groups p = None ->
  pawn_analyze_fl p X Y S = Ok out -> exists out', pawn_dbl arr arr2 p X Y S = Ok out' /\ pw_names out' = pw_names out /\ Forall2 (std_near S) (pw_rows out) (pw_rows out').
Proof using A.
  intros arr2 p X Y S out LY Eg E. destruct (Nat.eq_dec S 0) as [->|NS]; [discriminate|]. rewrite dbl_eq by lia. rewrite exact_eq in E by lia.
  destruct (all_cells p X Y S) as [cs|] eqn:EC; [|discriminate]. cbn [bind] in *. destruct (all_cells_ok _ _ _ _ _ LY EC) as (L & G).
  unfold finish_exact, finish_fl in *. rewrite Eg in *. cbn [bind] in *. injection E as <-. eexists. split; [reflexivity|]. split; [reflexivity|]. cbn [pw_rows].
  clear -G A. induction cs as [|c cs IH]; cbn [map]; constructor.
  - destruct (G c (or_introl eq_refl)) as (GC & <-). apply summary_std; auto.
  - apply IH. intros cells H. apply G. right. auto.
Qed.
End Nan.
