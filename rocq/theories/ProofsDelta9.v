(** * Delta: worked cases used as witnesses and examples. *)
From Coq Require Import Reals String List Arith ZArith Bool Lia Lra Permutation Sorted.
From Verif Require Import Base Arrays ListFacts ModelGroups ModelScale ProofsScale Stats Sums Quant ModelRsa SpecRsa ProofsRsa ProofsRsa2 ProofsRsa3 ModelFast ModelDelta SpecDelta
  ProofsDelta ProofsDelta2 ProofsDelta3 ProofsDelta4 ProofsDelta5 ProofsDelta6 ProofsDelta7 ProofsDelta8.
Import ListNotations.
Local Open Scope nat_scope.

(** Decides the comparisons of concrete numbers left in the goal. *)
Ltac leb_all := unfold leb, ltb; repeat match goal with
  | |- context [Rle_dec ?a ?b] => destruct (Rle_dec a b); [try (exfalso; lra)|try (exfalso; lra)]
  | |- context [Rlt_dec ?a ?b] => destruct (Rlt_dec a b); [try (exfalso; lra)|try (exfalso; lra)]
  | |- context [Req_EM_T ?a ?b] => destruct (Req_EM_T a b); [try (exfalso; lra)|try (exfalso; lra)]
  end.

Lemma classes_4 : classes 4 = 2.
Proof.
  destruct (class_power 4 ltac:(lia)) as [_ E]. unfold classes. cbn [Nat.eqb]. set (e := (2 / (7 + tanh ((1500 - INR 4) / 500)))%R) in *.
  assert (I4 : INR 4 = 4%R) by (simpl; lra). rewrite I4.
  assert (A : (INR 1 < Rpower 4 e)%R). { simpl INR. rewrite <- (Rpower_O 4) by lra. apply Rpower_lt; lra. }
  assert (B : (Rpower 4 e <= INR 2)%R).
  { replace (INR 2) with (Rpower 4 (/ 2)); [apply Rle_Rpower; lra|]. rewrite Rpower_sqrt by lra. replace 4%R with (2 * 2)%R by lra. rewrite sqrt_square by lra. simpl. lra. }
  pose proof (ceil_bounds _ 1 2 A B). lia.
Qed.
Lemma ordinal_sorted4 : forall a b c d : R, (a <= b)%R -> (b <= c)%R -> (c <= d)%R -> forall i, i < 4 -> ordinal [a; b; c; d] i = S i.
Proof.
  intros a b c d H1 H2 H3 i Hi.
  assert (R : rank_is [a; b; c; d] i (S i)); [|apply rank_ordinal in R; auto].
  exists (seq 0 (S i)). split; [apply seq_NoDup|]. split; [apply seq_length|]. intros k. rewrite in_seq. unfold before. cbn [length].
  destruct i as [|[|[|[|i]]]]; [| | | |lia];
  (destruct k as [|[|[|[|k]]]]; cbn [nth]; (split; [intros ?; split; [lia|]|intros [? [?|[? ?]]]]); try lia; try (exfalso; lra); try lra);
  match goal with |- (?x < ?y)%R \/ _ => destruct (Rlt_dec x y); [left; auto|right; split; [lra|lia]] | _ => idtac end.
Qed.
Lemma classes_sorted4 : forall a b c d : R, (a <= b)%R -> (b <= c)%R -> (c <= d)%R -> classes_list [a; b; c; d] 2 = [[0; 1]; [2; 3]].
Proof.
  intros a b c d H1 H2 H3. unfold classes_list. cbn [map seq length].
  assert (E : forall j, j < 2 -> class_of [a; b; c; d] (grid_m 4 2) j = if j =? 0 then [0; 1] else [2; 3]).
  { intros j Hj. apply sorted_ext.
    - unfold class_of. apply filter_sorted.
    - destruct j as [|[|j]]; [| |lia]; cbn [Nat.eqb]; repeat constructor.
    - intros i. rewrite class_member by lia. cbn [length]. split.
      + intros [Hi HO]. rewrite ordinal_sorted4 in HO by auto. destruct j as [|[|j]]; [| |lia]; cbn [Nat.eqb] in *; simpl in HO.
        * assert (i = 0 \/ i = 1) by lia. simpl. lia.
        * assert (i = 2 \/ i = 3) by lia. simpl. lia.
      + intros Hi. assert (L : i < 4) by (destruct j as [|[|j]]; simpl in Hi; lia). split; auto. rewrite ordinal_sorted4 by auto.
        destruct j as [|[|j]]; [| |lia]; simpl in *; lia. }
  f_equal; [apply (E 0); lia|]. f_equal. apply (E 1). lia.
Qed.

(** S1 of one parameter whose four values do not decrease, with every row drawn once. *)
Definition one_problem : problem := mkProblem 1 ["x"]%string [[0; 10]]%R None None false.
Definition col4 (a b c d : R) : mat R := mkMat 1 [[a]; [b]; [c]; [d]].
Lemma one_input : forall a b c d Y, length Y = 4 -> delta_input one_problem (col4 a b c d) Y.
Proof.
  intros a b c d Y H. split; [repeat constructor|]. split; auto. split; auto. split; [auto|]. split; [destruct Y; simpl in *; congruence|].
  intros n t [<-|[]]. simpl. intros [H1|[H1|[H1|[H1|[]]]]]; destruct t as [|c0 t]; simpl in H1; try discriminate; inversion H1; destruct t; discriminate.
Qed.
Lemma four_S1 : forall kde nq dc a b c d Y, (a <= b)%R -> (b <= c)%R -> (c <= d)%R -> length Y = 4 ->
  exists nt, delta_analyze kde nq dc (fun _ _ k => k) one_problem (col4 a b c d) Y 0 (1/2) None "sobol" (fun _ => None) =
    Ok (mkDelta None None (Some [Some (if Req_EM_T (ptp Y) 0 then 0%R else S1_of Y [[0; 1]; [2; 3]])]) (Some [None]) ["x"]%string nt).
Proof.
  intros kde nq dc a b c d Y H1 H2 H3 HY. rewrite analyze_eq; [|apply one_input; auto|lra|simpl; auto|discriminate].
  cbv zeta. rewrite HY. unfold cells_of. cbn [p_num_vars one_problem seq mapM].
  unfold delta_param. cbn [check_bininfo]. cbn [bind]. change (negb (String.eqb "sobol" "sobol")) with false. change (negb (String.eqb "sobol" "delta")) with true.
  cbn [app run_all]. unfold run_S1. rewrite HY. change (choice (fun k => k) (seq 0 4) 4) with (Ok [0; 1; 2; 3]).
  cbn [bind]. assert (Hr : Forall (fun i => i < length Y) [0; 1; 2; 3]) by (rewrite HY; repeat (constructor; [lia|]); constructor).
  rewrite (take_ok Y) by auto. cbn [bind]. change (col_of (col4 a b c d) 0) with [a; b; c; d]. rewrite (take_ok [a; b; c; d]) by (repeat (constructor; [simpl; lia|]); constructor).
  cbn [bind]. assert (EO : outputs Y [0; 1; 2; 3] = Y) by (change [0; 1; 2; 3] with (seq 0 4); rewrite <- HY; apply outputs_all). rewrite EO. change (outputs [a; b; c; d] [0; 1; 2; 3]) with [a; b; c; d].
  rewrite classes_4. pose proof (sobol_first_spec Y [a; b; c; d] 2) as S. rewrite HY in S. rewrite S; [|destruct Y; simpl in *; congruence|auto|lia].
  rewrite classes_sorted4 by auto. cbn [bind].
  unfold run_S1_conf, sobol_conf. cbn [seq mapM bind width all_some]. unfold sd1. cbn [length Nat.ltb Nat.leb]. cbn [finish bind c_S1 c_S1_conf c_done map existsb orb c_delta c_delta_conf c_note p_names].
  eexists. reflexivity.
Qed.

(** Constant output with the delta part: the density estimate of constant data is singular. *)
Section Constant.
Variable kde : list R -> list R -> result (list R).
Variable nq : R -> R.
Hypothesis singular : forall d g, constant d -> kde d g = Err LinAlgError.

Lemma calc_delta_constant : forall Y g X m, constant Y -> calc_delta kde Y g X m = Err LinAlgError.
Proof using singular. intros Y g X m H. unfold calc_delta. rewrite singular; auto. Qed.
Lemma outputs_constant : forall Y c, Forall (fun i => i < length Y) c -> constant Y -> constant (outputs Y c).
Proof using.
  intros Y c HF HC x y Hx Hy. unfold outputs in *. apply in_map_iff in Hx, Hy. destruct Hx as (i & <- & Hi). destruct Hy as (j & <- & Hj).
  rewrite Forall_forall in HF. apply HC; apply nth_In; apply HF; auto.
Qed.
Lemma balanced_range : forall c X y edges k ind, resample c X y Balanced edges k = Ok ind -> Forall (fun i => i < length X) ind.
Proof using.
  intros c X y edges k ind H. assert (HC : ~ constant X) by (intros C; rewrite resample_constant in H; [discriminate|auto]).
  assert (HX : X <> []) by (intros ->; discriminate).
  destruct (bins_indices edges X k) as [init fin] eqn:E. pose proof (resample_balanced c X y edges k init fin HX HC E) as R. rewrite H in R.
  destruct R as (_ & _ & ds & -> & D). apply Forall_forall. intros i Hi. apply (dealt_in _ _ _ _ _ D) in Hi. eapply bins_in_range; eauto.
Qed.
Lemma param_constant_output : forall dc sc Y X ws n conf y spec edges nt ind, constant Y -> length X = length Y ->
  check_bininfo spec (minl X) (maxl X) = Ok (edges, nt) -> resample (dc Balanced 0) X y Balanced edges (Nat.max (length X / 200) 10) = Ok ind ->
  delta_param kde nq dc sc Y X true ws n conf y spec = Err ValueError.
Proof using singular.
  intros dc sc Y X ws n conf y spec edges nt ind HC HL HE HR. unfold delta_param. rewrite HE. cbn [bind fst snd map app run_all].
  unfold run_mode at 1. cbn [mode_eqb andb]. unfold bias_reduced at 1. rewrite HR. cbn [bind].
  pose proof (balanced_range _ _ _ _ _ _ HR) as F. rewrite (take_ok Y) by (rewrite <- HL; auto). cbn [bind]. rewrite (take_ok X) by auto. cbn [bind].
  rewrite calc_delta_constant; [reflexivity|]. apply outputs_constant; auto. rewrite <- HL. auto.
Qed.
End Constant.

(** Ten points at 0 and ten at 1, two bins. *)
Definition twenty : list R := repeat 0%R 10 ++ repeat 1%R 10.
Lemma twenty_minmax : minl twenty = 0%R /\ maxl twenty = 1%R.
Proof.
  assert (N : twenty <> []) by discriminate. destruct (minl_spec twenty N) as [A B]. destruct (maxl_spec twenty N) as [C D].
  assert (I : forall x, In x twenty -> x = 0%R \/ x = 1%R).
  { intros x Hx. apply in_app_or in Hx. destruct Hx as [Hx|Hx]; apply repeat_spec in Hx; auto. }
  pose proof (B 0%R ltac:(simpl; auto)). pose proof (D 1%R ltac:(unfold twenty; apply in_or_app; right; simpl; auto)).
  destruct (I _ A), (I _ C); split; lra.
Qed.
Lemma twenty_bins : bins_indices [0; 1/2; 1]%R twenty 10 = ([seq 0 10; seq 10 10], [seq 0 10; seq 10 10]).
Proof.
  apply bins_indices_spec. assert (N : forall i x, nth_error twenty i = Some x <-> (i < 10 /\ x = 0%R) \/ (10 <= i < 20 /\ x = 1%R)).
  { intros i x. unfold twenty. do 20 (destruct i as [|i]; [cbn [repeat app nth_error]; split; [intros E; inversion E; subst; first [left; split; [lia|reflexivity] | right; split; [lia|reflexivity]]|intros [[? ->]|[? ->]]; auto; lia]|]).
    split; [destruct i; discriminate|intros [[? _]|[? _]]; lia]. }
  split.
  - split; auto. intros s b Hs. destruct s as [|[|s]]; cbn in Hs; [| |destruct s; discriminate]; inversion Hs; subst b; clear Hs.
    + split; [repeat constructor|]. intros i. change [0; 1; 2; 3; 4; 5; 6; 7; 8; 9] with (seq 0 10). rewrite in_seq. split.
      * intros Hi. exists 0%R. split; [apply N; left; split; [lia|auto]|]. unfold in_bin. simpl. repeat split; intros; try lia; lra.
      * intros (x & Hx & B). apply N in Hx. destruct Hx as [[Hx _]|[_ ->]]; [lia|]. destruct B as (_ & _ & B). simpl in B. lra.
    + split; [repeat constructor|]. intros i. change [10; 11; 12; 13; 14; 15; 16; 17; 18; 19] with (seq 10 10). rewrite in_seq. split.
      * intros Hi. exists 1%R. split; [apply N; right; split; [lia|auto]|]. unfold in_bin. simpl. repeat split; intros; try lia; lra.
      * intros (x & Hx & B). apply N in Hx. destruct Hx as [[_ ->]|[Hx _]]; [|lia]. destruct B as (_ & B & _). specialize (B ltac:(lia)). simpl in B. lra.
  - exists [[seq 0 10]; [seq 10 10]]. repeat split.
    + constructor; [|constructor; [|constructor]]; (split; [discriminate|]; intros g1 g2 E N1 N2; exfalso;
        destruct g1 as [|u g1]; [congruence|]; destruct g2 as [|v g2]; [congruence|]; apply (f_equal (@length _)) in E; simpl in E; rewrite app_length in E; simpl in E; lia).
    + intros g gs1 gs2 E N2. destruct gs1 as [|u gs1]; [inversion E; simpl; lia|]. destruct gs1 as [|v gs1]; inversion E; subst; [congruence|].
      destruct gs1; discriminate.
Qed.
Lemma twenty_draw : forall c edges nt, check_bininfo (Some (BInt 2)) (minl twenty) (maxl twenty) = Ok (edges, nt) ->
  exists ind, resample c twenty 20 Balanced edges 10 = Ok ind.
Proof.
  intros c edges nt H. destruct twenty_minmax as [Emin Emax]. rewrite Emin, Emax in H.
  assert (E : edges = linspace 0 1 3). { cbn [check_bininfo] in H. change (2 + 1 <? 0)%Z with false in H. change (Z.to_nat (2 + 1)) with 3 in H. congruence. }
  assert (E3 : linspace 0 1 3 = [0; 1/2; 1]%R). { unfold linspace. cbn [Nat.eqb seq map Nat.sub INR]. f_equal; [field|]. f_equal; [field|]. f_equal. field. }
  rewrite E3 in E.
  subst edges. assert (C : ~ constant twenty). { intros C. pose proof (C 0%R 1%R ltac:(simpl; auto) ltac:(unfold twenty; apply in_or_app; right; simpl; auto)). lra. }
  pose proof (resample_balanced c twenty 20 [0; 1/2; 1]%R 10 _ _ ltac:(discriminate) C twenty_bins) as R.
  destruct (resample c twenty 20 Balanced [0; 1/2; 1]%R 10) as [ind|e]; [eauto|]. exfalso. cbn [length] in R.
  destruct R as [[_ R]|[[_ R]|[_ [_ R]]]]; [discriminate|discriminate|]. change (20 / 2) with 10 in R. lia.
Qed.

(** The bias-corrected distance of four points. *)
Definition four_draws (s _i k : nat) : nat := match s with 0 => k | _ => if k =? 0 then 0 else 2 end.
Lemma four_negative : forall kde nq g f0 f1 f2 conf e k,
  kde [0; 0; 1; 1]%R g = Ok f0 -> kde [0; 1; 1; 1]%R g = Ok f1 -> kde [0; 1]%R g = Ok f2 ->
  bias_reduced kde nq four_draws [0; 0; 1; 1]%R g [1; 2; 3; 4]%R (grid_m 4 2) 1 conf 4 Raw e k =
    Ok (Some (- (mass (map2 (fun a b => Rabs (a - b)) f1 f2) g / 4))%R, None, [0; 1; 2; 3]).
Proof.
  intros kde nq g f0 f1 f2 conf e k K0 K1 K2. unfold bias_reduced.
  assert (R : forall s, resample (four_draws s) [1; 2; 3; 4]%R 4 Raw e k = Ok (if s =? 0 then [0; 1; 2; 3] else [0; 2; 2; 2])).
  { intros s. unfold resample. destruct (Reqb _ _) eqn:E.
    - exfalso. apply constant_max_min in E; [|discriminate]. pose proof (E 1%R 2%R ltac:(simpl; auto) ltac:(simpl; auto)). lra.
    - destruct s; reflexivity. }
  rewrite R. cbn [Nat.eqb bind]. unfold take. cbn [mapM get nth_error bind].
  rewrite (constant_classes_zero kde [0; 0; 1; 1]%R g [1; 2; 3; 4]%R 4 2 f0); auto.
  2:{ intros j Hj. pose proof (classes_sorted4 1 2 3 4 ltac:(lra) ltac:(lra) ltac:(lra)) as C. unfold classes_list in C. cbn [map seq length] in C. inversion C as [[C0 C1]].
      destruct j as [|[|j]]; [rewrite C0|rewrite C1|lia]; intros x y [<-|[<-|[]]] [<-|[<-|[]]]; auto. }
  cbn [bind seq]. change (mapM (fun k0 => resample (four_draws (S k0)) [1; 2; 3; 4]%R 4 Raw e k) [0]) with
    (do r <- resample (four_draws 1) [1; 2; 3; 4]%R 4 Raw e k ;; do rs <- Ok [] ;; Ok (r :: rs)).
  rewrite (R 1). cbn [Nat.eqb bind mapM get nth_error].
  assert (D : calc_delta kde [0; 1; 1; 1]%R g [1; 3; 3; 3]%R (grid_m 4 2) = Ok (mass (map2 (fun a b => Rabs (a - b)) f1 f2) g / 4)%R).
  { unfold calc_delta. rewrite K1. cbn [bind]. rewrite grid_length. cbn [Nat.add Nat.sub seq mapM Nat.eqb].
    pose proof (classes_sorted4 1 3 3 3 ltac:(lra) ltac:(lra) ltac:(lra)) as C. unfold classes_list in C. cbn [map seq length] in C. inversion C as [[C0 C1]].
    unfold class_term. rewrite C0, C1. cbn [mapM get nth_error bind].
    assert (P0 : Reqb (ptp [0; 1]%R) 0 = false).
    { apply not_true_iff_false. rewrite ptp_constant by discriminate. intros E. pose proof (E 0%R 1%R ltac:(simpl; auto) ltac:(simpl; auto)). lra. }
    assert (P1 : Reqb (ptp [1; 1]%R) 0 = true).
    { rewrite ptp_constant by discriminate. intros x y [<-|[<-|[]]] [<-|[<-|[]]]; auto. }
    rewrite P0, P1, K2. cbn [bind]. rewrite trapezoid_mass. f_equal. simpl. field. }
  rewrite D. cbn [bind map fmean_of]. unfold half_width, sd1. cbn [length Nat.ltb Nat.leb option_map]. unfold mean. cbn [Rsum fold_right length INR]. do 4 f_equal. simpl. field.
Qed.
