(** * Delta: the first-order index is a variance ratio. *)
From Coq Require Import Reals String List Arith ZArith Bool Lia Lra Permutation Sorted.
From Verif Require Import Base Arrays ListFacts ModelScale ProofsScale Stats Sums Quant ModelRsa SpecRsa ProofsRsa ProofsRsa3 ModelFast ModelDelta SpecDelta ProofsDelta ProofsDelta2 ProofsDelta3 ProofsDelta4.
Import ListNotations.
Local Open Scope nat_scope.

(** ** Law of total variance *)
Lemma outputs_all : forall Y, outputs Y (seq 0 (length Y)) = Y.
Proof.
  intros Y. unfold outputs. apply nth_ext with (d := 0%R) (d' := 0%R); rewrite map_length, seq_length; auto.
  intros i Hi. rewrite nth_indep with (d' := nth 0 Y 0%R) by (rewrite map_length, seq_length; auto).
  rewrite map_nth with (f := fun i => nth i Y 0%R). rewrite seq_nth by auto. auto.
Qed.
Lemma outputs_length : forall Y c, length (outputs Y c) = length c.
Proof. intros. apply map_length. Qed.
Lemma squares_shift : forall l m, l <> [] -> Rsum (map (fun v => (v - m) ^ 2)%R l) = (squares_of l + INR (length l) * (mean l - m) ^ 2)%R.
Proof.
  intros l m H. unfold squares_of.
  assert (E : Rsum (map (fun v => (v - m) ^ 2)%R l) =
    Rsum (map (fun v => ((v - mean l) ^ 2 + (2 * (mean l - m) * v + ((mean l - m) ^ 2 - 2 * (mean l - m) * mean l)))%R) l)).
  { apply Rsum_ext. intros v _. ring. }
  rewrite E, Rsum_map_plus. f_equal. rewrite Rsum_map_plus, Rsum_map_scal, map_id, Rsum_const.
  assert (S : Rsum l = (INR (length l) * mean l)%R).
  { unfold mean. field. apply Rgt_not_eq, INR_length_pos; auto. }
  rewrite S. ring.
Qed.
Lemma Rsum_concat : forall A (f : A -> R) ls, Rsum (map f (concat ls)) = Rsum (map (fun l => Rsum (map f l)) ls).
Proof. induction ls as [|l ls IH]; simpl; auto. rewrite map_app, Rsum_app, IH. auto. Qed.
Lemma total_variance : forall Y cls, Permutation (concat cls) (seq 0 (length Y)) -> Forall (fun c => c <> []) cls ->
  squares_of Y = (Rsum (map (fun c => squares_of (outputs Y c)) cls) +
                  Rsum (map (fun c => INR (length c) * (mean (outputs Y c) - mean Y) ^ 2) cls))%R.
Proof.
  intros Y cls HP HF.
  assert (E : squares_of Y = Rsum (map (fun i => (nth i Y 0 - mean Y) ^ 2)%R (seq 0 (length Y)))).
  { unfold squares_of. transitivity (Rsum (map (fun v => (v - mean Y) ^ 2)%R (outputs Y (seq 0 (length Y))))); [rewrite outputs_all; auto|].
    unfold outputs. rewrite map_map. auto. }
  rewrite E.
  rewrite <- (Rsum_perm _ _ (Permutation_map (fun i => (nth i Y 0 - mean Y) ^ 2)%R HP)).
  rewrite Rsum_concat, <- Rsum_map_plus. apply Rsum_ext. intros c Hc. rewrite Forall_forall in HF. specialize (HF c Hc).
  rewrite <- (outputs_length Y c). rewrite <- squares_shift.
  - unfold outputs. rewrite map_map. auto.
  - destruct c; [congruence|discriminate].
Qed.
Lemma squares_nonneg : forall l, (0 <= squares_of l)%R.
Proof. intros l. apply Rsum_nonneg. intros x Hx. apply in_map_iff in Hx. destruct Hx as (v & <- & _). apply sq_nonneg. Qed.
Lemma var_squares : forall l, var l = (squares_of l / INR (length l))%R.
Proof. intros l. unfold var, mean at 1. rewrite map_length. auto. Qed.

(** ** The model's loop *)
Lemma take_outputs : forall Y c, Forall (fun i => i < length Y) c -> mapM (get Y) c = Ok (outputs Y c).
Proof.
  intros Y c H. induction H as [|i c Hi H IH]; simpl; auto. unfold get at 1.
  destruct (nth_error_lt_Some Y Hi) as [v Hv]. rewrite Hv. cbn [bind]. rewrite IH. cbn [bind]. f_equal. f_equal.
  symmetry. apply nth_error_nth. auto.
Qed.
Lemma class_range : forall X m j, Forall (fun i => i < length X) (class_of X m j).
Proof. intros. apply Forall_forall. intros i Hi. unfold class_of in Hi. apply filter_In in Hi. destruct Hi as [Hi _]. apply in_seq in Hi. lia. Qed.
Lemma mapM_all_ok : forall A B (f : A -> result B) g l, (forall x, In x l -> f x = Ok (g x)) -> mapM f l = Ok (map g l).
Proof. intros A B f g l H. rewrite (mapM_ext f (fun x => Ok (g x)) l H). apply mapM_Ok_map. Qed.
Lemma all_some_map_some : forall A (f : A -> R) l, all_some (map (fun x => Some (f x)) l) = Some (map f l).
Proof. induction l as [|a l IH]; simpl; auto. rewrite IH. auto. Qed.

Definition S1_of (Y : list R) (cls : list (list nat)) : R :=
  (Rsum (map (fun c => INR (length c) * (mean (outputs Y c) - mean Y) ^ 2) cls) / squares_of Y)%R.
Lemma sobol_first_spec : forall Y X M, Y <> [] -> length X = length Y -> 1 <= M <= length Y ->
  sobol_first Y X (grid_m (length Y) M) = Ok (Some (if Req_EM_T (ptp Y) 0 then 0%R else S1_of Y (classes_list X M))).
Proof.
  intros Y X M HY HX HM. unfold sobol_first. rewrite match_ne by auto. unfold Reqb.
  destruct (Req_EM_T (ptp Y) 0) as [E|E]; auto.
  rewrite grid_length. replace (M + 1 - 1) with M by lia. rewrite <- HX.
  set (m := grid_m (length X) M).
  assert (NE : forall j, In j (seq 0 M) -> class_of X m j <> []).
  { intros j Hj. apply in_seq in Hj. pose proof (class_nonempty X M (classes_list X M) ltac:(lia) (classes_spec X M ltac:(lia))) as F.
    rewrite Forall_forall in F. apply F. unfold classes_list. apply in_map. apply in_seq. lia. }
  rewrite (mapM_all_ok _ _ _ (fun j => Some (INR (length (class_of X m j)) / INR (length X) * (mean (outputs Y (class_of X m j)) - mean Y) ^ 2)%R)).
  - cbn [bind]. rewrite all_some_map_some. f_equal. unfold fdiv, Reqb.
    assert (V : var Y <> 0%R) by (intros C; apply E; apply ptp_var; auto).
    destruct (Req_EM_T (var Y) 0) as [|_]; [tauto|]. f_equal. unfold S1_of, classes_list. rewrite map_map. fold m.
    rewrite var_squares in *. rewrite HX in *.
    assert (HN : (0 < INR (length Y))%R) by (apply INR_length_pos; auto).
    assert (Q : squares_of Y <> 0%R) by (intros C; apply V; rewrite C; unfold Rdiv; ring).
    rewrite (Rsum_ext _ (fun x => INR (length (class_of X m x)) / INR (length Y) * (mean (outputs Y (class_of X m x)) - mean Y) ^ 2)%R
      (fun x => / INR (length Y) * (INR (length (class_of X m x)) * (mean (outputs Y (class_of X m x)) - mean Y) ^ 2))%R) by (intros; unfold Rdiv; ring).
    rewrite Rsum_map_scal. field. split; lra.
  - intros j Hj. specialize (NE j Hj). rewrite take_outputs by (rewrite <- HX; apply class_range). cbn [bind].
    rewrite (match_ne _ (outputs Y (class_of X m j))); auto. intros C. apply NE. destruct (class_of X m j); [auto|discriminate].
Qed.
Lemma S1_range : forall Y X M, Y <> [] -> length X = length Y -> 1 <= M <= length Y -> ptp Y <> 0%R ->
  let cls := classes_list X M in
  (S1_of Y cls = 1 - Rsum (map (fun c => squares_of (outputs Y c)) cls) / squares_of Y)%R /\ (0 <= S1_of Y cls <= 1)%R.
Proof.
  intros Y X M HY HX HM HP cls.
  assert (EC : equal_classes X M cls) by (apply classes_spec; lia).
  assert (V : var Y <> 0%R) by (intros C; apply HP; apply ptp_var; auto).
  assert (Q : squares_of Y <> 0%R) by (intros C; apply V; rewrite var_squares, C; unfold Rdiv; ring).
  pose proof (squares_nonneg Y) as N.
  pose proof (total_variance Y cls ltac:(rewrite <- HX; apply (classes_partition X M cls ltac:(lia) EC)) (class_nonempty X M cls ltac:(lia) EC)) as T.
  set (w := Rsum (map (fun c => squares_of (outputs Y c)) cls)) in *.
  assert (W : (0 <= w)%R) by (apply Rsum_nonneg; intros x Hx; apply in_map_iff in Hx; destruct Hx as (c & <- & _); apply squares_nonneg).
  assert (B : (0 <= Rsum (map (fun c => INR (length c) * (mean (outputs Y c) - mean Y) ^ 2)%R cls))%R).
  { apply Rsum_nonneg. intros x Hx. apply in_map_iff in Hx. destruct Hx as (c & <- & _). apply Rmult_le_pos; [apply pos_INR|apply sq_nonneg]. }
  unfold S1_of. split.
  - set (b := Rsum (map (fun c => INR (length c) * (mean (outputs Y c) - mean Y) ^ 2)%R cls)) in *.
    replace b with (squares_of Y - w)%R by lra. field. auto.
  - split; [apply Rdiv_nonneg; lra|]. apply Rmult_le_reg_r with (squares_of Y); [lra|]. unfold Rdiv. rewrite Rmult_assoc, Rinv_l by auto. lra.
Qed.

(** ** The number of classes *)
Lemma tanh_bound : forall x, (-1 < tanh x < 1)%R.
Proof.
  intros x. unfold tanh, sinh, cosh. pose proof (exp_pos x). pose proof (exp_pos (- x)). split.
  - apply Rmult_lt_reg_r with ((exp x + exp (- x)) / 2)%R; [lra|]. unfold Rdiv at 2. rewrite Rmult_assoc, Rinv_l by lra. lra.
  - apply Rmult_lt_reg_r with ((exp x + exp (- x)) / 2)%R; [lra|]. unfold Rdiv at 1. rewrite Rmult_assoc, Rinv_l by lra. lra.
Qed.
Lemma ceil_bounds : forall x n m, (INR n < x)%R -> (x <= INR m)%R -> n < ceil_nat x <= m.
Proof.
  intros x n m H1 H2. unfold ceil_nat. pose proof (base_Int_part (- x)) as [B1 B2]. set (z := Int_part (- x)) in *.
  rewrite !INR_IZR_INZ in *. split.
  - assert (Z.of_nat n < - z)%Z; [|lia]. apply lt_IZR. rewrite opp_IZR. lra.
  - assert (- z <= Z.of_nat m)%Z; [|lia]. apply Z.lt_succ_r. apply lt_IZR. rewrite opp_IZR, succ_IZR. lra.
Qed.
Lemma class_power : forall y, 1 <= y -> let e := (2 / (7 + tanh ((1500 - INR y) / 500)))%R in (1 <= Rpower (INR y) e <= INR y)%R /\ (1 / 4 < e < 1 / 3)%R.
Proof.
  intros y Hy e. pose proof (tanh_bound ((1500 - INR y) / 500)) as T. set (t := tanh ((1500 - INR y) / 500)) in *.
  assert (E : (1 / 4 < e < 1 / 3)%R).
  { unfold e. split; apply Rmult_lt_reg_r with (7 + t)%R; try lra; unfold Rdiv; rewrite ?(Rmult_assoc 2), ?Rinv_l by lra; lra. }
  split; auto. apply le_INR in Hy. simpl in Hy. destruct (Req_dec (INR y) 1) as [->|N].
  - unfold Rpower. rewrite ln_1, Rmult_0_r, exp_0. lra.
  - assert (1 < INR y)%R by lra. split.
    + rewrite <- (Rpower_O (INR y)) at 1 by lra. apply Rle_Rpower; lra.
    + rewrite <- (Rpower_1 (INR y)) at 2 by lra. apply Rle_Rpower; lra.
Qed.
Lemma classes_bounds : forall y, 1 <= y -> 1 <= classes y <= y.
Proof.
  intros y Hy. unfold classes. replace (y =? 0) with false by (symmetry; apply Nat.eqb_neq; lia).
  destruct (class_power y Hy) as [[P1 P2] _].
  destruct (ceil_bounds (Rpower (INR y) (2 / (7 + tanh ((1500 - INR y) / 500)))) 0 y) as [C1 C2]; [simpl; lra|auto|]. lia.
Qed.
Lemma classes_cap : forall y, classes y <= 48.
Proof. intros y. unfold classes. destruct (y =? 0); lia. Qed.
