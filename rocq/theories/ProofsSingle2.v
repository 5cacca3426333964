(** * The distances and scores of the brute-force selection in rounded arithmetic. *)
From Coq Require Import Reals String List Arith ZArith Bool Lia Lra Psatz Permutation Sorted.
From Flocq Require Import Core.
From Verif Require Import Base Arrays ListFacts ModelGroups ModelScale Stats Sums SpecGroups SpecSobol SpecFF ModelMorris ModelMorrisAnalyze SpecMorris ModelDouble ModelDouble4 ModelSingle SpecSingle.
From Verif Require Import ProofsHdmr2 ProofsMorris3 ProofsDouble ProofsDouble5 ProofsSingle.
Import ListNotations.
Local Open Scope R_scope.

Definition rd : R := 1 - bpow radix2 (-53).
Definition rs : R := 1 - bpow radix2 (-24).
Lemma rd_01 : 0 <= rd <= 1.
Proof. unfold rd. assert (bpow radix2 (-53) <= bpow radix2 0) by (apply bpow_le; lia). change (bpow radix2 0) with 1 in H. pose proof (bpow_ge_0 radix2 (-53)). lra. Qed.
Lemma rs_01 : 0 <= rs <= 1.
Proof. unfold rs. assert (bpow radix2 (-24) <= bpow radix2 0) by (apply bpow_le; lia). change (bpow radix2 0) with 1 in H. pose proof (bpow_ge_0 radix2 (-24)). lra. Qed.
Lemma pow_01 : forall r n, 0 <= r <= 1 -> 0 <= r ^ n <= 1.
Proof. intros r n R. split; [apply pow_le; tauto|]. rewrite <- (pow1 n). apply pow_incr. auto. Qed.
Lemma mult_01 : forall a b, 0 <= a <= 1 -> 0 <= b <= 1 -> 0 <= a * b <= 1.
Proof. intros. split; nra. Qed.
Local Hint Resolve rd_01 rs_01 pow_01 mult_01 : unit.

Definition h60 : R := bpow radix2 (-60).
Definition h120 : R := bpow radix2 (-120).
Lemma h60_sq : h60 * h60 = h120.
Proof. unfold h60, h120. rewrite <- bpow_plus. reflexivity. Qed.
Lemma h60_pos : 0 <= h60. Proof. apply bpow_ge_0. Qed.
Lemma h120_pos : 0 <= h120. Proof. apply bpow_ge_0. Qed.
Lemma fl_60 : accurate fl rd h60.
Proof. apply fl_accurate; [apply double_bpow; lia|apply bpow_le; lia]. Qed.
Lemma fl_120 : accurate fl rd h120.
Proof. apply fl_accurate; [apply double_bpow; lia|apply bpow_le; lia]. Qed.
Lemma f32_60 : accurate f32 rs h60.
Proof. apply f32_accurate; [apply single_bpow; lia|apply bpow_le; lia]. Qed.
Lemma f32_120 : accurate f32 rs h120.
Proof. apply f32_accurate; [apply single_bpow; lia|apply bpow_le; lia]. Qed.
Local Hint Resolve fl_60 fl_120 f32_60 f32_120 h60_pos h120_pos : unit.

Lemma within_root1 : forall r x y, 0 <= r <= 1 -> 0 <= x -> 0 <= y -> within r x y -> within r (sqrt x) (sqrt y).
Proof. intros r x y R X Y W. apply within_root; try tauto. apply (within_weaken r); auto. split; nra. Qed.

(** ** The squared difference of two coordinates *)
Lemma square_abs : forall a b, fl (a - b) * fl (a - b) = fl (Rabs (a - b)) * fl (Rabs (a - b)).
Proof.
  intros. unfold Rabs. destruct (Rcase_abs (a - b)); [|reflexivity]. rewrite fl_opp. ring.
Qed.
Lemma square_term : forall a b, a = b \/ h60 <= Rabs (a - b) ->
  0 <= (a - b) ^ 2 /\ clear_of h120 (fl (fl (a - b) * fl (a - b))) /\ within (rd ^ 3) ((a - b) ^ 2) (fl (fl (a - b) * fl (a - b))).
Proof.
  intros a b S. split; [apply pow2_ge_0|]. rewrite square_abs.
  assert (C : clear_of h60 (Rabs (a - b))). { destruct S as [->|S]; [left|right; auto]. rewrite Rminus_diag_eq by auto. apply Rabs_R0. }
  destruct (accurate_step fl rd h60 fl_60 _ C) as (C1 & W1).
  set (y := fl (Rabs (a - b))) in *. assert (Y : 0 <= y) by (apply (clear_pos h60); auto with unit).
  assert (C2 : clear_of h120 (y * y)). { rewrite <- h60_sq. apply clear_square; auto with unit. }
  destruct (accurate_step fl rd h120 fl_120 _ C2) as (C3 & W3). split; auto.
  replace ((a - b) ^ 2) with (Rabs (a - b) * Rabs (a - b)).
  2:{ rewrite <- Rabs_mult, Rabs_pos_eq; [ring|]. replace ((a - b) * (a - b)) with ((a - b) ^ 2) by ring. apply pow2_ge_0. }
  replace (rd ^ 3) with (rd * rd * rd) by ring. pose proof rd_01.
  eapply within_trans; [nra|tauto| |exact W3]. apply within_square; auto; [tauto|apply Rabs_pos].
Qed.

Lemma map2_len : forall A B C (f : A -> B -> C) l l', length (map2 f l l') = Nat.min (length l) (length l').
Proof. induction l; destruct l'; simpl; auto. Qed.

Section Scores.
Variables arr_cdist arr_sum arr_einsum : nat -> tree.
Hypothesis A1 : arrangement arr_cdist.
Hypothesis A2 : arrangement arr_sum.
Hypothesis A3 : arrangement arr_einsum.

Definition apart (x y : list R) : Prop := forall j a b, nth_error x j = Some a -> nth_error y j = Some b -> a = b \/ h60 <= Rabs (a - b).

Lemma squares_close : forall x y, apart x y -> Forall2 (fun e f => 0 <= e /\ clear_of h120 f /\ within (rd ^ 3) e f)
  (map2 (fun a b => (a - b) ^ 2) x y) (map2 (fun a b => fl (fl (a - b) * fl (a - b))) x y).
Proof.
  induction x as [|a x IH]; intros y S; [constructor|]. destruct y as [|b y]; [constructor|]. cbn [map2]. constructor.
  - apply square_term, (S 0%nat); reflexivity.
  - apply IH. intros j c d H1 H2. apply (S (Datatypes.S j)); auto.
Qed.

Lemma euclid_close : forall D x y, (0 < D)%nat -> length x = D -> length y = D -> apart x y ->
  0 <= point_distance x y /\ clear_of h60 (euclid_fl arr_cdist x y) /\ within (rd ^ (D + 3)) (point_distance x y) (euclid_fl arr_cdist x y).
Proof.
  intros D x y D0 LX LY S. rewrite <- euclid_point. unfold euclid, euclid_fl.
  assert (R3 : 0 <= rd ^ 3) by (apply pow_01; auto with unit).
  destruct (sum_accurate fl rd h120 rd_01 h120_pos fl_120 (rd ^ 3) arr_cdist _ _ R3 A1 (squares_close x y S)) as (P & C & W).
  rewrite map2_len, LX, LY, Nat.min_id, <- pow_add in W. split; [apply sqrt_pos|].
  set (t := sum_by fl arr_cdist _) in *. assert (T : 0 <= t) by (apply (clear_pos h120); auto with unit).
  rewrite <- h60_sq in C. apply clear_root in C; auto with unit.
  split; [apply (accurate_step fl rd h60 fl_60 _ C)|].
  replace (D + 3)%nat with ((3 + (D - 1)) + 1)%nat by lia. rewrite (pow_add rd (3 + (D - 1)) 1), pow_1.
  apply (accurate_chain fl rd h60 rd_01 fl_60); auto. { apply pow_01; auto with unit. }
  apply within_root1; auto with unit.
Qed.

(** ** Distances of trajectories *)
Lemma Rsum_concat : forall ls, Rsum (concat ls) = Rsum (map Rsum ls).
Proof. induction ls as [|l ls IH]; auto. cbn [concat map]. rewrite Rsum_app, IH. reflexivity. Qed.

Definition points (D n : nat) (A : list (list R)) : Prop := length A = n /\ List.Forall (fun x => length x = D) A.

Lemma row_close : forall D x l, (0 < D)%nat -> length x = D -> List.Forall (fun y => length y = D /\ apart x y) l ->
  Forall2 (fun e f => 0 <= e /\ clear_of h60 f /\ within (rd ^ (D + 3)) e f) (map (point_distance x) l) (map (euclid_fl arr_cdist x) l).
Proof.
  intros D x l D0 LX F. induction F as [|y l (LY & S) F IH]; constructor; auto. apply euclid_close; auto.
Qed.
Lemma cdist_close : forall D m l, (0 < D)%nat -> List.Forall (fun x => length x = D) m -> List.Forall (fun y => length y = D) l ->
  (forall x y, In x m -> In y l -> apart x y) ->
  Forall2 (fun e f => 0 <= e /\ clear_of h60 f /\ within (rd ^ (D + 3)) e f)
    (concat (map (fun x => map (point_distance x) l) m)) (concat (map (fun x => map (euclid_fl arr_cdist x) l) m)).
Proof.
  intros D m l D0 Fm Fl S. induction Fm as [|x m LX Fm IH]; [constructor|]. cbn [map concat]. apply Forall2_app.
  - apply row_close; auto. rewrite List.Forall_forall in *. intros y Hy. split; auto. apply S; simpl; auto.
  - apply IH. intros; apply S; simpl; auto.
Qed.
Lemma concat_len : forall A B (f : A -> list B) n m, (forall x, In x m -> length (f x) = n) -> length (concat (map f m)) = (length m * n)%nat.
Proof. induction m as [|x m IH]; intros H; auto. cbn [map concat length]. rewrite app_length, IH by (intros; apply H; simpl; auto). rewrite (H x) by (simpl; auto). lia. Qed.

Lemma distance_close : forall D n m l d, (0 < D)%nat -> (0 < n)%nat -> points D n m -> points D n l ->
  (forall x y, In x m -> In y l -> apart x y) -> is_distance (fun x => x) m l d ->
  0 <= d /\ clear_of h60 (compute_distance_fl arr_cdist arr_sum m l) /\ within (rd ^ (D + n * n + 2) * rs) d (compute_distance_fl arr_cdist arr_sum m l).
Proof.
  intros D n m l d D0 N0 (Lm & Fm) (Ll & Fl) S I. unfold compute_distance_fl.
  assert (H : list_all2 (list_all2 Reqb) m l = true <-> m = l).
  { apply list_all2_eq. apply list_all2_eq. intros. apply Reqb_true. }
  destruct I as [(E & ->)|(NE & ->)].
  - apply H in E. rewrite E. split; [lra|]. split; [left; auto|split; lra].
  - destruct (list_all2 _ m l); [exfalso; apply NE, H; auto|].
    assert (R3 : 0 <= rd ^ (D + 3)) by (apply pow_01; auto with unit).
    destruct (sum_accurate fl rd h60 rd_01 h60_pos fl_60 _ arr_sum _ _ R3 A2 (cdist_close D m l D0 Fm Fl S)) as (P & C & W).
    rewrite Rsum_concat, map_map in P, W. rewrite (concat_len _ _ _ n) in W by (intros; rewrite map_length; auto). rewrite Lm, <- pow_add in W.
    split; [exact P|]. split; [apply (accurate_step f32 rs h60 f32_60 _ C)|].
    replace (D + n * n + 2)%nat with (D + 3 + (n * n - 1))%nat by nia.
    apply (accurate_chain f32 rs h60 rs_01 f32_60); auto. apply pow_01; auto with unit.
Qed.

(** ** Scores *)
Lemma score_close : forall q ds fs, 0 <= q <= 1 -> Forall2 (fun d f => 0 <= d /\ clear_of h60 f /\ within q d f) ds fs ->
  within (q * rs ^ (length ds + 2)) (length_of ds) (score_fl arr_einsum fs).
Proof.
  intros q ds fs Q F. unfold length_of, score_fl.
  assert (G : Forall2 (fun d f => 0 <= d /\ clear_of h120 f /\ within (q * q * rs) d f) (map (fun d => d * d) ds) (map (fun f => f32 (f * f)) fs)).
  { induction F as [|d f ds fs (P & C & W) F IH]; constructor; auto. split; [nra|].
    pose proof (clear_square _ _ h60_pos C) as C2. rewrite h60_sq in C2.
    split; [apply (accurate_step f32 rs h120 f32_120 _ C2)|].
    apply (accurate_chain f32 rs h120 rs_01 f32_120); auto; [nra|]. apply within_square; auto; [tauto|]. apply (clear_pos h60); auto with unit. }
  assert (Q3 : 0 <= q * q * rs) by (apply mult_01; auto with unit).
  destruct (sum_accurate f32 rs h120 rs_01 h120_pos f32_120 _ arr_einsum _ _ Q3 A3 G) as (P & C & W).
  change (fold_right Rplus 0) with Rsum. rewrite map_length in W. set (t := sum_by f32 arr_einsum _) in *.
  assert (T : 0 <= t) by (apply (clear_pos h120); auto with unit).
  rewrite <- h60_sq in C. apply clear_root in C; auto with unit.
  replace (length ds + 2)%nat with ((length ds + 1) + 1)%nat by lia. rewrite (pow_add rs (length ds + 1) 1), pow_1, <- Rmult_assoc.
  apply (accurate_chain f32 rs h60 rs_01 f32_60); auto. { apply mult_01; auto with unit. }
  apply within_root; auto. { apply mult_01; auto with unit. }
  apply (within_weaken (q * q * rs * rs ^ (length ds - 1))); auto. clear - Q.
  assert (E : (q * rs ^ (length ds + 1)) * (q * rs ^ (length ds + 1)) = q * q * (rs ^ (length ds + 1) * rs ^ (length ds + 1))) by ring.
  rewrite E, <- pow_add, (Rmult_assoc (q * q) rs). change (rs * rs ^ (length ds - 1)) with (rs ^ (S (length ds - 1))). split.
  - apply mult_01; auto with unit.
  - apply Rmult_le_compat_l; [nra|]. apply pow_le1; [apply rs_01|lia].
Qed.
End Scores.
