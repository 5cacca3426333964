(** * Proofs about non-uniform scaling. *)
From Coq Require Import Reals String List Arith Bool Lia Lra.
From Verif Require Import Base ModelGroups ModelScale SpecScale ProofsScale.
Import ListNotations.
Local Open Scope R_scope.

Ltac rb := repeat match goal with
  | H : _ && _ = true |- _ => apply andb_true_iff in H; destruct H
  | H : _ || _ = false |- _ => apply orb_false_iff in H; destruct H
  | H : Rleb _ _ = true |- _ => apply Rleb_true in H
  | H : Rleb _ _ = false |- _ => apply Rleb_false in H
  | H : Rltb _ _ = true |- _ => apply Rltb_true in H
  | H : Rltb _ _ = false |- _ => apply Rltb_false in H
  | H : Reqb _ _ = true |- _ => apply Reqb_true in H
  | H : Reqb _ _ = false |- _ => apply Reqb_false in H
  end.

Definition tri (q c : R) : R :=
  if Rltb q c then sqrt (c * q) else 1 - sqrt ((1 - c) * (1 - q)).

Lemma sqrt_sq_le : forall a b, 0 <= a -> 0 <= b -> a <= b * b -> sqrt a <= b.
Proof. intros. rewrite <- (sqrt_square b) by auto. apply sqrt_le_1; nra. Qed.

Lemma tri_range : forall q c, 0 <= q <= 1 -> 0 <= c <= 1 -> 0 <= tri q c <= 1.
Proof.
  intros q c Hq Hc. unfold tri. destruct (Rltb q c) eqn:E; rb.
  - split; [apply sqrt_pos|]. apply sqrt_sq_le; nra.
  - assert (0 <= sqrt ((1 - c) * (1 - q))) by apply sqrt_pos.
    assert (sqrt ((1 - c) * (1 - q)) <= 1) by (apply sqrt_sq_le; nra). lra.
Qed.

Lemma tri_mono : forall q q' c, 0 <= q -> q < q' -> q' <= 1 -> 0 <= c < 1 -> tri q c < tri q' c.
Proof.
  intros q q' c H0 Hlt H1 Hc. unfold tri.
  destruct (Rltb q c) eqn:E, (Rltb q' c) eqn:E'; rb.
  - apply sqrt_lt_1; nra.
  - assert (sqrt (c * q) < c).
    { rewrite <- (sqrt_square c) at 2 by lra. apply sqrt_lt_1; nra. }
    assert (sqrt ((1 - c) * (1 - q')) <= 1 - c) by (apply sqrt_sq_le; nra).
    lra.
  - lra.
  - assert (sqrt ((1 - c) * (1 - q')) < sqrt ((1 - c) * (1 - q))).
    { apply sqrt_lt_1; nra. }
    lra.
Qed.

Lemma triang_ppf_some : forall q c loc scale y, triang_ppf q c loc scale = Some y ->
  0 < scale /\ 0 <= c <= 1 /\ 0 <= q <= 1 /\ y = loc + scale * tri q c.
Proof.
  unfold triang_ppf, unit_arg. intros q c loc scale y H.
  destruct (Rltb 0 scale && (Rleb 0 c && Rleb c 1) && (Rleb 0 q && Rleb q 1)) eqn:E; [|discriminate].
  rb. inversion H. auto.
Qed.

Lemma loguniform_some : forall q a b y, loguniform_ppf q a b = Some y ->
  0 < a /\ a < b /\ 0 <= q <= 1 /\ y = exp (ln a + q * (ln b - ln a)).
Proof.
  unfold loguniform_ppf, unit_arg. intros q a b y H.
  destruct (Rltb 0 a && Rltb a b && (Rleb 0 q && Rleb q 1)) eqn:E; [|discriminate].
  rb. inversion H. auto.
Qed.

Lemma loguniform_range : forall q a b, 0 < a -> a < b -> 0 <= q <= 1 ->
  a <= exp (ln a + q * (ln b - ln a)) <= b.
Proof.
  intros q a b Ha Hab Hq.
  assert (Hl : ln a < ln b) by (apply ln_increasing; auto).
  split.
  - rewrite <- (exp_ln a) at 1 by auto.
    destruct (Req_dec q 0) as [->|].
    + right. f_equal. ring.
    + left. apply exp_increasing. nra.
  - rewrite <- (exp_ln b) at 2 by lra.
    destruct (Req_dec q 1) as [->|].
    + right. f_equal. ring.
    + left. apply exp_increasing. nra.
Qed.

Lemma pow0_nonneg : forall x y, 0 <= pow0 x y.
Proof.
  intros. unfold pow0. destruct (Reqb x 0); [lra|]. left. apply exp_pos.
Qed.

Lemma pow0_mono : forall x x' y, 0 <= x -> x < x' -> 0 < y -> pow0 x y < pow0 x' y.
Proof.
  intros x x' y H0 Hlt Hy. unfold pow0.
  destruct (Reqb x' 0) eqn:E'; rb; [lra|].
  destruct (Reqb x 0) eqn:E; rb.
  - apply exp_pos.
  - apply Rlt_Rpower_l; lra.
Qed.

Lemma weibull_some : forall q c loc scale y, weibull_ppf q c loc scale = Some y ->
  0 <= q < 1 /\ y = loc + scale * pow0 (- ln (1 - q)) (1 / c).
Proof.
  unfold weibull_ppf. intros q c loc scale y H.
  destruct (Rleb 0 q && Rltb q 1) eqn:E; [|discriminate]. rb. inversion H. auto.
Qed.

Lemma neg_ln_nonneg : forall q, 0 <= q < 1 -> 0 <= - ln (1 - q).
Proof.
  intros q Hq. destruct (Req_dec q 0) as [->|].
  - rewrite Rminus_0_r, ln_1. lra.
  - assert (ln (1 - q) < ln 1) by (apply ln_increasing; lra). rewrite ln_1 in H0. lra.
Qed.

Lemma neg_ln_mono : forall q q', 0 <= q -> q < q' -> q' < 1 -> - ln (1 - q) < - ln (1 - q').
Proof.
  intros. assert (ln (1 - q') < ln (1 - q)) by (apply ln_increasing; lra). lra.
Qed.

Lemma norm_some : forall nq q loc scale y, norm_ppf nq q loc scale = Some y ->
  0 < q < 1 /\ y = loc + scale * nq q.
Proof.
  unfold norm_ppf. intros nq q loc scale y H.
  destruct (Rltb 0 q && Rltb q 1) eqn:E; [|discriminate]. rb. inversion H. auto.
Qed.

Lemma truncnorm_some : forall tq q a b loc scale y, truncnorm_ppf tq q a b loc scale = Some y ->
  0 <= q <= 1 /\ y = loc + scale * tq q a b.
Proof.
  unfold truncnorm_ppf, unit_arg. intros tq q a b loc scale y H.
  destruct (Rleb 0 q && Rleb q 1) eqn:E; [|discriminate]. rb. inversion H. auto.
Qed.

(** Description of an accepted column: some pointwise function of the entries, by cases of the
    distribution. *)
Inductive col_fun (nq : R -> R) (tq : R -> R -> R -> R)
  : string -> list R -> (R -> fval) -> Prop :=
| cf_triang3 : forall s e c, 0 <= e -> 0 <= c < 1 -> s <= e ->
    col_fun nq tq "triang" [s; e; c] (fun q => triang_ppf q c s (e - s))
| cf_triang2 : forall e c, 0 <= e -> 0 <= c < 1 ->
    col_fun nq tq "triang" [e; c] (fun q => triang_ppf q c 0 (e - 0))
| cf_unif : forall lo up r, lo < up ->
    col_fun nq tq "unif" (lo :: up :: r) (fun x => Some (x * (up - lo) + lo))
| cf_logunif : forall lo up r,
    col_fun nq tq "logunif" (lo :: up :: r) (fun q => loguniform_ppf q lo up)
| cf_norm : forall mu sd r, 0 < sd ->
    col_fun nq tq "norm" (mu :: sd :: r) (fun q => norm_ppf nq q mu sd)
| cf_truncnorm : forall lo up mu sd r, 0 < sd -> lo < up ->
    col_fun nq tq "truncnorm" (lo :: up :: mu :: sd :: r)
      (fun q => truncnorm_ppf tq q ((lo - mu) / sd) ((up - mu) / sd) mu sd)
| cf_lognorm : forall mu sd r, 0 < sd ->
    col_fun nq tq "lognorm" (mu :: sd :: r) (fun q => option_map exp (norm_ppf nq q mu sd))
| cf_weibull3 : forall k l s, 0 < k -> 0 < l ->
    col_fun nq tq "weibull" [k; l; s] (fun q => weibull_ppf q k s l)
| cf_weibull2 : forall k l, 0 < k -> 0 < l ->
    col_fun nq tq "weibull" [k; l] (fun q => weibull_ppf q k 0 l).

Ltac dstr d s := let E := fresh "E" in
  destruct (String.eqb d s) eqn:E; [apply String.eqb_eq in E; subst d | apply String.eqb_neq in E].

Lemma column_ok_fun : forall nq tq b d col ys,
  nonuniform_column nq tq b d col = Ok ys ->
  exists f, col_fun nq tq d b f /\ ys = map f col.
Proof.
  intros nq tq b d col ys H. unfold nonuniform_column in H.
  destruct b as [|b1 [|b2 b]]; try discriminate. cbn [get nth_error bind] in H.
  dstr d "triang"%string.
  { destruct b as [|b3 [|b4 b]]; cbn [bind] in H; try discriminate.
    - destruct (_ || _) eqn:Q; [discriminate|]. rb. inversion H; subst.
      eexists; split; [|reflexivity]. constructor; lra.
    - destruct (_ || _) eqn:Q; [discriminate|]. rb. inversion H; subst.
      eexists; split; [|reflexivity]. constructor; lra. }
  dstr d "unif"%string.
  { destruct (Rleb b2 b1) eqn:Q1; [discriminate|]. rb. inversion H; subst.
    eexists; split; [|reflexivity]. constructor; lra. }
  dstr d "logunif"%string.
  { inversion H; subst. eexists; split; [|reflexivity]. constructor. }
  dstr d "norm"%string.
  { destruct (Rleb b2 0) eqn:Q1; [discriminate|]. rb. inversion H; subst.
    eexists; split; [|reflexivity]. constructor; lra. }
  dstr d "truncnorm"%string.
  { destruct b as [|b3 [|b4 b]]; cbn [get nth_error bind] in H; try discriminate.
    destruct (Rleb b4 0) eqn:Q1; [discriminate|].
    destruct (Rleb b2 b1) eqn:Q2; [discriminate|]. rb. inversion H; subst.
    eexists; split; [|reflexivity]. constructor; lra. }
  dstr d "lognorm"%string.
  { destruct (Rleb b2 0) eqn:Q1; [discriminate|]. rb. inversion H; subst.
    eexists; split; [|reflexivity]. constructor; lra. }
  dstr d "weibull"%string.
  { destruct b as [|b3 [|b4 b]]; cbn [bind] in H; try discriminate.
    - destruct (_ || _) eqn:Q; [discriminate|]. rb. inversion H; subst.
      eexists; split; [|reflexivity]. constructor; lra.
    - destruct (_ || _) eqn:Q; [discriminate|]. rb. inversion H; subst.
      eexists; split; [|reflexivity]. constructor; lra. }
  discriminate.
Qed.

Lemma col_fun_support : forall nq tq, truncated_quantile tq ->
  forall d b f q y, col_fun nq tq d b f -> 0 <= q <= 1 -> f q = Some y -> in_support d b y.
Proof.
  intros nq tq Ht d b f q y Hf Hq H. destruct Hf.
  - apply triang_ppf_some in H. destruct H as (Hs & Hc & _ & ->).
    pose proof (tri_range q c Hq Hc). constructor. nra.
  - apply triang_ppf_some in H. destruct H as (Hs & Hc & _ & ->).
    pose proof (tri_range q c Hq Hc). constructor. nra.
  - inversion H; subst. constructor. nra.
  - apply loguniform_some in H. destruct H as (H1 & H2 & H3 & ->).
    constructor. apply loguniform_range; auto.
  - constructor.
  - apply truncnorm_some in H. destruct H as [_ ->].
    assert (Hab : (lo - mu) / sd < (up - mu) / sd).
    { unfold Rdiv. apply Rmult_lt_compat_r; [apply Rinv_0_lt_compat; lra|lra]. }
    destruct (Ht _ _ Hab) as [Hr _]. specialize (Hr q Hq).
    constructor.
    assert (E1 : lo = mu + sd * ((lo - mu) / sd)) by (field; lra).
    assert (E2 : up = mu + sd * ((up - mu) / sd)) by (field; lra).
    rewrite E1 at 1. rewrite E2 at 3. nra.
  - destruct (norm_ppf nq q mu sd); inversion H. constructor. apply exp_pos.
  - apply weibull_some in H. destruct H as [_ ->]. constructor.
    pose proof (pow0_nonneg (- ln (1 - q)) (1 / k)). nra.
  - apply weibull_some in H. destruct H as [_ ->]. constructor.
    pose proof (pow0_nonneg (- ln (1 - q)) (1 / k)). nra.
Qed.

Lemma col_fun_mono : forall nq tq, increasing_on_unit nq -> truncated_quantile tq ->
  forall d b f q q' y y', col_fun nq tq d b f -> q < q' ->
    f q = Some y -> f q' = Some y' -> y < y'.
Proof.
  intros nq tq Hn Ht d b f q q' y y' Hf Hlt H H'. destruct Hf.
  - apply triang_ppf_some in H. destruct H as (Hs & Hc & Hq & ->).
    apply triang_ppf_some in H'. destruct H' as (_ & _ & Hq' & ->).
    assert (tri q c < tri q' c) by (apply tri_mono; lra). nra.
  - apply triang_ppf_some in H. destruct H as (Hs & Hc & Hq & ->).
    apply triang_ppf_some in H'. destruct H' as (_ & _ & Hq' & ->).
    assert (tri q c < tri q' c) by (apply tri_mono; lra). nra.
  - inversion H; inversion H'; subst. nra.
  - apply loguniform_some in H. destruct H as (H1 & H2 & H3 & ->).
    apply loguniform_some in H'. destruct H' as (_ & _ & _ & ->).
    apply exp_increasing. assert (ln lo < ln up) by (apply ln_increasing; auto). nra.
  - apply norm_some in H. destruct H as [Hq ->]. apply norm_some in H'. destruct H' as [Hq' ->].
    assert (nq q < nq q') by (apply Hn; lra). nra.
  - apply truncnorm_some in H. destruct H as [Hq ->].
    apply truncnorm_some in H'. destruct H' as [Hq' ->].
    assert (Hab : (lo - mu) / sd < (up - mu) / sd).
    { unfold Rdiv. apply Rmult_lt_compat_r; [apply Rinv_0_lt_compat; lra|lra]. }
    destruct (Ht _ _ Hab) as [_ Hm].
    assert (tq q ((lo - mu) / sd) ((up - mu) / sd) < tq q' ((lo - mu) / sd) ((up - mu) / sd))
      by (apply Hm; lra).
    nra.
  - destruct (norm_ppf nq q mu sd) eqn:E; inversion H; subst.
    destruct (norm_ppf nq q' mu sd) eqn:E'; inversion H'; subst.
    apply norm_some in E. destruct E as [Hq ->]. apply norm_some in E'. destruct E' as [Hq' ->].
    apply exp_increasing. assert (nq q < nq q') by (apply Hn; lra). nra.
  - apply weibull_some in H. destruct H as [Hq ->]. apply weibull_some in H'. destruct H' as [Hq' ->].
    assert (pow0 (- ln (1 - q)) (1 / k) < pow0 (- ln (1 - q')) (1 / k)).
    { apply pow0_mono.
      - apply neg_ln_nonneg; auto.
      - apply neg_ln_mono; lra.
      - apply Rdiv_lt_0_compat; lra. }
    nra.
  - apply weibull_some in H. destruct H as [Hq ->]. apply weibull_some in H'. destruct H' as [Hq' ->].
    assert (pow0 (- ln (1 - q)) (1 / k) < pow0 (- ln (1 - q')) (1 / k)).
    { apply pow0_mono.
      - apply neg_ln_nonneg; auto.
      - apply neg_ln_mono; lra.
      - apply Rdiv_lt_0_compat; lra. }
    nra.
Qed.

Ltac bt := repeat (rewrite ?andb_true_intro; try split;
  try (apply Rltb_true; lra); try (apply Rleb_true; lra)).

Lemma and3 : forall a b c d e, a = true -> b = true -> c = true -> d = true -> e = true ->
  a && (b && c) && (d && e) = true.
Proof. intros; subst; reflexivity. Qed.

(** Proper parameters are accepted and give finite values on the open unit interval. *)
Lemma proper_accepted : forall nq tq d b col, proper d b ->
  (d = "triang"%string -> match b with [_; e; _] => 0 <= e | _ => True end) ->
  exists ys, nonuniform_column nq tq b d col = Ok ys /\
    forall i q, nth_error col i = Some q -> 0 < q < 1 -> exists y, nth_error ys i = Some (Some y).
Proof.
  intros nq tq d b col Hp Htri.
  assert (G : exists f, nonuniform_column nq tq b d col = Ok (map f col) /\
                        forall q, 0 < q < 1 -> exists y, f q = Some y).
  { destruct Hp; unfold nonuniform_column; cbn -[Rleb Rltb].
    - replace (Rleb up lo) with false by (symmetry; apply Rleb_false; lra).
      eexists; split; [reflexivity|]. intros; eauto.
    - eexists; split; [reflexivity|]. intros q Hq. unfold loguniform_ppf, unit_arg.
      replace (_ && _ && _) with true; eauto. symmetry.
      rewrite !andb_true_iff, !Rltb_true, !Rleb_true. lra.
    - replace (Rleb sd 0) with false by (symmetry; apply Rleb_false; lra).
      eexists; split; [reflexivity|]. intros q Hq. unfold norm_ppf.
      replace (_ && _) with true; eauto. symmetry. rewrite andb_true_iff, !Rltb_true. lra.
    - replace (Rleb sd 0) with false by (symmetry; apply Rleb_false; lra).
      eexists; split; [reflexivity|]. intros q Hq. unfold norm_ppf.
      replace (Rltb 0 q && _) with true; [simpl; eauto|].
      symmetry. rewrite andb_true_iff, !Rltb_true. lra.
    - replace (Rleb sd 0) with false by (symmetry; apply Rleb_false; lra).
      replace (Rleb up lo) with false by (symmetry; apply Rleb_false; lra).
      eexists; split; [reflexivity|]. intros q Hq. unfold truncnorm_ppf, unit_arg.
      replace (_ && _) with true; eauto. symmetry. rewrite andb_true_iff, !Rleb_true. lra.
    - specialize (Htri eq_refl). simpl in Htri.
      replace (_ || _ || _ || _) with false.
      2:{ symmetry. rewrite !orb_false_iff, !Rltb_false, Rleb_false. lra. }
      eexists; split; [reflexivity|]. intros q Hq. unfold triang_ppf, unit_arg.
      replace (_ && _ && _) with true; eauto. symmetry.
      rewrite !andb_true_iff, !Rltb_true, !Rleb_true. lra.
    - replace (_ || _ || _ || _) with false.
      2:{ symmetry. rewrite !orb_false_iff, !Rltb_false, Rleb_false. lra. }
      eexists; split; [reflexivity|]. intros q Hq. unfold triang_ppf, unit_arg.
      replace (_ && _ && _) with true; eauto. symmetry.
      rewrite !andb_true_iff, !Rltb_true, !Rleb_true. lra.
    - replace (_ || _) with false.
      2:{ symmetry. rewrite !orb_false_iff, !Rleb_false. lra. }
      eexists; split; [reflexivity|]. intros q Hq. unfold weibull_ppf.
      replace (_ && _) with true; eauto. symmetry.
      rewrite !andb_true_iff, !Rltb_true, !Rleb_true. lra.
    - replace (_ || _) with false.
      2:{ symmetry. rewrite !orb_false_iff, !Rleb_false. lra. }
      eexists; split; [reflexivity|]. intros q Hq. unfold weibull_ppf.
      replace (_ && _) with true; eauto. symmetry.
      rewrite !andb_true_iff, !Rltb_true, !Rleb_true. lra. }
  destruct G as (f & Hf & Hfin). exists (map f col). split; auto.
  intros i q Hi Hq. destruct (Hfin q Hq) as [y Hy].
  exists y. rewrite nth_error_map', Hi. simpl. rewrite Hy. reflexivity.
Qed.

Ltac refl_bool := repeat match goal with
  | H : _ \/ _ |- _ => destruct H
  | H : _ <= _ |- _ => apply Rleb_true in H; rewrite H
  | H : _ < _ |- _ => apply Rltb_true in H; rewrite H
  end; rewrite ?orb_true_r; try reflexivity.

(** [ValueError] is raised exactly for the refused parameter lists. *)
Lemma column_refused_iff : forall nq tq b d col, (2 <= length b)%nat ->
  (nonuniform_column nq tq b d col = Err ValueError <-> refused d b).
Proof.
  intros nq tq b d col Hlen. split; intros H.
  - unfold nonuniform_column in H.
    destruct b as [|b1 [|b2 b]]; simpl in Hlen; try lia. cbn [get nth_error bind] in H.
    dstr d "triang"%string.
    { destruct b as [|b3 [|b4 b]]; cbn [bind] in H.
      - destruct (_ || _) eqn:Q; [|discriminate]. apply ref_triang2.
        rewrite !orb_true_iff, !Rltb_true, Rleb_true in Q. lra.
      - destruct (_ || _) eqn:Q; [|discriminate]. apply ref_triang3.
        rewrite !orb_true_iff, !Rltb_true, Rleb_true in Q. lra.
      - apply ref_triang_shape; simpl; lia. }
    dstr d "unif"%string.
    { destruct (Rleb b2 b1) eqn:Q1; [|discriminate]. rb. constructor; auto. }
    dstr d "logunif"%string. { discriminate. }
    dstr d "norm"%string.
    { destruct (Rleb b2 0) eqn:Q1; [|discriminate]. rb. constructor; auto. }
    dstr d "truncnorm"%string.
    { destruct b as [|b3 [|b4 b]]; cbn [get nth_error bind] in H; try discriminate.
      destruct (Rleb b4 0) eqn:Q1; rb.
      - constructor; auto.
      - destruct (Rleb b2 b1) eqn:Q2; [|discriminate]. rb. constructor; auto. }
    dstr d "lognorm"%string.
    { destruct (Rleb b2 0) eqn:Q1; [|discriminate]. rb. constructor; auto. }
    dstr d "weibull"%string.
    { destruct b as [|b3 [|b4 b]]; cbn [bind] in H.
      - destruct (_ || _) eqn:Q; [|discriminate]. apply ref_weibull2.
        rewrite !orb_true_iff, !Rleb_true in Q. lra.
      - destruct (_ || _) eqn:Q; [|discriminate]. apply ref_weibull3.
        rewrite !orb_true_iff, !Rleb_true in Q. lra.
      - apply ref_weibull_shape; simpl; lia. }
    apply ref_unknown. simpl. intuition congruence.
  - destruct H; unfold nonuniform_column; cbn -[Rleb Rltb String.eqb].
    + cbn -[Rleb Rltb]. refl_bool.
    + cbn -[Rleb Rltb]. refl_bool.
    + cbn -[Rleb Rltb]. refl_bool.
    + cbn -[Rleb Rltb]. destruct H as [H|H]; apply Rleb_true in H; rewrite H; auto.
      destruct (Rleb sd 0); auto.
    + destruct b as [|b1 [|b2 [|b3 [|b4 b]]]]; simpl in *; try lia. reflexivity.
    + cbn -[Rleb Rltb]. refl_bool.
    + cbn -[Rleb Rltb]. refl_bool.
    + destruct b as [|b1 [|b2 [|b3 [|b4 b]]]]; simpl in *; try lia. reflexivity.
    + cbn -[Rleb Rltb]. refl_bool.
    + cbn -[Rleb Rltb]. refl_bool.
    + destruct b as [|b1 [|b2 b]]; simpl in Hlen; try lia.
      cbn [get nth_error bind].
      repeat match goal with |- context[String.eqb d ?s] =>
        dstr d s; [exfalso; apply H; simpl; tauto|] end.
      reflexivity.
Qed.

(** ** Columns of a whole matrix *)

Lemma column_nth : forall A (rs : list (list A)) c j,
  Forall (fun r => length r = c) rs -> (j < c)%nat ->
  forall i, nth_error (column rs j) i = entry rs i j.
Proof.
  intros A rs c j H Hj. unfold column, entry.
  induction H; intros i; simpl.
  - rewrite !nth_error_nil; auto.
  - destruct (nth_error_lt_Some x (i := j)) as [v Hv]; [lia|]. rewrite Hv.
    destruct i; simpl; auto.
Qed.

Lemma nonuniform_scale_cols : forall nq tq m bounds dists cs,
  nonuniform_scale nq tq m bounds dists = Ok cs ->
  length cs = cols m /\
  forall j, (j < cols m)%nat ->
    exists b d c, nth_error bounds j = Some b /\ nth_error dists j = Some d /\
      nth_error cs j = Some c /\ nonuniform_column nq tq b d (column (rows m) j) = Ok c.
Proof.
  intros nq tq m bounds dists cs H. unfold nonuniform_scale in H. split.
  - rewrite (mapM_Ok_length _ _ H). apply seq_length.
  - intros j Hj.
    assert (Hs : nth_error (seq 0 (cols m)) j = Some j).
    { rewrite nth_error_seq. apply Nat.ltb_lt in Hj. rewrite Hj. reflexivity. }
    destruct (mapM_Ok_nth _ _ _ H Hs) as (c & Hc & Hn).
    unfold get in Hc. destruct (nth_error bounds j) as [b|]; [|discriminate].
    simpl in Hc. destruct (nth_error dists j) as [d|]; [|discriminate]. simpl in Hc.
    eauto 8.
Qed.

Lemma scale_samples_fresh_inv : forall nq tq m p m' p' cs,
  scale_samples nq tq m p = (m', p', Ok (Fresh cs)) ->
  exists dists, p_dists p = Some dists /\ m' = m /\ p_scaled p' = true /\
    cols m = length dists /\ nonuniform_scale nq tq m (p_bounds p) dists = Ok cs.
Proof.
  intros nq tq m p m' p' cs H. unfold scale_samples in H.
  destruct (p_dists p) as [ds|] eqn:Ed.
  - destruct (Nat.eqb (cols m) (length ds)) eqn:E; simpl in H; [|inversion H].
    destruct (nonuniform_scale nq tq m (p_bounds p) ds) eqn:En; inversion H; subst.
    apply Nat.eqb_eq in E. exists ds. repeat split; auto.
  - destruct (scale_inplace m (p_bounds p)) as [m1 [u|e]]; inversion H.
Qed.

(** What the non-uniform scaler does to entry (i,j). *)
Lemma scale_samples_nonuniform : forall nq tq m p m' p' cs,
  truncated_quantile tq -> increasing_on_unit nq -> wf_mat m ->
  scale_samples nq tq m p = (m', p', Ok (Fresh cs)) ->
  m' = m /\ p_scaled p' = true /\ length cs = cols m /\
  (forall c, In c cs -> length c = length (rows m)) /\
  forall j, (j < cols m)%nat ->
  exists b dists d, nth_error (p_bounds p) j = Some b /\ p_dists p = Some dists /\
    nth_error dists j = Some d /\
    (forall i q y, entry (rows m) i j = Some q -> 0 <= q <= 1 ->
       entry cs j i = Some (Some y) -> in_support d b y) /\
    (forall i i' q q' y y',
       entry (rows m) i j = Some q -> entry (rows m) i' j = Some q' ->
       entry cs j i = Some (Some y) -> entry cs j i' = Some (Some y') ->
       (q < q' -> y < y')) /\
    (proper d b -> forall i q, entry (rows m) i j = Some q -> 0 < q < 1 ->
       exists y, entry cs j i = Some (Some y)).
Proof.
  intros nq tq m p m' p' cs Ht Hn Hwf H.
  destruct (scale_samples_fresh_inv _ _ _ _ _ _ _ H) as (dists & Hd & -> & Hsc & Hc & Hcs).
  destruct (nonuniform_scale_cols _ _ _ _ _ _ Hcs) as [Hl Hcol].
  split; auto. split; auto. split; auto. split.
  { intros c Hin. apply In_nth_error in Hin. destruct Hin as [j Hj].
    assert (Hjc : (j < cols m)%nat) by (rewrite <- Hl; eapply nth_error_Some_lt; eauto).
    destruct (Hcol j Hjc) as (b & d & c' & _ & _ & Hc' & Hcc).
    rewrite Hj in Hc'. inversion Hc'; subst c'.
    destruct (column_ok_fun _ _ _ _ _ _ Hcc) as (f & _ & ->).
    rewrite map_length. unfold wf_mat in Hwf. clear - Hwf Hjc.
    unfold column. induction Hwf; simpl; auto.
    destruct (nth_error_lt_Some x (i := j)) as [v Hv]; [lia|].
    rewrite Hv. simpl. f_equal; auto. }
  intros j Hj. destruct (Hcol j Hj) as (b & d & c & Hb & Hdj & Hc' & Hcc).
  destruct (column_ok_fun _ _ _ _ _ _ Hcc) as (f & Hf & Heq).
  assert (He : forall i, entry cs j i = option_map f (entry (rows m) i j)).
  { intros i. unfold entry at 1. rewrite Hc', Heq, nth_error_map'.
    f_equal. apply column_nth with (c := cols m); auto. }
  exists b, dists, d. repeat (split; auto).
  - intros i q y Hq Hr Hy. rewrite He, Hq in Hy. simpl in Hy.
    eapply col_fun_support; eauto. congruence.
  - intros i i' q q' y y' Hq Hq' Hy Hy' Hlt.
    rewrite He, Hq in Hy. rewrite He, Hq' in Hy'. simpl in *.
    eapply col_fun_mono; [eauto|eauto|eauto|exact Hlt|congruence|congruence].
  - intros Hp i q Hq Hr. rewrite He, Hq. simpl.
    assert (G : exists y, f q = Some y).
    { clear - Hf Hp Hr. destruct Hf; inversion Hp; subst; eauto.
      - unfold triang_ppf, unit_arg. replace (_ && _ && _) with true; eauto. symmetry.
        rewrite !andb_true_iff, !Rltb_true, !Rleb_true. lra.
      - unfold triang_ppf, unit_arg. replace (_ && _ && _) with true; eauto. symmetry.
        rewrite !andb_true_iff, !Rltb_true, !Rleb_true. lra.
      - unfold loguniform_ppf, unit_arg. replace (_ && _ && _) with true; eauto. symmetry.
        rewrite !andb_true_iff, !Rltb_true, !Rleb_true. lra.
      - unfold norm_ppf. replace (_ && _) with true; eauto. symmetry.
        rewrite andb_true_iff, !Rltb_true. lra.
      - unfold truncnorm_ppf, unit_arg. replace (_ && _) with true; eauto. symmetry.
        rewrite andb_true_iff, !Rleb_true. lra.
      - unfold norm_ppf. replace (Rltb 0 q && _) with true; [simpl; eauto|]. symmetry.
        rewrite andb_true_iff, !Rltb_true. lra.
      - unfold weibull_ppf. replace (_ && _) with true; eauto. symmetry.
        rewrite andb_true_iff, !Rltb_true, !Rleb_true. lra.
      - unfold weibull_ppf. replace (_ && _) with true; eauto. symmetry.
        rewrite andb_true_iff, !Rltb_true, !Rleb_true. lra. }
    destruct G as [y Hy]. rewrite Hy. eauto.
Qed.

(** Rejections at the level of scale_samples. *)
Lemma scale_samples_rejects : forall nq tq m p dists,
  p_dists p = Some dists ->
  (cols m <> length dists -> scale_samples nq tq m p = (m, p, Err ValueError)) /\
  (cols m = length dists -> length (p_bounds p) = cols m ->
   (forall b, In b (p_bounds p) -> (2 <= length b)%nat) ->
   (exists j b d, nth_error (p_bounds p) j = Some b /\ nth_error dists j = Some d /\
      refused d b) ->
   exists e, scale_samples nq tq m p = (m, p, Err e)).
Proof.
  intros nq tq m p dists Hd. unfold scale_samples. rewrite Hd. split.
  - intros Hne. apply Nat.eqb_neq in Hne. rewrite Hne. reflexivity.
  - intros He Hb Hlen (j & b & d & Hbj & Hdj & Hr).
    rewrite He, Nat.eqb_refl. simpl.
    assert (G : exists e, nonuniform_scale nq tq m (p_bounds p) dists = Err e).
    { unfold nonuniform_scale. apply mapM_Err_iff.
      exists j, ValueError. split.
      - apply in_seq. split; [lia|]. rewrite <- Hb. simpl. eapply nth_error_Some_lt; eauto.
      - unfold get. rewrite Hbj, Hdj. simpl. apply column_refused_iff; auto.
        apply Hlen. eapply nth_error_In; eauto. }
    destruct G as [e G]. rewrite G. eauto.
Qed.

(** Accepted but degenerate parameters give no finite value at all. *)
Lemma degenerate_triangle_accepted : forall nq tq s c col, 0 <= s -> 0 <= c < 1 ->
  nonuniform_column nq tq [s; s; c] "triang" col = Ok (map (fun _ => None) col).
Proof.
  intros nq tq s c col Hs Hc. unfold nonuniform_column. cbn -[Rleb Rltb].
  replace (_ || _ || _ || _) with false.
  - f_equal. apply map_ext. intros q. unfold triang_ppf.
    replace (Rltb 0 (s - s)) with false by (symmetry; apply Rltb_false; lra). reflexivity.
  - symmetry. rewrite !orb_false_iff, !Rltb_false, Rleb_false. lra.
Qed.

Lemma reversed_logunif_accepted : forall nq tq a b col, b <= a ->
  nonuniform_column nq tq [a; b] "logunif" col = Ok (map (fun _ => None) col).
Proof.
  intros nq tq a b col H. unfold nonuniform_column. cbn -[Rleb Rltb].
  f_equal. apply map_ext. intros q. unfold loguniform_ppf.
  replace (Rltb a b) with false by (symmetry; apply Rltb_false; lra).
  rewrite andb_false_r. reflexivity.
Qed.

(** A truncated normal read from a parameter file cannot be scaled: files carry two bounds. *)
Lemma truncnorm_two_bounds : forall nq tq lo up col,
  nonuniform_column nq tq [lo; up] "truncnorm" col = Err IndexError.
Proof. reflexivity. Qed.

Lemma negative_triangle_refused : forall nq tq s e c col, e < 0 ->
  nonuniform_column nq tq [s; e; c] "triang" col = Err ValueError.
Proof.
  intros. apply column_refused_iff; [simpl; lia|]. apply ref_triang3. auto.
Qed.

Lemma file_truncnorm_unusable : forall nq tq rs p m j,
  read_param_file rs = Ok p ->
  match p_dists p with Some ds => nth_error ds j = Some "truncnorm"%string | None => False end ->
  exists e, scale_samples nq tq m p = (m, p, Err e).
Proof.
  intros nq tq rs p m j H Hd.
  destruct (p_dists p) as [ds|] eqn:Ed; [|tauto].
  unfold scale_samples. rewrite Ed.
  destruct (Nat.eqb (cols m) (length ds)) eqn:E; simpl; [|eauto].
  apply Nat.eqb_eq in E.
  assert (G : exists e, nonuniform_scale nq tq m (p_bounds p) ds = Err e).
  { unfold nonuniform_scale. apply mapM_Err_iff.
    assert (Hj : (j < length ds)%nat) by (eapply nth_error_Some_lt; eauto).
    exists j. unfold get. rewrite Hd.
    destruct (nth_error (p_bounds p) j) as [b|] eqn:Eb; simpl.
    - exists IndexError. split; [apply in_seq; lia|].
      unfold read_param_file in H.
      destruct (read_rows _ rs) as [a|] eqn:Er; simpl in H; [|discriminate].
      assert (Hbd : p_bounds p = a_bounds a).
      { destruct (list_eqb _ _); [|destruct (Nat.eqb _ 1)]; simpl in H; inversion H; reflexivity. }
      assert (Hb2 : exists lo up, b = [lo; up]).
      { rewrite Hbd in Eb. apply nth_error_In in Eb. clear - Er Eb.
        assert (G : forall rs a a', (forall b, In b (a_bounds a) -> exists lo up, b = [lo; up]) ->
                   read_rows a rs = Ok a' -> forall b, In b (a_bounds a') -> exists lo up, b = [lo; up]).
        { clear. induction rs as [|r rs IH]; simpl; intros a a' Ha H b Hb.
          - inversion H; subst; auto.
          - unfold read_row in H. destruct (is_comment (r_name r)); simpl in H; [eauto|].
            destruct (r_lower r); simpl in H; [|discriminate].
            destruct (r_upper r); simpl in H; [|discriminate].
            eapply IH; [|eauto|eauto]. simpl. intros b' Hb'. apply in_app_or in Hb'.
            destruct Hb' as [Hb'|[<-|[]]]; eauto. }
        eapply (G rs); [|eauto|eauto]. simpl. tauto. }
      destruct Hb2 as (lo & up & ->). apply truncnorm_two_bounds.
    - exists IndexError. split; [apply in_seq; lia|reflexivity]. }
  destruct G as [e G]. rewrite G. eauto.
Qed.
