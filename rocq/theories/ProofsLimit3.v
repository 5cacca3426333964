(** * The effects of groups of inputs as limits of their grid counterparts, and as averages over pairs of points. *)
From Coq Require Import Reals String List Arith Lia Lra Psatz.
From Verif Require Import Base Stats SpecIntegral ProofsIntegral SpecExpect ProofsExpect SpecLimit ProofsPoincare ProofsPoincare2 ProofsLimit ProofsLimit2.
Import ListNotations.
Local Open Scope R_scope.

(** ** Mixed points *)
Lemma mix_inside : forall b u x y, inside b x -> inside b y -> inside b (mix u x y).
Proof.
  intros b u x y X. revert u y. induction X as [|i a b x Ha X IH]; intros u y Y; inversion Y; subst; cbn [mix]; constructor; [destruct (u 0%nat); auto|]. apply IH. auto.
Qed.
Lemma mix_near : forall d u x x' y y', near d x x' -> near d y y' -> near d (mix u x y) (mix u x' y').
Proof.
  intros d u x x' y y' X. revert u y y'. induction X as [|a a' x x' Ha X IH]; intros u y y' Y; [destruct y; constructor|].
  inversion Y; subst; cbn [mix]; constructor; [destruct (u 0%nat); auto|]. apply IH. auto.
Qed.

(** Functions of two points of the box, continuous in both. *)
Definition jointly (b : box) (K : list R -> list R -> R) : Prop :=
  forall eps, 0 < eps -> exists d, 0 < d /\ forall x x' y y', inside b x -> inside b x' -> inside b y -> inside b y' ->
    near d x x' -> near d y y' -> Rabs (K x y - K x' y') <= eps.

Lemma jointly_mix : forall b f u, continuous_on b f -> jointly b (fun x y => f (mix u x y)).
Proof.
  intros b f u C eps He. destruct (C eps He) as (d & D & H). exists d. split; auto. intros. apply H; [apply mix_inside; auto|apply mix_inside; auto|apply mix_near; auto].
Qed.
Lemma jointly_swap : forall b K, jointly b K -> jointly b (fun x y => K y x).
Proof. intros b K J eps He. destruct (J eps He) as (d & D & H). exists d. split; auto. Qed.

Lemma jointly_right : forall b K x, inside b x -> jointly b K -> continuous_on b (K x).
Proof. intros b K x X J eps He. destruct (J eps He) as (d & D & H). exists d. split; auto. intros y y' Y Y' N. apply H; auto. apply near_refl. lra. Qed.
Lemma jointly_average : forall b K h, proper b -> jointly b K -> (forall x, inside b x -> average b (K x) (h x)) -> continuous_on b h.
Proof.
  intros b K h P J A eps He. destruct (J eps He) as (d & D & H). exists d. split; auto. intros x y X Y N.
  apply (average_near b (K x) (K y)); auto. intros z Z. apply H; auto. apply near_refl. lra.
Qed.
Lemma jointly_limit : forall b K h, proper b -> jointly b K -> (forall x, inside b x -> average b (K x) (h x)) -> uconv b (fun n x => expect (grid (S n) b) (K x)) h.
Proof.
  intros b K h P J A. apply inner_limit; auto. intros eps He. destruct (J eps He) as (d & D & H). exists d. split; auto. intros. apply H; auto. apply near_refl. lra.
Qed.

(** ** Limits *)
Lemma Un_cv_ext : forall u v l, (forall n, u n = v n) -> Un_cv u l -> Un_cv v l.
Proof. intros u v l E H eps He. destruct (H eps He) as (n0 & H0). exists n0. intros n Hn. rewrite <- E. auto. Qed.
Lemma Un_cv_const : forall c, Un_cv (fun _ => c) c.
Proof. intros c eps He. exists O. intros. rewrite R_dist_eq. auto. Qed.

Lemma variance_cv : forall b g h v, proper b -> continuous_on b h -> uconv b g h -> SpecIntegral.variance b h v ->
  Un_cv (fun n => SpecExpect.variance (grid (S n) b) (g n)) v.
Proof.
  intros b g h v P C U (m & A & B). pose proof (grid_limit b g h m P C U A) as M.
  assert (UM : uconv b (fun n x => g n x - expect (grid (S n) b) (g n)) (fun x => h x - m)).
  { apply uconv_minus; auto. apply uconv_const. exact M. }
  assert (CM : continuous_on b (fun x => h x - m)) by (apply continuous_minus; auto; apply continuous_const).
  apply (grid_limit b (fun n x => (g n x - expect (grid (S n) b) (g n)) ^ 2) (fun x => (h x - m) ^ 2)); auto.
  - apply continuous_square; auto.
  - intros eps He. destruct (uconv_mult b _ _ _ _ P CM CM UM UM eps He) as (n0 & H). exists n0. intros n x Hn X. specialize (H n x Hn X).
    replace ((g n x - expect (grid (S n) b) (g n)) ^ 2 - (h x - m) ^ 2) with
      ((g n x - expect (grid (S n) b) (g n)) * (g n x - expect (grid (S n) b) (g n)) - (h x - m) * (h x - m)) by ring. exact H.
Qed.

Lemma closed_cv : forall b f u v, proper b -> continuous_on b f -> closed_share b f u v -> Un_cv (fun n => closed_effect (grid (S n) b) f u) v.
Proof.
  intros b f u v P C (h & A & V). pose proof (jointly_mix b f u C) as J.
  apply (variance_cv b (fun n x => conditional (grid (S n) b) f u x) h); auto.
  - apply (jointly_average b (fun x y => f (mix u x y))); auto.
  - apply (jointly_limit b (fun x y => f (mix u x y))); auto.
Qed.

Lemma total_cv : forall b f u v, proper b -> continuous_on b f -> total_share b f u v -> Un_cv (fun n => SpecExpect.total_effect (grid (S n) b) f u) v.
Proof.
  intros b f u v P C (h & A & V).
  pose proof (jointly_swap b _ (jointly_mix b f u C)) as J. cbv beta in J.
  pose proof (jointly_swap b _ (jointly_mix b (fun x => f x ^ 2) u (continuous_square b f P C))) as Q. cbv beta in Q.
  set (m := fun x => avg b (fun y => f (mix u y x))). set (q := fun x => avg b (fun y => f (mix u y x) ^ 2)).
  assert (HM : forall x, inside b x -> average b (fun y => f (mix u y x)) (m x)).
  { intros x X. apply avg_ok; auto. apply (jointly_right b (fun x y => f (mix u y x)) x); auto. }
  assert (HQ : forall x, inside b x -> average b (fun y => f (mix u y x) ^ 2) (q x)).
  { intros x X. apply avg_ok; auto. apply (jointly_right b (fun x y => f (mix u y x) ^ 2) x); auto. }
  assert (HE : forall x, inside b x -> h x = q x - m x ^ 2).
  { intros x X. apply (variance_unique b (fun y => f (mix u y x))); auto. apply variance_moments; auto. }
  assert (CM : continuous_on b m) by (apply (jointly_average b (fun x y => f (mix u y x))); auto).
  assert (CQ : continuous_on b q) by (apply (jointly_average b (fun x y => f (mix u y x) ^ 2)); auto).
  assert (UM : uconv b (fun n x => expect (grid (S n) b) (fun y => f (mix u y x))) m) by (apply (jointly_limit b (fun x y => f (mix u y x))); auto).
  assert (UQ : uconv b (fun n x => expect (grid (S n) b) (fun y => f (mix u y x) ^ 2)) q) by (apply (jointly_limit b (fun x y => f (mix u y x) ^ 2)); auto).
  apply (grid_limit b (fun n x => SpecExpect.variance (grid (S n) b) (fun y => f (mix u y x))) h); auto.
  - apply (continuous_ext b (fun x => q x - m x ^ 2)); [intros; symmetry; auto|]. apply continuous_minus; auto. apply continuous_square; auto.
  - intros eps He. destruct (uconv_minus b _ _ _ _ UQ (uconv_mult b _ _ _ _ P CM CM UM UM) eps He) as (n0 & H). exists n0. intros n x Hn X.
    specialize (H n x Hn X). rewrite variance_alt by (apply grid_probability; lia). rewrite HE by auto.
    match goal with |- Rabs ?e <= _ => match type of H with Rabs ?e' <= _ => replace e with e' by ring end end. exact H.
Qed.

(** ** Averages over pairs of points *)
Lemma Forall2_firstn : forall A B (P : A -> B -> Prop) n l l', Forall2 P l l' -> Forall2 P (firstn n l) (firstn n l').
Proof. intros A B P n l l' H. revert n. induction H; intros [|n]; simpl; auto. Qed.
Lemma Forall2_skipn : forall A B (P : A -> B -> Prop) n l l', Forall2 P l l' -> Forall2 P (skipn n l) (skipn n l').
Proof. intros A B P n l l' H. revert n. induction H; intros [|n]; simpl; auto. Qed.

Lemma inside_first : forall b c z, inside (b ++ c) z -> inside b (firstn (length b) z).
Proof.
  intros b c z H. apply (Forall2_firstn _ _ _ (length b)) in H. rewrite firstn_app, firstn_all, Nat.sub_diag, firstn_O, app_nil_r in H. exact H.
Qed.
Lemma inside_second : forall b c z, inside (b ++ c) z -> inside c (skipn (length b) z).
Proof.
  intros b c z H. apply (Forall2_skipn _ _ _ (length b)) in H. rewrite skipn_app, skipn_all, Nat.sub_diag, skipn_O in H. exact H.
Qed.

Definition pairwise (b : box) (K : list R -> list R -> R) (z : list R) : R := K (firstn (length b) z) (skipn (length b) z).

Lemma pair_continuous : forall b K, jointly b K -> continuous_on (b ++ b) (pairwise b K).
Proof.
  intros b K J eps He. destruct (J eps He) as (d & D & H). exists d. split; auto. intros z z' Z Z' N. unfold pairwise. apply H.
  - eapply inside_first; eauto. - eapply inside_first; eauto. - eapply inside_second; eauto. - eapply inside_second; eauto.
  - apply Forall2_firstn; auto. - apply Forall2_skipn; auto.
Qed.

Lemma grid_app : forall n b c, grid n (b ++ c) = grid n b ++ grid n c.
Proof. intros. apply map_app. Qed.

Lemma grid_pair : forall n b K, expect (grid n (b ++ b)) (pairwise b K) = expect2 (grid n b) K.
Proof.
  intros n b K. rewrite grid_app, expect_app. unfold expect2, pairwise. apply expect_ext. intros x Lx. apply expect_ext. intros y Ly.
  rewrite grid_length in Lx. rewrite <- Lx, firstn_app, firstn_all, Nat.sub_diag, firstn_O, app_nil_r, skipn_app, skipn_all, Nat.sub_diag. reflexivity.
Qed.

Lemma pair_average : forall b K w, proper b -> jointly b K -> Un_cv (fun n => expect2 (grid (S n) b) K) w -> average (b ++ b) (pairwise b K) w.
Proof.
  intros b K w P J H. assert (PP : proper (b ++ b)) by (apply Forall_app; auto). pose proof (pair_continuous b K J) as C.
  pose proof (avg_ok (b ++ b) (pairwise b K) PP C) as A. pose proof (grid_cv _ _ _ PP C A) as L.
  apply (Un_cv_ext _ (fun n => expect2 (grid (S n) b) K)) in L; [|intros; apply grid_pair]. rewrite (UL_sequence _ _ _ H L). exact A.
Qed.

(** Products and differences of jointly continuous functions. *)
Lemma jointly_of_pair : forall b K, continuous_on (b ++ b) (pairwise b K) -> jointly b K.
Proof.
  intros b K C eps He. destruct (C eps He) as (d & D & H). exists d. split; auto. intros x x' y y' X X' Y Y' N N'.
  specialize (H (x ++ y) (x' ++ y')). unfold pairwise in H. pose proof (inside_length b x X) as Lx. pose proof (inside_length b x' X') as Lx'.
  assert (E : forall a c : list R, length a = length b -> firstn (length b) (a ++ c) = a /\ skipn (length b) (a ++ c) = c).
  { intros a c <-. rewrite firstn_app, firstn_all, Nat.sub_diag, firstn_O, app_nil_r, skipn_app, skipn_all, Nat.sub_diag. auto. }
  destruct (E x y Lx) as (E1 & E2). destruct (E x' y' Lx') as (E3 & E4). rewrite E1, E2, E3, E4 in H. apply H; apply Forall2_app; auto.
Qed.
Lemma jointly_minus : forall b K L, jointly b K -> jointly b L -> jointly b (fun x y => K x y - L x y).
Proof.
  intros b K L A B. apply jointly_of_pair. apply (continuous_ext (b ++ b) (fun z => pairwise b K z - pairwise b L z)); [reflexivity|]. apply continuous_minus; apply pair_continuous; auto.
Qed.
Lemma jointly_plus : forall b K L, jointly b K -> jointly b L -> jointly b (fun x y => K x y + L x y).
Proof.
  intros b K L A B. apply jointly_of_pair. apply (continuous_ext (b ++ b) (fun z => pairwise b K z + pairwise b L z)); [reflexivity|]. apply continuous_plus; apply pair_continuous; auto.
Qed.
Lemma jointly_mult : forall b K L, proper b -> jointly b K -> jointly b L -> jointly b (fun x y => K x y * L x y).
Proof.
  intros b K L P A B. apply jointly_of_pair. apply (continuous_ext (b ++ b) (fun z => pairwise b K z * pairwise b L z)); [reflexivity|].
  apply continuous_mult; [apply Forall_app; auto|apply pair_continuous; auto|apply pair_continuous; auto].
Qed.
Lemma jointly_square : forall b K, proper b -> jointly b K -> jointly b (fun x y => K x y ^ 2).
Proof.
  intros b K P A. pose proof (jointly_mult b K K P A A) as H. intros eps He. destruct (H eps He) as (d & D & HH). exists d. split; auto. intros x x' y y' X X' Y Y' N N'.
  specialize (HH x x' y y' X X' Y Y' N N'). replace (K x y ^ 2 - K x' y' ^ 2) with (K x y * K x y - K x' y' * K x' y') by ring. exact HH.
Qed.
Lemma jointly_fst : forall b f, continuous_on b f -> jointly b (fun x _ => f x).
Proof. intros b f C eps He. destruct (C eps He) as (d & D & H). exists d. split; auto. Qed.
Lemma jointly_snd : forall b f, continuous_on b f -> jointly b (fun _ y => f y).
Proof. intros b f C eps He. destruct (C eps He) as (d & D & H). exists d. split; auto. Qed.

Section Pairs.
Variables (b : box) (f : list R -> R).
Hypothesis P : proper b.
Hypothesis C : continuous_on b f.
Let GP n : Forall probability (grid (S n) b) := grid_probability (S n) b (Nat.lt_0_succ n).

Lemma pair_first : forall u v, closed_share b f u v -> average (b ++ b) (pairwise b (fun x y => f y * (f (mix u y x) - f x))) v.
Proof.
  intros u v H. apply pair_average; auto.
  - apply jointly_mult; auto; [apply jointly_snd; auto|]. apply jointly_minus; [apply (jointly_swap b (fun y x => f (mix u y x))), jointly_mix; auto|apply jointly_fst; auto].
  - apply (Un_cv_ext (fun n => closed_effect (grid (S n) b) f u)); [|apply closed_cv; auto]. intros n. rewrite <- (first_identity _ f u 0 (GP n)).
    apply expect2_ext. intros. ring.
Qed.
Lemma pair_total : forall u v, total_share b f u v -> average (b ++ b) (pairwise b (fun x y => (f x - f (mix u y x)) ^ 2)) (2 * v).
Proof.
  intros u v H. apply pair_average; auto.
  - apply jointly_square; auto. apply jointly_minus; [apply jointly_fst; auto|apply (jointly_swap b (fun y x => f (mix u y x))), jointly_mix; auto].
  - apply (Un_cv_ext (fun n => 2 * SpecExpect.total_effect (grid (S n) b) f u)); [|apply CV_mult; [apply Un_cv_const|apply total_cv; auto]]. intros n. symmetry. apply total_identity. apply GP.
Qed.
Lemma pair_second : forall u w v, (forall j, u j = true -> w j = false) -> closed_share b f (fun j => orb (u j) (w j)) v ->
  average (b ++ b) (pairwise b (fun x y => f (mix u x y) * f (mix w y x) - f x * f y)) v.
Proof.
  intros u w v DU H. apply pair_average; auto.
  - apply jointly_minus; apply jointly_mult; auto; [apply jointly_mix; auto|apply (jointly_swap b (fun y x => f (mix w y x))), jointly_mix; auto|apply jointly_fst; auto|apply jointly_snd; auto].
  - apply (Un_cv_ext (fun n => closed_effect (grid (S n) b) f (fun j => orb (u j) (w j)))); [|apply closed_cv; auto]. intros n. rewrite <- (second_identity _ f u w 0 (GP n) DU).
    apply expect2_ext. intros. ring.
Qed.

Variable m : R.
Hypothesis M : average b f m.
Lemma pair_zero : forall u, average (b ++ b) (pairwise b (fun x y => f (mix u y x) - f x)) 0.
Proof.
  intros u. apply pair_average; auto.
  - apply jointly_minus; [apply (jointly_swap b (fun y x => f (mix u y x))), jointly_mix; auto|apply jointly_fst; auto].
  - apply (Un_cv_ext (fun _ => 0)); [|apply Un_cv_const]. intros n. rewrite expect2_minus, (expect2_swap _ (fun x y => f (mix u y x))), expect2_mix, expect2_fst by apply GP. ring.
Qed.
Lemma pair_zero2 : forall u w, average (b ++ b) (pairwise b (fun x y => f (mix u x y) + f (mix w y x) - f x - f y)) 0.
Proof.
  intros u w. apply pair_average; auto.
  - repeat apply jointly_minus; [apply jointly_plus; [apply jointly_mix; auto|apply (jointly_swap b (fun y x => f (mix w y x))), jointly_mix; auto]|apply jointly_fst; auto|apply jointly_snd; auto].
  - apply (Un_cv_ext (fun _ => 0)); [|apply Un_cv_const]. intros n.
    rewrite (expect2_minus _ (fun x y => f (mix u x y) + f (mix w y x) - f x)), (expect2_minus _ (fun x y => f (mix u x y) + f (mix w y x))), expect2_plus.
    rewrite (expect2_swap _ (fun x y => f (mix w y x))), !expect2_mix, expect2_fst, expect2_snd by apply GP. ring.
Qed.
End Pairs.

Lemma pair_fst : forall b f v, proper b -> continuous_on b f -> average b f v -> average (b ++ b) (pairwise b (fun x _ => f x)) v.
Proof.
  intros b f v P C A. apply pair_average; auto; [apply jointly_fst; auto|].
  apply (Un_cv_ext (fun n => expect (grid (S n) b) f)); [|apply grid_cv; auto]. intros n. symmetry. apply expect2_fst. apply grid_probability. lia.
Qed.
Lemma pair_snd : forall b f v, proper b -> continuous_on b f -> average b f v -> average (b ++ b) (pairwise b (fun _ y => f y)) v.
Proof.
  intros b f v P C A. apply pair_average; auto; [apply jointly_snd; auto|].
  apply (Un_cv_ext (fun n => expect (grid (S n) b) f)); [|apply grid_cv; auto]. intros n. symmetry. apply expect2_snd. apply grid_probability. lia.
Qed.

(** The effects of continuous models exist. *)
Lemma variance_exists : forall b h, proper b -> continuous_on b h -> exists v, SpecIntegral.variance b h v.
Proof.
  intros b h P C. eexists. apply variance_moments; auto; apply avg_ok; auto. apply continuous_square; auto.
Qed.
Lemma closed_exists : forall b f u, proper b -> continuous_on b f -> exists v, closed_share b f u v.
Proof.
  intros b f u P C. pose proof (jointly_mix b f u C) as J.
  assert (A : forall x, inside b x -> average b (fun y => f (mix u x y)) (avg b (fun y => f (mix u x y)))).
  { intros x X. apply avg_ok; auto. apply (jointly_right b (fun x y => f (mix u x y)) x); auto. }
  destruct (variance_exists b (fun x => avg b (fun y => f (mix u x y))) P) as (v & V); [apply (jointly_average b (fun x y => f (mix u x y))); auto|].
  exists v, (fun x => avg b (fun y => f (mix u x y))). auto.
Qed.
Lemma total_exists : forall b f u, proper b -> continuous_on b f -> exists v, total_share b f u v.
Proof.
  intros b f u P C.
  pose proof (jointly_swap b _ (jointly_mix b f u C)) as J. cbv beta in J.
  pose proof (jointly_swap b _ (jointly_mix b (fun x => f x ^ 2) u (continuous_square b f P C))) as Q. cbv beta in Q.
  assert (HM : forall x, inside b x -> average b (fun y => f (mix u y x)) (avg b (fun y => f (mix u y x)))).
  { intros x X. apply avg_ok; auto. apply (jointly_right b (fun x y => f (mix u y x)) x); auto. }
  assert (HQ : forall x, inside b x -> average b (fun y => f (mix u y x) ^ 2) (avg b (fun y => f (mix u y x) ^ 2))).
  { intros x X. apply avg_ok; auto. apply (jointly_right b (fun x y => f (mix u y x) ^ 2) x); auto. }
  set (h := fun x => avg b (fun y => f (mix u y x) ^ 2) - avg b (fun y => f (mix u y x)) ^ 2).
  exists (avg b h), h. split.
  - intros x X. apply variance_moments; auto.
  - apply avg_ok; auto. apply continuous_minus; [apply (jointly_average b (fun x y => f (mix u y x) ^ 2)); auto|].
    apply continuous_square; auto. apply (jointly_average b (fun x y => f (mix u y x))); auto.
Qed.
