(** * Cosine series: on the search curve, and their mean and variance. *)
From Coq Require Import Reals String List Arith ZArith Bool Lia Lra Permutation.
From Verif Require Import Base Arrays ListFacts Stats Sums ModelFast SpecFast SpecIntegral SpecFast2 ProofsIntegral ProofsTestFunctions4 ProofsFast4.
Import ListNotations.
Local Open Scope nat_scope.

(** ** On the curve *)

Lemma chebyshev : forall u v, cos u = cos v -> forall k, cos (INR k * u) = cos (INR k * v) /\ cos (INR (S k) * u) = cos (INR (S k) * v).
Proof.
  intros u v E. assert (R2 : forall k x, (cos (INR (S (S k)) * x) = 2 * cos x * cos (INR (S k) * x) - cos (INR k * x))%R).
  { intros k x. replace (INR (S (S k)) * x)%R with (INR (S k) * x + x)%R by (rewrite (S_INR (S k)); ring).
    replace (INR k * x)%R with (INR (S k) * x - x)%R by (rewrite (S_INR k); ring). rewrite cos_plus, cos_minus. ring. }
  induction k as [|k [I J]].
  - simpl. rewrite !Rmult_0_l, !Rmult_1_l. split; [reflexivity|exact E].
  - split; [exact J|]. rewrite !R2, I, J, E. reflexivity.
Qed.

Lemma curve_cos : forall a x k, on_curve a x -> cos (INR k * (PI * x)) = cos (INR k * (a + PI / 2)).
Proof.
  intros a x k [_ E]. apply chebyshev. rewrite cos_plus, cos_PI2, sin_PI2.
  replace (PI * x)%R with (PI * (x - 1 / 2) + PI / 2)%R by field. rewrite cos_plus, cos_PI2, sin_PI2, E. ring.
Qed.

(** The components of a series that follows the curve. *)
Definition waves (w : nat) (psi : R) (a : list R) : list wave :=
  map (fun k => mkWave (nth k a 0%R) (k * w) (INR k * psi)) (seq 1 (length a - 1)).

Lemma series_waves : forall n i a lo hi x t w phi, i = (lo, hi) -> (lo < hi)%R -> 0 < n ->
  on_curve (INR w * (2 * PI / INR n * INR t) + phi)%R x ->
  cosine_series i a (lo + x * (hi - lo)) = signal n (nth 0 a 0%R) (waves w (phi + PI / 2) a) t.
Proof.
  intros n i a lo hi x t w phi -> L Hn O. assert (HN : (0 < INR n)%R) by (apply lt_0_INR; lia).
  unfold cosine_series, signal. cbn [fst snd].
  rewrite (Rsum_ext _ _ (fun k => nth k a 0 * cos (2 * PI * INR (k * w) * INR t / INR n + INR k * (phi + PI / 2)))%R).
  - destruct a as [|a0 a]; [cbn; unfold Rsum; simpl; ring|]. cbn [length seq map nth].
    change (Rsum (?z :: ?l)) with (z + Rsum l)%R. f_equal.
    + rewrite Nat.mul_0_l. simpl (INR 0). replace (2 * PI * 0 * INR t / INR n + 0 * (phi + PI / 2))%R with 0%R by (field; lra). rewrite cos_0. ring.
    + unfold waves. rewrite map_map. cbn [length]. replace (S (length a) - 1) with (length a) by lia. reflexivity.
  - intros k _. f_equal. replace ((lo + x * (hi - lo) - lo) / (hi - lo))%R with x by (field; lra).
    rewrite (curve_cos _ x k O). f_equal. rewrite mult_INR. field. lra.
Qed.

Lemma waves_amp : forall w psi a, Rsum (map (fun l => amp l ^ 2)%R (waves w psi a)) = Rsum (map (fun k => nth k a 0 ^ 2)%R (seq 1 (length a - 1))).
Proof. intros. unfold waves. rewrite map_map. reflexivity. Qed.

Lemma waves_in : forall w psi a x, In x (waves w psi a) -> exists k, 1 <= k <= length a - 1 /\ freq x = k * w.
Proof.
  intros w psi a x H. unfold waves in H. apply in_map_iff in H. destruct H as (k & <- & K). apply in_seq in K. exists k. split; [lia|reflexivity].
Qed.
Lemma waves_nodup : forall w psi a, 1 <= w -> NoDup (map freq (waves w psi a)).
Proof.
  intros w psi a Hw. unfold waves. rewrite map_map. cbn [freq]. apply FinFun.Injective_map_NoDup; [|apply seq_NoDup]. intros x y E. nia.
Qed.

(** ** Mean and variance *)

Definition basis (i : R * R) (k : nat) (x : R) : R := cos (INR k * (PI * ((x - fst i) / (snd i - fst i)))).

Lemma basis_0 : forall i x, basis i 0 x = 1%R.
Proof. intros. unfold basis. simpl. rewrite Rmult_0_l. apply cos_0. Qed.

Lemma mean_of_ext : forall i f g m, (fst i <= snd i)%R -> (forall x, f x = g x) -> mean_of i f m -> mean_of i g m.
Proof. intros i f g m L E M. unfold mean_of in *. apply (integral_ext f); auto. Qed.

Lemma mean_basis : forall i k, (fst i < snd i)%R -> mean_of i (basis i k) (if k =? 0 then 1 else 0)%R.
Proof.
  intros [lo hi] k L. cbn [fst snd] in L. destruct (Nat.eqb_spec k 0) as [->|Hk].
  - apply (mean_of_ext _ (fun _ => 1%R)); [cbn; lra|intros; symmetry; apply basis_0|]. apply integral_const.
  - unfold mean_of. cbn [fst snd]. assert (HK : (0 < INR k)%R) by (apply lt_0_INR; lia). pose proof PI_RGT_0 as HP.
    set (c := (INR k * PI / (hi - lo))%R).
    assert (Hc : (c <> 0)%R). { unfold c. apply Rgt_not_eq. apply Rdiv_lt_0_compat; [nra|lra]. }
    replace (0 * (hi - lo))%R with (/ c * sin (c * (hi - lo)) - / c * sin (c * (lo - lo)))%R.
    + apply (integral_of (fun x => / c * sin (c * (x - lo)))%R); [lra| |].
      * intros x. unfold basis. cbn [fst snd]. replace (INR k * (PI * ((x - lo) / (hi - lo))))%R with (c * (x - lo))%R by (unfold c; field; lra).
        assert (D0 : derivable_pt_lim (fun y => c * (y - lo))%R x c).
        { assert (D : derivable_pt_lim (fun y => c * (y - lo))%R x (c * (1 - 0))%R); [|replace (c * (1 - 0))%R with c in D by ring; exact D].
          apply (derivable_pt_lim_scal (fun y => y - lo)%R c x (1 - 0)%R).
          apply (derivable_pt_lim_minus id (fct_cte lo)); [apply derivable_pt_lim_id|apply derivable_pt_lim_const]. }
        pose proof (derivable_pt_lim_comp (fun y => c * (y - lo))%R sin x c (cos (c * (x - lo))) D0 (derivable_pt_lim_sin _)) as D1.
        pose proof (derivable_pt_lim_scal _ (/ c) x _ D1) as D2. unfold mult_real_fct, comp in D2.
        replace (cos (c * (x - lo)))%R with (/ c * (cos (c * (x - lo)) * c))%R by (field; assumption). exact D2.
      * intros x. unfold basis. cbn [fst snd].
        apply (continuity_pt_comp (fun y => INR k * (PI * ((y - lo) / (hi - lo))))%R cos); [|apply continuity_cos].
        apply derivable_continuous_pt. unfold Rdiv. reg.
    + replace (c * (lo - lo))%R with 0%R by ring. rewrite sin_0.
      replace (c * (hi - lo))%R with (INR k * PI)%R by (unfold c; field; lra).
      assert (S0 : sin (INR k * PI) = 0%R). { apply sin_eq_0_1. exists (Z.of_nat k). rewrite INR_IZR_INZ. reflexivity. }
      rewrite S0. ring.
Qed.

Lemma mean_of_plus : forall i f g a b, (fst i <= snd i)%R -> mean_of i f a -> mean_of i g b -> mean_of i (fun x => f x + g x)%R (a + b)%R.
Proof.
  intros i f g a b L A B. unfold mean_of in *. replace ((a + b) * (snd i - fst i))%R with (a * (snd i - fst i) + b * (snd i - fst i))%R by ring.
  apply integral_plus; assumption.
Qed.

Lemma mean_of_Rsum : forall A i (f : A -> R -> R) (m : A -> R) l, (fst i <= snd i)%R -> (forall x, In x l -> mean_of i (f x) (m x)) ->
  mean_of i (fun t => Rsum (map (fun x => f x t) l)) (Rsum (map m l)).
Proof.
  intros A i f m l L H. induction l as [|a l IH].
  - cbn [map]. change (Rsum []) with 0%R. unfold mean_of. apply integral_const.
  - cbn [map]. change (mean_of i (fun t => f a t + Rsum (map (fun x => f x t) l))%R (m a + Rsum (map m l))%R).
    apply mean_of_plus; [assumption|apply H; left; reflexivity|]. apply IH. intros x Hx. apply H. right. assumption.
Qed.

Lemma mean_product : forall i h k, (fst i < snd i)%R ->
  mean_of i (fun x => basis i h x * basis i k x)%R (if h =? k then (if h =? 0 then 1 else 1 / 2) else 0)%R.
Proof.
  assert (G : forall i h k, (fst i < snd i)%R -> k <= h ->
    mean_of i (fun x => basis i h x * basis i k x)%R (if h =? k then (if h =? 0 then 1 else 1 / 2) else 0)%R).
  { intros i h k L Hk. apply (mean_of_ext _ (fun x => 1 / 2 * basis i (h + k) x + 1 / 2 * basis i (h - k) x)%R); [lra| |].
    - intros x. unfold basis. rewrite plus_INR, minus_INR by lia. set (z := (PI * ((x - fst i) / (snd i - fst i)))%R).
      rewrite Rmult_plus_distr_r, Rmult_minus_distr_r, cos_plus, cos_minus. field.
    - replace (if h =? k then if h =? 0 then 1 else 1 / 2 else 0)%R
        with (1 / 2 * (if h + k =? 0 then 1 else 0) + 1 / 2 * (if h - k =? 0 then 1 else 0))%R.
      + apply mean_of_plus; [lra| |]; (apply mean_of_scal; [lra|]); apply mean_basis; assumption.
      + destruct (Nat.eqb_spec h k), (Nat.eqb_spec h 0), (Nat.eqb_spec (h + k) 0), (Nat.eqb_spec (h - k) 0); try lia; lra. }
  intros i h k L. destruct (Nat.le_ge_cases k h) as [H|H]; [apply G; assumption|].
  apply (mean_of_ext _ (fun x => basis i k x * basis i h x)%R); [lra|intros; ring|].
  replace (if h =? k then if h =? 0 then 1 else 1 / 2 else 0)%R with (if k =? h then if k =? 0 then 1 else 1 / 2 else 0)%R; [apply G; assumption|].
  rewrite (Nat.eqb_sym k h). destruct (Nat.eqb_spec h k) as [->|]; reflexivity.
Qed.

Definition series_variance (a : list R) : R := (Rsum (map (fun k => nth k a 0 ^ 2) (seq 1 (length a - 1))) / 2)%R.

Lemma series_moments : forall i a, (fst i < snd i)%R -> moments i (cosine_series i a) (nth 0 a 0%R, series_variance a).
Proof.
  intros i a L. unfold moments. cbn [fst snd]. split.
  - replace (nth 0 a 0%R) with (Rsum (map (fun k => nth k a 0 * (if k =? 0 then 1 else 0))%R (seq 0 (length a)))).
    + unfold cosine_series. apply (mean_of_Rsum nat i (fun k x => nth k a 0 * basis i k x)%R); [lra|].
      intros k _. apply mean_of_scal; [lra|]. apply mean_basis. assumption.
    + destruct a as [|a0 a]; [reflexivity|]. cbn [length seq map nth]. change (Rsum (?z :: ?l)) with (z + Rsum l)%R. cbn [Nat.eqb].
      rewrite (Rsum_ext _ _ (fun _ => 0%R)), Rsum_const; [ring|]. intros k K. apply in_seq in K. destruct (Nat.eqb_spec k 0); [lia|]. ring.
  - apply (mean_of_ext _ (fun x => Rsum (map (fun h => Rsum (map (fun k => (nth h a 0 * nth k a 0) * (basis i h x * basis i k x)) (seq 0 (length a)))) (seq 0 (length a)))%R)); [lra| |].
    + intros x. unfold cosine_series. rewrite <- Rsqr_pow2. unfold Rsqr.
      change (Rsum (map (fun k => nth k a 0 * cos (INR k * (PI * ((x - fst i) / (snd i - fst i))))) (seq 0 (length a))))%R
        with (sum (length a) (fun k => nth k a 0 * basis i k x))%R.
      rewrite sum_mult. unfold sum. apply Rsum_ext. intros h _. apply Rsum_ext. intros k _. ring.
    + replace (series_variance a + nth 0 a 0 ^ 2)%R
        with (Rsum (map (fun h => Rsum (map (fun k => (nth h a 0 * nth k a 0) * (if h =? k then (if h =? 0 then 1 else 1 / 2) else 0))%R (seq 0 (length a)))) (seq 0 (length a)))).
      * apply (mean_of_Rsum nat i (fun h x => Rsum (map (fun k => (nth h a 0 * nth k a 0) * (basis i h x * basis i k x))%R (seq 0 (length a))))); [lra|].
        intros h _. apply (mean_of_Rsum nat i (fun k x => (nth h a 0 * nth k a 0) * (basis i h x * basis i k x))%R); [lra|].
        intros k _. apply mean_of_scal; [lra|]. apply mean_product. assumption.
      * rewrite (Rsum_ext _ _ (fun h => nth h a 0 ^ 2 * (if h =? 0 then 1 else 1 / 2))%R).
        -- destruct a as [|a0 a]; [unfold series_variance, Rsum; simpl; field|]. cbn [length seq map nth]. change (Rsum (?z :: ?l)) with (z + Rsum l)%R at 1. cbn [Nat.eqb].
           unfold series_variance. cbn [length]. replace (S (length a) - 1) with (length a) by lia.
           rewrite (Rsum_ext _ (fun h => nth h (a0 :: a) 0 ^ 2 * (if h =? 0 then 1 else 1 / 2))%R (fun h => (1 / 2) * nth h (a0 :: a) 0 ^ 2)%R).
           ++ rewrite Rsum_map_scal. cbn [nth]. field.
           ++ intros k K. apply in_seq in K. destruct (Nat.eqb_spec k 0); [lia|]. ring.
        -- intros h Hh. change (sum (length a) (fun k => (nth h a 0 * nth k a 0) * (if h =? k then (if h =? 0 then 1 else 1 / 2) else 0)) = nth h a 0 ^ 2 * (if h =? 0 then 1 else 1 / 2))%R.
           apply in_seq in Hh. rewrite (sum_delta _ _ h); [|lia|].
           ++ rewrite Nat.eqb_refl. ring.
           ++ intros k _ Ne. destruct (Nat.eqb_spec h k); [congruence|]. ring.
Qed.
