(** * Power of sums of harmonics. *)
From Coq Require Import Reals String List Arith ZArith Bool Lia Lra Permutation.
From Verif Require Import Base Arrays ListFacts Stats Sums ModelFast SpecFast ProofsFast2 ModelRbd SpecRbd ProofsRbd ProofsRbd2.
Import ListNotations.
Local Open Scope nat_scope.

(** A component: amplitude, frequency and phase. *)
Record wave := mkWave { amp : R; freq : nat; phase : R }.
Definition at_time (n : nat) (l : wave) (t : nat) : R := (amp l * cos (2 * PI * INR (freq l) * INR t / INR n + phase l))%R.
Definition signal (n : nat) (c : R) (ls : list wave) (t : nat) : R := (c + Rsum (map (fun l => at_time n l t) ls))%R.
Definition cpart (ls : list wave) (q : nat) : R := Rsum (map (fun l => if freq l =? q then amp l * cos (phase l) else 0)%R ls).
Definition spart (ls : list wave) (q : nat) : R := Rsum (map (fun l => if freq l =? q then amp l * sin (phase l) else 0)%R ls).
Definition legal (n : nat) (ls : list wave) : Prop := Forall (fun l => 0 < freq l /\ 2 * freq l < n) ls.

(** Sums of one cosine over a period. *)
Lemma cos_sum : forall n d phi, 0 < d < n -> sum n (fun t => cos (2 * PI * INR d * INR t / INR n + phi)) = 0%R.
Proof.
  intros n d phi Hd. destruct (const_dft n d Hd) as [C S]. unfold re, im in *.
  rewrite (sum_ext n _ (fun t => cos phi * (1 * cos (2 * PI * INR d * INR t / INR n)) + (- sin phi) * (1 * sin (2 * PI * INR d * INR t / INR n)))%R).
  - rewrite sum_plus, !sum_scal. rewrite sum_scal in C, S. rewrite C, S. ring.
  - intros t _. rewrite cos_plus. ring.
Qed.

Lemma cos_sum_zero : forall n phi, sum n (fun t => cos (2 * PI * INR 0 * INR t / INR n + phi)) = (INR n * cos phi)%R.
Proof.
  intros n phi. rewrite (sum_ext n _ (fun _ => cos phi)); [apply sum_const|].
  intros t _. f_equal. simpl. unfold Rdiv. ring.
Qed.

(** The same with the difference of two frequencies. *)
Lemma cos_diff : forall n h q phi, 0 < n -> h < n -> q < n ->
  sum n (fun t => cos (2 * PI * INR h * INR t / INR n - 2 * PI * INR q * INR t / INR n + phi)) = if h =? q then (INR n * cos phi)%R else 0%R.
Proof.
  intros n h q phi Hn Hh Hq. assert (HN : (0 < INR n)%R) by (apply lt_0_INR; lia).
  destruct (Nat.eqb_spec h q) as [->|Ne].
  - rewrite <- cos_sum_zero. apply sum_ext. intros t _. f_equal. simpl. field. lra.
  - destruct (Nat.lt_ge_cases q h) as [L|L].
    + rewrite <- (cos_sum n (h - q) phi) by lia. apply sum_ext. intros t _. f_equal. rewrite minus_INR by lia. field. lra.
    + rewrite <- (cos_sum n (q - h) (- phi)) by lia. apply sum_ext. intros t _.
      rewrite <- (cos_neg (2 * PI * INR (q - h) * INR t / INR n + - phi)). f_equal. rewrite minus_INR by lia. field. lra.
Qed.

Lemma wave_re : forall n h q phi, 0 < h -> 2 * h < n -> 0 < q -> 2 * q <= n ->
  sum n (fun t => cos (2 * PI * INR h * INR t / INR n + phi) * cos (2 * PI * INR q * INR t / INR n))%R = (if h =? q then INR n / 2 * cos phi else 0)%R.
Proof.
  intros n h q phi H1 H2 H3 H4. assert (HN : (0 < INR n)%R) by (apply lt_0_INR; lia).
  rewrite (sum_ext n _ (fun t => (1 / 2) * cos (2 * PI * INR (h + q) * INR t / INR n + phi)
    + (1 / 2) * cos (2 * PI * INR h * INR t / INR n - 2 * PI * INR q * INR t / INR n + phi))%R).
  - rewrite sum_plus, !sum_scal, cos_sum, cos_diff by lia. destruct (h =? q); lra.
  - intros t _. replace (2 * PI * INR (h + q) * INR t / INR n + phi)%R
      with ((2 * PI * INR h * INR t / INR n + phi) + 2 * PI * INR q * INR t / INR n)%R by (rewrite plus_INR; field; lra).
    replace (2 * PI * INR h * INR t / INR n - 2 * PI * INR q * INR t / INR n + phi)%R
      with ((2 * PI * INR h * INR t / INR n + phi) - 2 * PI * INR q * INR t / INR n)%R by ring.
    rewrite (cos_plus (2 * PI * INR h * INR t / INR n + phi)), (cos_minus (2 * PI * INR h * INR t / INR n + phi)). field.
Qed.

Lemma wave_im : forall n h q phi, 0 < h -> 2 * h < n -> 0 < q -> 2 * q <= n ->
  sum n (fun t => cos (2 * PI * INR h * INR t / INR n + phi) * sin (2 * PI * INR q * INR t / INR n))%R = (if h =? q then - (INR n / 2 * sin phi) else 0)%R.
Proof.
  intros n h q phi H1 H2 H3 H4. assert (HN : (0 < INR n)%R) by (apply lt_0_INR; lia).
  (* cos a sin b = (sin (a+b) - sin (a-b)) / 2, and sin x = cos (x - pi/2) *)
  rewrite (sum_ext n _ (fun t => (1 / 2) * cos (2 * PI * INR (h + q) * INR t / INR n + (phi - PI / 2))
    + (- (1 / 2)) * cos (2 * PI * INR h * INR t / INR n - 2 * PI * INR q * INR t / INR n + (phi - PI / 2)))%R).
  - rewrite sum_plus, !sum_scal, cos_sum, cos_diff by lia. destruct (h =? q); [|lra].
    rewrite cos_minus, cos_PI2, sin_PI2. lra.
  - intros t _. replace (2 * PI * INR (h + q) * INR t / INR n + (phi - PI / 2))%R
      with (((2 * PI * INR h * INR t / INR n + phi) + 2 * PI * INR q * INR t / INR n) - PI / 2)%R by (rewrite plus_INR; field; lra).
    replace (2 * PI * INR h * INR t / INR n - 2 * PI * INR q * INR t / INR n + (phi - PI / 2))%R
      with (((2 * PI * INR h * INR t / INR n + phi) - 2 * PI * INR q * INR t / INR n) - PI / 2)%R by ring.
    rewrite (cos_minus _ (PI / 2)), (cos_minus (_ - _) (PI / 2)), cos_PI2, sin_PI2.
    rewrite (sin_plus (2 * PI * INR h * INR t / INR n + phi)), (sin_minus (2 * PI * INR h * INR t / INR n + phi)). field.
Qed.

Lemma sum_Rsum : forall A n (f : A -> nat -> R) l, sum n (fun t => Rsum (map (fun x => f x t) l)) = Rsum (map (fun x => sum n (f x)) l).
Proof.
  intros A n f l. induction l as [|a l IH].
  - cbn [map]. rewrite (sum_zero n); [reflexivity|]. reflexivity.
  - rewrite (sum_ext n _ (fun t => f a t + Rsum (map (fun x => f x t) l))%R) by reflexivity. rewrite sum_plus, IH. reflexivity.
Qed.

Lemma signal_re : forall n c ls q, legal n ls -> 0 < q -> 2 * q <= n -> re n (signal n c ls) q = (INR n / 2 * cpart ls q)%R.
Proof.
  intros n c ls q HL Hq H2. unfold re, signal. destruct (Nat.eq_dec n 0) as [->|Hn]; [lia|].
  rewrite (sum_ext n _ (fun t => c * (1 * cos (2 * PI * INR q * INR t / INR n))
     + Rsum (map (fun l => at_time n l t * cos (2 * PI * INR q * INR t / INR n)) ls))%R).
  - rewrite sum_plus, sum_scal. destruct (const_dft n q ltac:(lia)) as [C _]. unfold re in C. rewrite C.
    rewrite (sum_Rsum _ n (fun l t => at_time n l t * cos (2 * PI * INR q * INR t / INR n))%R). unfold cpart.
    rewrite <- Rsum_map_scal. replace (c * 0)%R with 0%R by ring. rewrite Rplus_0_l. apply Rsum_ext. intros l Hl.
    unfold legal in HL. rewrite Forall_forall in HL. destruct (HL l Hl) as [F1 F2]. unfold at_time.
    rewrite (sum_ext n _ (fun t => amp l * (cos (2 * PI * INR (freq l) * INR t / INR n + phase l) * cos (2 * PI * INR q * INR t / INR n)))%R)
      by (intros; ring). rewrite sum_scal, wave_re by lia. destruct (_ =? _); ring.
  - intros t _. rewrite (Rsum_ext _ (fun l => at_time n l t * cos (2 * PI * INR q * INR t / INR n))%R (fun l => cos (2 * PI * INR q * INR t / INR n) * at_time n l t)%R) by (intros; ring).
    rewrite Rsum_map_scal. ring.
Qed.

Lemma signal_im : forall n c ls q, legal n ls -> 0 < q -> 2 * q <= n -> im n (signal n c ls) q = (- (INR n / 2) * spart ls q)%R.
Proof.
  intros n c ls q HL Hq H2. unfold im, signal. destruct (Nat.eq_dec n 0) as [->|Hn]; [lia|].
  rewrite (sum_ext n _ (fun t => c * (1 * sin (2 * PI * INR q * INR t / INR n))
     + Rsum (map (fun l => at_time n l t * sin (2 * PI * INR q * INR t / INR n)) ls))%R).
  - rewrite sum_plus, sum_scal. destruct (const_dft n q ltac:(lia)) as [_ C]. unfold im in C. rewrite C.
    rewrite (sum_Rsum _ n (fun l t => at_time n l t * sin (2 * PI * INR q * INR t / INR n))%R). unfold spart.
    rewrite <- Rsum_map_scal. replace (c * 0)%R with 0%R by ring. rewrite Rplus_0_l. apply Rsum_ext. intros l Hl.
    unfold legal in HL. rewrite Forall_forall in HL. destruct (HL l Hl) as [F1 F2]. unfold at_time.
    rewrite (sum_ext n _ (fun t => amp l * (cos (2 * PI * INR (freq l) * INR t / INR n + phase l) * sin (2 * PI * INR q * INR t / INR n)))%R)
      by (intros; ring). rewrite sum_scal, wave_im by lia. destruct (_ =? _); ring.
  - intros t _. rewrite (Rsum_ext _ (fun l => at_time n l t * sin (2 * PI * INR q * INR t / INR n))%R (fun l => sin (2 * PI * INR q * INR t / INR n) * at_time n l t)%R) by (intros; ring).
    rewrite Rsum_map_scal. ring.
Qed.

(** The outputs along a block. *)
Definition outputs (n : nat) (c : R) (ls : list wave) : list R := map (signal n c ls) (seq 0 n).
Lemma outputs_length : forall n c ls, length (outputs n c ls) = n.
Proof. intros. unfold outputs. rewrite map_length, seq_length. reflexivity. Qed.
Lemma outputs_nth : forall n c ls t, t < n -> nth t (outputs n c ls) 0%R = signal n c ls t.
Proof.
  intros n c ls t Ht. unfold outputs. rewrite (nth_indep _ 0%R (signal n c ls 0)) by (rewrite map_length, seq_length; lia).
  rewrite map_nth, seq_nth by lia. reflexivity.
Qed.

Lemma outputs_power : forall n c ls q, legal n ls -> 0 < q -> 2 * q <= n ->
  power (outputs n c ls) q = ((cpart ls q ^ 2 + spart ls q ^ 2) / 4)%R.
Proof.
  intros n c ls q HL Hq H2. assert (HN : (0 < INR n)%R) by (apply lt_0_INR; lia).
  rewrite power_re_im, outputs_length.
  assert (E1 : re n (fun t => nth t (outputs n c ls) 0%R) q = re n (signal n c ls) q).
  { unfold re. apply sum_ext. intros t Ht. rewrite outputs_nth by lia. reflexivity. }
  assert (E2 : im n (fun t => nth t (outputs n c ls) 0%R) q = im n (signal n c ls) q).
  { unfold im. apply sum_ext. intros t Ht. rewrite outputs_nth by lia. reflexivity. }
  rewrite E1, E2, signal_re, signal_im by assumption. field. lra.
Qed.

(** Components away from [q] do not count. *)
Lemma cpart_app : forall a b q, cpart (a ++ b) q = (cpart a q + cpart b q)%R.
Proof. intros. unfold cpart. rewrite map_app, Rsum_app. reflexivity. Qed.
Lemma spart_app : forall a b q, spart (a ++ b) q = (spart a q + spart b q)%R.
Proof. intros. unfold spart. rewrite map_app, Rsum_app. reflexivity. Qed.
Lemma parts_zero : forall ls q, Forall (fun l => freq l <> q) ls -> cpart ls q = 0%R /\ spart ls q = 0%R.
Proof.
  intros ls q F. unfold cpart, spart. induction F as [|l ls H F [I J]]; [split; reflexivity|].
  cbn [map]. destruct (Nat.eqb_spec (freq l) q); [contradiction|]. split.
  - change (0 + Rsum (map (fun l => if freq l =? q then amp l * cos (phase l) else 0) ls) = 0)%R. rewrite I. ring.
  - change (0 + Rsum (map (fun l => if freq l =? q then amp l * sin (phase l) else 0) ls) = 0)%R. rewrite J. ring.
Qed.

(** With different frequencies the power at [q] is the squared amplitude of the component there. *)
Lemma parts_distinct : forall ls q, NoDup (map freq ls) ->
  (cpart ls q ^ 2 + spart ls q ^ 2)%R = Rsum (map (fun l => if freq l =? q then amp l ^ 2 else 0)%R ls).
Proof.
  induction ls as [|l ls IH]; intros q ND; [unfold cpart, spart, Rsum; simpl; ring|].
  cbn [map] in ND. inversion ND as [|? ? NI ND']; subst.
  change (cpart (l :: ls) q) with ((if freq l =? q then amp l * cos (phase l) else 0) + cpart ls q)%R.
  change (spart (l :: ls) q) with ((if freq l =? q then amp l * sin (phase l) else 0) + spart ls q)%R.
  change (Rsum (map (fun l0 => if freq l0 =? q then amp l0 ^ 2 else 0) (l :: ls)))%R
    with ((if freq l =? q then amp l ^ 2 else 0) + Rsum (map (fun l0 => if freq l0 =? q then amp l0 ^ 2 else 0) ls))%R.
  destruct (Nat.eqb_spec (freq l) q) as [E|E].
  - destruct (parts_zero ls q) as [C S].
    { apply Forall_forall. intros x Hx Ex. apply NI. rewrite E, <- Ex. apply in_map. assumption. }
    rewrite <- IH by assumption. rewrite C, S. pose proof (sin2_cos2 (phase l)) as T. unfold Rsqr in T.
    replace ((amp l * cos (phase l) + 0) ^ 2 + (amp l * sin (phase l) + 0) ^ 2)%R
      with (amp l ^ 2 * (sin (phase l) * sin (phase l) + cos (phase l) * cos (phase l)))%R by ring. rewrite T. ring.
  - rewrite <- IH by assumption. ring.
Qed.

Lemma Rsum_pick : forall q0 (v : R) qs, NoDup qs -> In q0 qs -> Rsum (map (fun q => if q0 =? q then v else 0)%R qs) = v.
Proof.
  intros q0 v qs. induction qs as [|q qs IH]; intros ND I; [contradiction|].
  inversion ND as [|? ? NI ND']; subst. cbn [map].
  change (Rsum ((if q0 =? q then v else 0%R) :: map (fun q => if q0 =? q then v else 0%R) qs))
    with ((if q0 =? q then v else 0%R) + Rsum (map (fun q => if q0 =? q then v else 0%R) qs))%R.
  destruct (Nat.eqb_spec q0 q) as [->|Ne].
  - rewrite (Rsum_ext _ _ (fun _ => 0%R)), Rsum_const; [ring|]. intros x Hx. destruct (Nat.eqb_spec q x); [subst; contradiction|reflexivity].
  - destruct I as [E|I]; [congruence|]. rewrite IH by assumption. ring.
Qed.

Lemma Rsum_swap : forall A B (f : A -> B -> R) l m, Rsum (map (fun a => Rsum (map (f a) m)) l) = Rsum (map (fun b => Rsum (map (fun a => f a b) l)) m).
Proof.
  intros A B f l m. induction l as [|a l IH].
  - cbn [map]. rewrite (Rsum_ext _ _ (fun _ => 0%R)), Rsum_const by reflexivity. change (Rsum []) with 0%R. ring.
  - change (Rsum (map (f a) m) + Rsum (map (fun a => Rsum (map (f a) m)) l) = Rsum (map (fun b => f a b + Rsum (map (fun a0 => f a0 b) l)) m))%R.
    rewrite IH, <- Rsum_map_plus. reflexivity.
Qed.

Lemma band_distinct : forall n c ls qs, legal n ls -> NoDup (map freq ls) -> NoDup qs -> (forall q, In q qs -> 0 < q /\ 2 * q <= n) ->
  (forall l, In l ls -> In (freq l) qs) -> band (outputs n c ls) qs = (Rsum (map (fun l => amp l ^ 2) ls) / 4)%R.
Proof.
  intros n c ls qs HL ND NQ HQ HI. unfold band.
  rewrite (Rsum_ext _ _ (fun q => / 4 * Rsum (map (fun l => if freq l =? q then amp l ^ 2 else 0) ls))%R).
  - rewrite Rsum_map_scal, Rsum_swap. rewrite (Rsum_ext _ _ (fun l => amp l ^ 2)%R); [field|].
    intros l Hl. apply Rsum_pick; auto.
  - intros q Hq. destruct (HQ q Hq) as [Q1 Q2]. rewrite outputs_power, parts_distinct by assumption. field.
Qed.

Lemma visible_in : forall n q, In q (visible n) <-> 0 < q /\ 2 * q < n.
Proof.
  intros n q. unfold visible. rewrite in_seq. pose proof (Nat.div_mod (n - 1) 2 ltac:(lia)). pose proof (Nat.mod_upper_bound (n - 1) 2 ltac:(lia)). lia.
Qed.
Lemma visible_nodup : forall n, NoDup (visible n).
Proof. intros. apply seq_NoDup. Qed.

(** The variance is the visible power: nothing sits at half the number of samples. *)
Lemma outputs_var : forall n c ls, 0 < n -> legal n ls -> (var (outputs n c ls) = 2 * band (outputs n c ls) (visible n))%R.
Proof.
  intros n c ls Hn HL. set (y := outputs n c ls). assert (Ly : length y = n) by apply outputs_length.
  assert (Hy : y <> []) by (intros E; rewrite E in Ly; simpl in Ly; lia).
  destruct (Nat.Even_or_Odd n) as [Ev|Od].
  - pose proof (visible_variance_even y Hy) as E. rewrite Ly in E. specialize (E Ev).
    destruct Ev as [h Eh].
    assert (Z : power y h = 0%R).
    { unfold y. rewrite outputs_power by (try assumption; lia). destruct (parts_zero ls h) as [C S].
      - apply Forall_forall. intros l Hl Ex. unfold legal in HL. rewrite Forall_forall in HL. destruct (HL l Hl). lia.
      - rewrite C, S. field. }
    rewrite (nyquist_power y h Hy ltac:(lia)) in Z. rewrite Ly in Z. rewrite Z in E. lra.
  - pose proof (visible_variance_odd y) as E. rewrite Ly in E. specialize (E Od). lra.
Qed.

(** Two sets of components whose frequencies do not meet. *)
Lemma power_disjoint : forall n c a b q, legal n a -> legal n b -> (forall x y, In x a -> In y b -> freq x <> freq y) -> 0 < q -> 2 * q <= n ->
  power (outputs n c (a ++ b)) q = (power (outputs n c a) q + power (outputs n c b) q)%R.
Proof.
  intros n c a b q La Lb Dj Q1 Q2. assert (Lab : legal n (a ++ b)) by (apply Forall_app; split; assumption).
  rewrite !outputs_power by assumption. rewrite cpart_app, spart_app.
  destruct (in_dec Nat.eq_dec q (map freq a)) as [I|I].
  - destruct (parts_zero b q) as [C S].
    { apply Forall_forall. intros y Hy Ey. apply in_map_iff in I. destruct I as (x & Ex & Hx). apply (Dj x y Hx Hy). congruence. }
    rewrite C, S. field.
  - destruct (parts_zero a q) as [C S].
    { apply Forall_forall. intros x Hx Ex. apply I. rewrite <- Ex. apply in_map. assumption. }
    rewrite C, S. field.
Qed.

Lemma band_disjoint : forall n c a b qs, legal n a -> legal n b -> (forall x y, In x a -> In y b -> freq x <> freq y) ->
  (forall q, In q qs -> 0 < q /\ 2 * q <= n) -> band (outputs n c (a ++ b)) qs = (band (outputs n c a) qs + band (outputs n c b) qs)%R.
Proof.
  intros n c a b qs La Lb Dj HQ. unfold band. rewrite <- Rsum_map_plus. apply Rsum_ext. intros q Hq. destruct (HQ q Hq). apply power_disjoint; assumption.
Qed.

Lemma band_away : forall n c a qs, legal n a -> (forall q, In q qs -> 0 < q /\ 2 * q <= n) -> (forall x, In x a -> ~ In (freq x) qs) ->
  band (outputs n c a) qs = 0%R.
Proof.
  intros n c a qs La HQ Aw. unfold band. rewrite (Rsum_ext _ _ (fun _ => 0%R)), Rsum_const; [ring|].
  intros q Hq. destruct (HQ q Hq). rewrite outputs_power by assumption. destruct (parts_zero a q) as [C S].
  - apply Forall_forall. intros x Hx Ex. apply (Aw x Hx). rewrite Ex. assumption.
  - rewrite C, S. field.
Qed.

Lemma band_app : forall y a b, band y (a ++ b) = (band y a + band y b)%R.
Proof. intros. unfold band. rewrite map_app, Rsum_app. reflexivity. Qed.

(** Components below half the driver frequency and components at its multiples. *)
Section Split.
  Variables (n M w : nat) (c : R) (d r : list wave).
  Hypotheses (Hn : 0 < n) (HM : 1 <= M) (Hw : 1 <= w) (HMw : 2 * (M * w) < n).
  Hypothesis Hd : forall x, In x d -> exists k, 1 <= k <= M /\ freq x = k * w.
  Hypothesis Hdd : NoDup (map freq d).
  Hypothesis Hr : forall x, In x r -> 1 <= freq x <= w / 2.
  Let y := outputs n c (d ++ r).

  Lemma half_w : 2 * (w / 2) <= w.
  Proof. apply Nat.mul_div_le. lia. Qed.
  Lemma d_legal : legal n d.
  Proof. apply Forall_forall. intros x Hx. destruct (Hd x Hx) as (k & K & ->). split; nia. Qed.
  Lemma r_legal : legal n r.
  Proof. apply Forall_forall. intros x Hx. pose proof (Hr x Hx). pose proof half_w. split; nia. Qed.
  Lemma d_r : forall x z, In x d -> In z r -> freq x <> freq z.
  Proof. intros x z Hx Hz E. destruct (Hd x Hx) as (k & K & F). pose proof (Hr z Hz). pose proof half_w. nia. Qed.

  Let H := map (fun k => k * w) (seq 1 M).
  Lemma H_in : forall q, In q H <-> exists k, 1 <= k <= M /\ q = k * w.
  Proof.
    intros q. unfold H. rewrite in_map_iff. split.
    - intros (k & <- & K). apply in_seq in K. exists k. split; [lia|reflexivity].
    - intros (k & K & ->). exists k. split; [reflexivity|]. apply in_seq. lia.
  Qed.
  Lemma H_nodup : NoDup H.
  Proof. unfold H. apply FinFun.Injective_map_NoDup; [|apply seq_NoDup]. intros a b E. nia. Qed.
  Lemma H_ok : forall q, In q H -> 0 < q /\ 2 * q <= n.
  Proof. intros q Hq. apply H_in in Hq. destruct Hq as (k & K & ->). split; nia. Qed.
  Lemma low_ok : forall q, In q (seq 1 (w / 2)) -> 0 < q /\ 2 * q <= n.
  Proof. intros q Hq. apply in_seq in Hq. pose proof half_w. split; nia. Qed.
  Lemma visible_ok : forall q, In q (visible n) -> 0 < q /\ 2 * q <= n.
  Proof. intros q Hq. apply visible_in in Hq. lia. Qed.

  Lemma visible_split : visible n = seq 1 (w / 2) ++ seq (w / 2 + 1) ((n - 1) / 2 - w / 2).
  Proof.
    unfold visible. assert (w / 2 <= (n - 1) / 2). { pose proof half_w. apply Nat.div_le_mono; nia. }
    replace ((n - 1) / 2) with (w / 2 + ((n - 1) / 2 - w / 2)) at 1 by lia. rewrite seq_app. f_equal. f_equal. lia.
  Qed.

  Lemma driver_band : band y H = (Rsum (map (fun l => amp l ^ 2) d) / 4)%R.
  Proof.
    unfold y. rewrite (band_disjoint n c d r H d_legal r_legal d_r H_ok), (band_distinct n c d H d_legal Hdd H_nodup H_ok).
    - rewrite (band_away n c r H r_legal H_ok); [ring|]. intros x Hx I. apply H_in in I. destruct I as (k & K & E). pose proof (Hr x Hx). pose proof half_w. nia.
    - intros l Hl. apply H_in. apply Hd. assumption.
  Qed.

  Lemma low_band : band y (seq 1 (w / 2)) = (var (outputs n c r) / 2)%R.
  Proof.
    unfold y. rewrite (band_disjoint n c d r _ d_legal r_legal d_r low_ok).
    rewrite (band_away n c d _ d_legal low_ok).
    - rewrite (outputs_var n c r Hn r_legal), visible_split, band_app.
      rewrite (band_away n c r (seq (w / 2 + 1) _) r_legal).
      + field.
      + intros q Hq. apply visible_ok. rewrite visible_split. apply in_or_app. right. assumption.
      + intros x Hx I. apply in_seq in I. pose proof (Hr x Hx). lia.
    - intros x Hx I. apply in_seq in I. destruct (Hd x Hx) as (k & K & E). pose proof half_w. nia.
  Qed.

  Lemma whole_band : band y (visible n) = (Rsum (map (fun l => amp l ^ 2) d) / 4 + var (outputs n c r) / 2)%R.
  Proof.
    unfold y. rewrite (band_disjoint n c d r _ d_legal r_legal d_r visible_ok).
    rewrite (band_distinct n c d (visible n) d_legal Hdd (visible_nodup n) visible_ok).
    - rewrite (outputs_var n c r Hn r_legal). field.
    - intros l Hl. apply visible_in. destruct (Hd l Hl) as (k & K & ->). split; nia.
  Qed.

  (** With different frequencies among the rest as well. *)
  Lemma rest_var : NoDup (map freq r) -> var (outputs n c r) = (Rsum (map (fun l => amp l ^ 2) r) / 2)%R.
  Proof.
    intros ND. rewrite (outputs_var n c r Hn r_legal), (band_distinct n c r (visible n) r_legal ND (visible_nodup n) visible_ok); [field|].
    intros l Hl. apply visible_in. pose proof (Hr l Hl). pose proof half_w. split; nia.
  Qed.

  Lemma orders_split : forall S1 ST, w = (n - 1) / (2 * M) -> orders_ok y M S1 ST ->
    let v := (Rsum (map (fun l => amp l ^ 2) d) / 2)%R in let W := var (outputs n c r) in
    (v + W = 0 /\ S1 = None /\ ST = None)%R \/ (v + W <> 0 /\ S1 = Some (v / (v + W)) /\ ST = Some (v / (v + W)))%R.
  Proof.
    intros S1 ST Ew O v W. unfold orders_ok in O. assert (Ly : length y = n) by apply outputs_length. rewrite Ly in O. rewrite <- Ew in O. cbv zeta in O.
    fold H in O. rewrite driver_band, low_band, whole_band in O. fold W in O.
    replace (Rsum (map (fun l => (amp l ^ 2)%R) d) / 4)%R with (v / 2)%R in O by (unfold v; field).
    destruct O as [(Z & A & B)|(Z & s1 & st & A & B & C & D & _)]; [left|right].
    - split; [lra|]. split; assumption.
    - assert (v + W <> 0)%R by (intros E; apply Z; lra). split; [assumption|]. subst s1 st.
      split; [rewrite A|rewrite B]; f_equal; field; lra.
  Qed.
End Split.
