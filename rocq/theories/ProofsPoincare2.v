(** * Derivative-based bounds for total effects. *)
From Coq Require Import Reals String List Arith Lia Lra Psatz.
From Verif Require Import Base Stats SpecIntegral ProofsIntegral ModelGroups SpecFF SpecMorris ModelDgsm SpecDgsm ProofsDgsm2 SpecDgsm2 ProofsPoincare.
Import ListNotations.
Local Open Scope R_scope.

Lemma average_le : forall b f g v w, proper b -> (forall x, inside b x -> f x <= g x) -> average b f v -> average b g w -> v <= w.
Proof.
  intros b f g v w P H F G. pose proof (average_lin b g f (-1) w v P G F) as I. apply average_nonneg in I; auto; [lra|].
  intros x Hx. specialize (H x Hx). lra.
Qed.

(** The integral behind an average along one coordinate. *)
Lemma average_one_inv : forall lo hi (f : R -> R) v, lo < hi -> average [(lo, hi)] (fun l => f (hd 0 l)) v -> integral f lo hi (v * (hi - lo)).
Proof.
  intros lo hi f v L (h & H & I). apply (integral_ext h); [lra| |exact I]. intros x Hx. specialize (H x Hx). simpl in H. auto.
Qed.

(** Convergence of the reported figure. *)
Lemma Rle_cv : forall u l b e, Un_cv u l -> b <= l -> 0 < e -> exists n0, forall n, (n0 <= n)%nat -> b - e <= u n.
Proof.
  intros u l b e H B E. destruct (H e E) as (n0 & H0). exists n0. intros n Hn. specialize (H0 n Hn). unfold R_dist in H0. apply Rabs_def2 in H0. lra.
Qed.

Lemma cv_inv : forall u l, Un_cv u l -> l <> 0 -> Un_cv (fun n => / u n) (/ l).
Proof. intros u l H L. apply (continuity_seq (fun x => / x) u l); auto. apply cont_inv; auto. intros eps He. exists eps. split; auto. intros x (_ & Hx). auto. Qed.

Lemma mean_square : forall l, (mean (map Rabs l)) ^ 2 <= mean (map (fun x => x ^ 2) l).
Proof.
  intros l. destruct l as [|x0 l0]. { unfold mean. simpl. unfold Rdiv. rewrite !Rmult_0_l. lra. }
  set (l := x0 :: l0). assert (NL : 0 < INR (length l)) by (apply lt_0_INR; simpl; lia).
  unfold mean. rewrite !map_length.
  assert (Q : forall c, 0 <= Rsum (map (fun x => x ^ 2) l) - 2 * c * Rsum (map Rabs l) + c ^ 2 * INR (length l)).
  { intros c. generalize l. induction l1 as [|x r IH]; [simpl; lra|]. cbn [map length]. rewrite S_INR. unfold Rsum in *. cbn [fold_right].
    assert (0 <= (Rabs x - c) ^ 2) by apply pow2_ge_0. assert (x ^ 2 = Rabs x ^ 2) by (symmetry; apply pow2_abs). lra. }
  specialize (Q (Rsum (map Rabs l) / INR (length l))). set (s := Rsum (map Rabs l)) in *. set (q := Rsum (map (fun x => x ^ 2) l)) in *. set (n := INR (length l)) in *.
  apply (Rmult_le_reg_r n); auto. replace ((s / n) ^ 2 * n) with (s ^ 2 / n) by (field; lra). replace (q / n * n) with q by (field; lra).
  replace (q - 2 * (s / n) * s + (s / n) ^ 2 * n) with (q - s ^ 2 / n) in Q by (field; lra). lra.
Qed.
