(** * Sums of univariate functions and products of pairs, averaged over independent centred inputs. *)
From Coq Require Import Reals List Arith Lia Lra Psatz.
From Coquelicot Require Import Coquelicot.
From Verif Require Import Base Stats ModelOakley SpecOakley.
Import ListNotations.
Local Open Scope R_scope.

Definition form := list ((R -> R) * list R).

(** The sum of [h_i x_i] and of the products [b_ij x_i x_j] for [i < j]. *)
Fixpoint feval (fs : form) (v : list R) : R :=
  match fs, v with
  | (h, bs) :: fs', x :: v' => h x + x * Rsum (map2 Rmult bs v') + feval fs' v'
  | _, _ => 0
  end.

Definition cont (f : R -> R) : Prop := forall x, continuous f x.

Fixpoint wf (fs : form) : Prop :=
  match fs with [] => True | (h, bs) :: fs' => cont h /\ length bs = length fs' /\ wf fs' end.

(** Fixing the first input adds linear terms. *)
Definition shift (x : R) (bs : list R) (fs : form) : form := map2 (fun b hb => ((fun y => fst hb y + x * b * y), snd hb)) bs fs.

Lemma shift_length : forall x bs fs, length bs = length fs -> length (shift x bs fs) = length fs.
Proof. unfold shift. induction bs as [|b bs IH]; intros [|f fs]; simpl; auto; try discriminate. Qed.

Lemma feval_shift : forall x bs fs v, length bs = length fs -> length v = length fs ->
  feval (shift x bs fs) v = x * Rsum (map2 Rmult bs v) + feval fs v.
Proof.
  intros x. induction bs as [|b bs IH]; intros [|[h cs] fs] [|y v]; simpl; try discriminate; intros H1 H2; [lra|].
  fold (shift x bs fs). rewrite IH by lia. ring.
Qed.

Lemma cont_shift : forall h x b, cont h -> cont (fun y => h y + x * b * y).
Proof. intros h x b H y. apply (continuous_plus h (fun y => x * b * y)); auto. apply (continuous_mult (fun _ => x * b) (fun y => y)); [apply continuous_const|apply continuous_id]. Qed.

Lemma wf_shift : forall x bs fs, length bs = length fs -> wf fs -> wf (shift x bs fs).
Proof.
  intros x. induction bs as [|b bs IH]; intros [|[h cs] fs]; simpl; auto; try discriminate. intros H (H1 & H2 & H3).
  fold (shift x bs fs). split; [apply cont_shift; auto|]. rewrite shift_length by lia. auto.
Qed.

Lemma rsum_cons : forall a l, Rsum (a :: l) = a + Rsum l.
Proof. reflexivity. Qed.

Section Average.
Variable E : (R -> R) -> R.
Hypothesis E_ext : forall f g, (forall x, f x = g x) -> E f = E g.
Hypothesis E_plus : forall f g, cont f -> cont g -> E (fun x => f x + g x) = E f + E g.
Hypothesis E_scal : forall c f, cont f -> E (fun x => c * f x) = c * E f.
Hypothesis E_one : E (fun _ => 1) = 1.
Hypothesis E_id : E (fun x => x) = 0.

Lemma cont_const : forall c, cont (fun _ => c).
Proof. intros c x. apply continuous_const. Qed.
Lemma cont_id : cont (fun x => x).
Proof. intros x. apply continuous_id. Qed.
Lemma cont_plus : forall f g, cont f -> cont g -> cont (fun x => f x + g x).
Proof. intros f g F G x. apply (continuous_plus f g); auto. Qed.
Lemma cont_mult : forall f g, cont f -> cont g -> cont (fun x => f x * g x).
Proof. intros f g F G x. apply (continuous_mult f g); auto. Qed.
Lemma cont_scal : forall c f, cont f -> cont (fun x => c * f x).
Proof. intros c f F. apply (cont_mult (fun _ => c) f); auto using cont_const. Qed.
Lemma cont_sq : forall f, cont f -> cont (fun x => f x ^ 2).
Proof. intros f F x. apply (continuous_ext (fun x => f x * f x)); [intros y; simpl; ring|]. apply (cont_mult f f); auto. Qed.
Hint Resolve cont_const cont_id cont_plus cont_mult cont_scal cont_sq : cont.

Lemma E_const : forall c, E (fun _ => c) = c.
Proof. intros c. rewrite (E_ext _ (fun x => c * 1)) by (intros; ring). rewrite (E_scal c (fun _ => 1)) by auto with cont. rewrite E_one. ring. Qed.

Lemma avar_eq : forall h, cont h -> avar E h = E (fun x => h x ^ 2) - E h ^ 2.
Proof.
  intros h H. unfold avar. rewrite (E_ext _ (fun x => h x ^ 2 + ((-2 * E h) * h x + E h ^ 2))) by (intros; ring).
  rewrite (E_plus (fun x => h x ^ 2)), (E_plus (fun x => -2 * E h * h x)), E_scal, E_const; auto with cont. ring.
Qed.

(** Shifts by a linear function. *)
Lemma avar_shift : forall h c, cont h -> avar E (fun y => h y + c * y) = avar E h + (2 * c) * E (fun y => h y * y) + c ^ 2 * E (fun y => y ^ 2).
Proof.
  intros h c H. rewrite !avar_eq by auto with cont.
  rewrite (E_ext (fun x => (h x + c * x) ^ 2) (fun x => h x ^ 2 + ((2 * c) * (h x * x) + c ^ 2 * x ^ 2))) by (intros; ring).
  rewrite (E_plus (fun x => h x ^ 2)), (E_plus (fun x => 2 * c * (h x * x))), !E_scal, (E_plus h), E_scal, E_id; auto with cont. ring.
Qed.

Definition means (fs : form) : R := Rsum (map (fun hb => E (fst hb)) fs).
Definition vars (fs : form) : R := Rsum (map (fun hb => avar E (fst hb)) fs).
Definition covs (bs : list R) (fs : form) : R := Rsum (map2 (fun b hb => b * E (fun y => fst hb y * y)) bs fs).
Definition squares (bs : list R) : R := Rsum (map (fun b => b ^ 2) bs).
Definition couplings (fs : form) : R := Rsum (map (fun hb => squares (snd hb)) fs).

Lemma means_shift : forall x bs fs, length bs = length fs -> wf fs -> means (shift x bs fs) = means fs.
Proof.
  intros x. unfold means. induction bs as [|b bs IH]; intros [|[h cs] fs]; simpl; auto; try discriminate. intros H (H1 & H2 & H3).
  fold (shift x bs fs). rewrite IH by (auto; lia). rewrite (E_plus h (fun y => x * b * y)), E_scal, E_id; auto with cont. ring.
Qed.
Lemma vars_shift : forall x bs fs, length bs = length fs -> wf fs ->
  vars (shift x bs fs) = vars fs + (2 * x) * covs bs fs + x ^ 2 * (squares bs * E (fun y => y ^ 2)).
Proof.
  intros x. unfold vars, covs, squares. induction bs as [|b bs IH]; intros [|[h cs] fs]; cbn [map map2]; try discriminate; intros H W; [unfold shift; simpl; ring|].
  destruct W as (H1 & H2 & H3). unfold shift. cbn [map2 map]. fold (shift x bs fs). rewrite !rsum_cons. rewrite IH by (auto; simpl in H; lia). cbn [fst]. rewrite (avar_shift h (x * b)) by auto. ring.
Qed.
Lemma couplings_shift : forall x bs fs, length bs = length fs -> couplings (shift x bs fs) = couplings fs.
Proof.
  intros x. unfold couplings. induction bs as [|b bs IH]; intros [|[h cs] fs]; simpl; auto; try discriminate. intros H. fold (shift x bs fs). rewrite IH by lia. ring.
Qed.

Lemma navg_ext : forall n f g, (forall v, length v = n -> f v = g v) -> navg E n f = navg E n g.
Proof. induction n as [|n IH]; intros f g H; simpl; [apply H; auto|]. apply E_ext. intros x. apply IH. intros v Hv. apply H. simpl. auto. Qed.

Lemma feval_cons : forall h bs fs x v, length bs = length fs -> length v = length fs ->
  feval ((h, bs) :: fs) (x :: v) = h x + feval (shift x bs fs) v.
Proof. intros. cbn [feval]. rewrite feval_shift by auto. ring. Qed.

Lemma navg_mean : forall fs c, wf fs -> navg E (length fs) (fun v => c + feval fs v) = c + means fs.
Proof.
  intros fs. remember (length fs) as n eqn:En. revert fs En.
  induction n as [|n IH]; intros [|[h bs] fs] En c W; simpl in En; try discriminate.
  - simpl. unfold means. simpl. ring.
  - cbn [navg]. destruct W as (H1 & H2 & H3). injection En as En.
    rewrite (E_ext _ (fun x => (c + means fs) + h x)).
    + rewrite (E_plus (fun _ => c + means fs) h), E_const by auto with cont. unfold means. simpl. ring.
    + intros x. rewrite (navg_ext _ _ (fun v => (c + h x) + feval (shift x bs fs) v)).
      2:{ intros v Hv. rewrite feval_cons by congruence. ring. }
      rewrite IH by (try (apply wf_shift; auto); rewrite shift_length; auto). rewrite means_shift by auto. ring.
Qed.

Lemma navg_square : forall fs c, wf fs ->
  navg E (length fs) (fun v => (c + feval fs v) ^ 2) = (c + means fs) ^ 2 + vars fs + couplings fs * E (fun y => y ^ 2) ^ 2.
Proof.
  intros fs. remember (length fs) as n eqn:En. revert fs En.
  induction n as [|n IH]; intros [|[h bs] fs] En c W; simpl in En; try discriminate.
  - simpl. unfold means, vars, couplings. simpl. ring.
  - cbn [navg]. destruct W as (H1 & H2 & H3). injection En as En. set (K := c + means fs). set (X2 := E (fun y => y ^ 2)).
    rewrite (E_ext _ (fun x => h x ^ 2 + ((2 * K) * h x + ((K ^ 2 + vars fs + couplings fs * X2 ^ 2) + ((2 * covs bs fs) * x + (squares bs * X2) * x ^ 2))))).
    + rewrite (E_plus (fun x => h x ^ 2)), (E_plus (fun x => 2 * K * h x)), (E_plus (fun _ => K ^ 2 + vars fs + couplings fs * X2 ^ 2)),
        (E_plus (fun x => 2 * covs bs fs * x)), !E_scal, E_const, E_id; auto 8 with cont. fold X2.
      unfold means, vars, couplings. cbn [map fst snd]. rewrite !rsum_cons. fold (means fs) (vars fs) (couplings fs). rewrite (avar_eq h) by auto. unfold K. ring.
    + intros x. rewrite (navg_ext _ _ (fun v => ((c + h x) + feval (shift x bs fs) v) ^ 2)).
      2:{ intros v Hv. rewrite feval_cons by congruence. ring. }
      rewrite IH by (try (apply wf_shift; auto); rewrite shift_length; auto).
      rewrite means_shift, vars_shift, couplings_shift by auto. fold X2. unfold K. ring.
Qed.

Lemma nvar_form : forall fs, wf fs -> nvar E (length fs) (feval fs) = vars fs + couplings fs * E (fun y => y ^ 2) ^ 2.
Proof.
  intros fs W. unfold nvar. assert (M : navg E (length fs) (feval fs) = means fs).
  { rewrite (navg_ext _ _ (fun v => 0 + feval fs v)) by (intros; ring). rewrite navg_mean by auto. ring. }
  rewrite M. rewrite (navg_ext _ _ (fun v => (- means fs + feval fs v) ^ 2)) by (intros; ring). rewrite navg_square by auto. ring.
Qed.

(** The average over the other inputs. *)
Lemma navg_cond : forall i fs h bs, wf fs -> nth_error fs i = Some (h, bs) ->
  forall c t, navg E (length fs) (fun v => c + feval fs (update v i t)) = c + (means fs - E h) + h t.
Proof.
  induction i as [|i IH]; intros [|[h0 bs0] fs] h bs W Hi; try discriminate; destruct W as (H1 & H2 & H3).
  - injection Hi as -> ->. intros c t. cbn [length navg].
    rewrite (E_ext _ (fun _ => c + means fs + h t)); [rewrite E_const; unfold means; simpl; ring|]. intros x. cbn [update].
    rewrite (navg_ext _ _ (fun v => (c + h t) + feval (shift t bs fs) v)).
    2:{ intros v Hv. rewrite feval_cons by congruence. ring. }
    rewrite <- (shift_length t bs fs) by auto. rewrite navg_mean, means_shift by (auto using wf_shift). ring.
  - cbn [nth_error] in Hi. intros c t. cbn [length navg].
    assert (CH : cont h).
    { clear - Hi H3. revert i Hi. induction fs as [|[g cs] fs IHf]; intros [|i] Hi; try discriminate; destruct H3 as (A & B & C).
      - injection Hi as -> ->. exact A.
      - apply (IHf C i Hi). }
    assert (LB : (i < length bs0)%nat) by (rewrite H2; apply nth_error_Some; congruence).
    assert (Q : forall x, navg E (length fs) (fun v => c + feval ((h0, bs0) :: fs) (update (x :: v) (S i) t))
        = (c + (means fs - E h) + h t) + (h0 x + (nth i bs0 0 * t) * x)).
    { intros x.
      assert (Hs : nth_error (shift x bs0 fs) i = Some ((fun y => h y + x * nth i bs0 0 * y), bs)).
      { clear - Hi LB. revert fs i Hi LB. unfold shift. induction bs0 as [|b bs0 IHb]; intros [|f fs] [|i] Hi LB; simpl in *; try discriminate; try lia.
        - injection Hi as ->. reflexivity.
        - apply IHb; auto. lia. }
      pose proof (IH (shift x bs0 fs) _ bs (wf_shift x bs0 fs H2 H3) Hs) as HK. rewrite shift_length in HK by auto.
      rewrite (navg_ext _ _ (fun v => (c + h0 x) + feval (shift x bs0 fs) (update v i t))).
      2:{ intros v Hv. cbn [update]. rewrite feval_cons by (try rewrite length_update; congruence). ring. }
      rewrite HK, means_shift, (E_plus h), E_scal, E_id; auto with cont. ring. }
    rewrite (E_ext _ _ Q). rewrite (E_plus (fun _ => c + (means fs - E h) + h t)), E_const, (E_plus h0), E_scal, E_id; auto with cont.
    unfold means. simpl. ring.
Qed.

Lemma wf_nth : forall fs i h bs, wf fs -> nth_error fs i = Some (h, bs) -> cont h.
Proof.
  induction fs as [|[g cs] fs IHf]; intros [|i] h bs W Hi; try discriminate; destruct W as (A & B & C).
  - injection Hi as -> ->. exact A.
  - apply (IHf i h bs C Hi).
Qed.

(** The first-order index of an input of a form. *)
Lemma first_order_form : forall fs i h bs, wf fs -> nth_error fs i = Some (h, bs) ->
  first_order E (length fs) (feval fs) i = avar E h / (vars fs + couplings fs * E (fun y => y ^ 2) ^ 2).
Proof.
  intros fs i h bs W Hi. unfold first_order. rewrite nvar_form by auto. f_equal.
  pose proof (wf_nth _ _ _ _ W Hi) as C.
  assert (Q : forall t, navg E (length fs) (fun v => feval fs (update v i t)) = (means fs - E h) + h t).
  { intros t. rewrite (navg_ext _ _ (fun v => 0 + feval fs (update v i t))) by (intros; ring). rewrite (navg_cond i fs h bs) by auto. ring. }
  unfold avar. rewrite (E_ext (fun t => navg E (length fs) (fun v => feval fs (update v i t))) _ Q).
  rewrite (E_plus (fun _ => means fs - E h) h), E_const by auto with cont. apply E_ext. intros x. rewrite Q. ring.
Qed.
End Average.
