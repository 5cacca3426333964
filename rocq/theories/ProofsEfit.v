(** * Fits by blocks of columns: objective, blocks and sweeps. *)
From Coq Require Import Reals List Arith Bool Lia Lra Psatz.
From Verif Require Import Base Stats Sums ModelHdmr SpecRidge ProofsRidge ProofsRidge2 ProofsHdmr3 ModelEhdmr SpecEfit ProofsEhdmr4.
Import ListNotations.
Local Open Scope nat_scope.

Lemma Rsum_flat_map : forall A B (f : B -> R) (g : A -> list B) l, Rsum (map f (flat_map g l)) = Rsum (map (fun a => Rsum (map f (g a))) l).
Proof. intros. induction l as [|a l IH]; auto. cbn [flat_map map]. rewrite map_app, Rsum_app, IH, Rsum_cons. reflexivity. Qed.

Lemma nth_map_seq : forall A (f : nat -> A) k i d, i < k -> nth i (map f (seq 0 k)) d = f i.
Proof. intros. rewrite (nth_indep _ d (f 0)) by (rewrite map_length, seq_length; auto). rewrite map_nth, seq_nth by auto. reflexivity. Qed.

Section Blocks.
Variables (Bs : list (list (list R))) (y : list R).
Notation D := (length Bs).
Notation n := (length y).

Definition keys : list (nat * nat) := flat_map (fun z => map (pair z) (seq 0 (width Bs z))) (seq 0 D).
Definition val (r : nat) (k : nat * nat) : R := at3 Bs (fst k) (snd k) r.
Definition out (r : nat) : R := nth r y 0%R.
Definition pts := seq 0 n.

Lemma in_keys : forall z i, In (z, i) keys <-> z < D /\ i < width Bs z.
Proof.
  intros. unfold keys. rewrite in_flat_map. split.
  - intros (z' & H1 & H2). apply in_map_iff in H2 as (i' & E & H2). injection E as -> ->. apply in_seq in H1, H2. lia.
  - intros (H1 & H2). exists z. split; [apply in_seq; lia|]. apply in_map, in_seq. lia.
Qed.
Lemma sum_keys : forall f, Rsum (map f keys) = total D (fun z => total (width Bs z) (fun i => f (z, i))).
Proof. intros. unfold keys. rewrite Rsum_flat_map. unfold total. apply Rsum_ext. intros z _. rewrite map_map. reflexivity. Qed.
Lemma explained_fit : forall xs r, explained Bs xs r = fitK _ _ keys val (co xs) r.
Proof. intros. unfold fitK. rewrite sum_keys. reflexivity. Qed.
Lemma weight_norm : forall xs, weight Bs xs = normK _ keys (co xs).
Proof. intros. unfold normK. rewrite sum_keys. reflexivity. Qed.
Lemma objective_misfit : forall lam xs, (misfit Bs y xs + lam * weight Bs xs)%R = objK _ _ pts keys val out lam (co xs).
Proof.
  intros. unfold objK. fold (normK _ keys (co xs)). rewrite <- weight_norm. f_equal. unfold misfit, total, pts. apply Rsum_ext. intros. rewrite explained_fit. reflexivity.
Qed.
Lemma misfit_obj : forall xs, misfit Bs y xs = objK _ _ pts keys val out 0 (co xs).
Proof. intros. rewrite <- objective_misfit. ring. Qed.
Lemma block_gram_gram : block_gram Bs n = gramK _ _ pts keys val.
Proof.
  unfold gramK. rewrite sum_keys. unfold block_gram. apply total_ext. intros z _. apply total_ext. intros i _. rewrite sum_keys. reflexivity.
Qed.

(** Where no change of a block is an improvement, the derivative in its directions vanishes. *)
Lemma minimal_half : forall lam c k, (forall t, (objK _ _ pts keys val out lam c <= objK _ _ pts keys val out lam (fun j => c j + t * (if (fst j =? fst k) && (snd j =? snd k) then 1 else 0)))%R) ->
  In k keys -> half _ _ pts keys val out lam c k = 0%R.
Proof.
  intros lam c (z, i) H I. set (e := fun j : nat * nat => (if (fst j =? z) && (snd j =? i) then 1 else 0)%R).
  assert (X : (SUM j IN keys, (e j * half _ _ pts keys val out lam c j))%R = half _ _ pts keys val out lam c (z, i)).
  { rewrite sum_keys. apply in_keys in I as (Hz & Hi). rewrite (total_ext D _ (fun z' => if z =? z' then half _ _ pts keys val out lam c (z, i) else 0%R)).
    - apply (total_delta D z (fun _ => half _ _ pts keys val out lam c (z, i))); auto.
    - intros z' _. unfold e. cbn [fst snd]. rewrite (Nat.eqb_sym z z'). destruct (Nat.eqb_spec z' z) as [->|]; cbn [andb].
      + rewrite <- (total_delta (width Bs z) i (fun l => half _ _ pts keys val out lam c (z, l))) by auto. apply total_ext. intros l _.
        rewrite (Nat.eqb_sym i l). destruct (l =? i); lra.
      + rewrite total_scal. lra. }
  set (h := half _ _ pts keys val out lam c (z, i)) in *.
  set (q := ((SUM r IN pts, (fitK _ _ keys val e r ^ 2)) + lam * normK _ keys e)%R).
  assert (Q : forall t, (0 <= 2 * t * h + t ^ 2 * q)%R).
  { intros t. assert (H' : (objK _ _ pts keys val out lam c <= objK _ _ pts keys val out lam (fun j => c j + t * e j))%R) by exact (H t). clear H. rename H' into H. rewrite (expand _ _ pts keys val out lam c (fun j => t * e j)%R) in H.
    rewrite (Rsum_ext _ (fun k => t * e k * half _ _ pts keys val out lam c k)%R (fun k => t * (e k * half _ _ pts keys val out lam c k))%R) in H by (intros; ring).
    rewrite Rsum_map_scal, X in H.
    rewrite (Rsum_ext _ (fun r => fitK _ _ keys val (fun j => t * e j) r ^ 2)%R (fun r => t ^ 2 * (fitK _ _ keys val e r ^ 2))%R) in H.
    2: { intros r _. replace (fitK _ _ keys val (fun j => t * e j)%R r) with (t * fitK _ _ keys val e r)%R; [ring|].
         unfold fitK. rewrite <- Rsum_map_scal. apply Rsum_ext. intros; ring. }
    rewrite Rsum_map_scal in H. unfold normK at 1 in H.
    rewrite (Rsum_ext _ (fun k => (t * e k) ^ 2)%R (fun k => t ^ 2 * (e k ^ 2))%R) in H by (intros; ring). rewrite Rsum_map_scal in H. unfold q, normK. lra. }
  destruct (Req_dec h 0) as [|N]; auto. exfalso. destruct (Rle_or_lt q 0) as [Z|Z].
  - specialize (Q (- h)%R). assert (0 < h * h)%R by (apply Rsqr_pos_lt; auto). assert ((- h) ^ 2 * q <= 0)%R by (assert (0 <= (-h)^2)%R by apply pow2_ge_0; nra). nra.
  - specialize (Q (- h / q)%R). replace (2 * (- h / q) * h + (- h / q) ^ 2 * q)%R with (- (h * h / q))%R in Q by (field; lra).
    assert (0 < h * h / q)%R. { apply Rdiv_lt_0_compat; auto. apply Rsqr_pos_lt; auto. } lra.
Qed.

(** ** Sweeps *)
Lemma nth_mixed : forall z new v old l, z < length new -> length old = length new ->
  nth l (mixed z new v old) [] = if l <? z then nth l new [] else if l =? z then v else nth l old [].
Proof.
  intros z new v old l Hz L. unfold mixed. assert (LF : length (firstn z new) = z) by (rewrite firstn_length; lia).
  destruct (Nat.ltb_spec l z).
  - rewrite app_nth1 by lia. rewrite <- (firstn_skipn z new) at 2. rewrite app_nth1 by lia. reflexivity.
  - rewrite app_nth2 by lia. rewrite LF. destruct (Nat.eqb_spec l z) as [->|]; [rewrite Nat.sub_diag; auto|].
    destruct (l - z) as [|q] eqn:Q; [lia|]. cbn [nth]. rewrite <- (firstn_skipn (S z) old) at 2. rewrite app_nth2; rewrite firstn_length; [f_equal; lia|lia].
Qed.

Lemma mixed_half : forall old new z i, shape Bs old -> sweep Bs y old new -> z < D -> i < width Bs z ->
  half _ _ pts keys val out 0 (co (mixed z new (nth z new []) old)) (z, i) = 0%R.
Proof.
  intros old new z i (LO & _) ((LN & WN) & H) Hz Hi. apply minimal_half; [|apply in_keys; auto]. intros t. cbn [fst snd].
  set (e := map (fun j => at2 new z j + t * (if j =? i then 1 else 0))%R (seq 0 (width Bs z))).
  specialize (H z e Hz). rewrite !misfit_obj in H. eapply Rle_trans; [exact H|]. right. apply objK_ext. intros (l, j) I. apply in_keys in I as (Hl & Hj).
  unfold co, at2. cbn [fst snd]. rewrite !nth_mixed by lia. destruct (Nat.ltb_spec l z); [destruct (Nat.eqb_spec l z); [lia|]; cbn; ring|].
  destruct (Nat.eqb_spec l z) as [->|]; [|cbn; ring]. cbn [andb]. unfold e.
  rewrite nth_map_seq by auto. reflexivity.
Qed.

Lemma mixed_step : forall old new z, shape Bs old -> sweep Bs y old new -> z < D ->
  misfit Bs y (mixed z new (nth z old []) old) =
  (misfit Bs y (mixed z new (nth z new []) old) + total n (fun r => fitK _ _ keys val (fun k => co (mixed z new (nth z old []) old) k - co (mixed z new (nth z new []) old) k) r ^ 2))%R.
Proof.
  intros old new z SO SW Hz. pose proof SO as (LO & _). pose proof SW as ((LN & _) & _). rewrite !misfit_obj.
  rewrite (step_gain _ _ pts keys val out 0 (co (mixed z new (nth z old []) old)) (co (mixed z new (nth z new []) old))).
  - unfold total, pts. ring.
  - intros (l, j) I. apply in_keys in I as (Hl & Hj). destruct (Nat.eq_dec l z) as [->|NE].
    + right. apply mixed_half; auto.
    + left. unfold co, at2. cbn [fst snd]. rewrite !nth_mixed by lia. destruct (l <? z); auto. destruct (Nat.eqb_spec l z); [lia|auto].
Qed.

Lemma mixed_next : forall old new z, length old = D -> length new = D -> S z < D -> mixed z new (nth z new []) old = mixed (S z) new (nth (S z) old []) old.
Proof.
  intros old new z LO LN Hz.
  assert (L : forall z v, z < D -> length (mixed z new v old) = D).
  { intros q v Hq. unfold mixed. rewrite app_length, firstn_length. cbn [length]. rewrite skipn_length. lia. }
  apply (nth_ext _ _ [] []); [rewrite !L by lia; auto|]. intros l _. rewrite !nth_mixed by lia.
  destruct (Nat.ltb_spec l z), (Nat.ltb_spec l (S z)), (Nat.eqb_spec l z), (Nat.eqb_spec l (S z)); subst; try lia; auto.
Qed.
Lemma mixed_first : forall old new, length old = D -> length new = D -> 0 < D -> mixed 0 new (nth 0 old []) old = old.
Proof. intros old new LO LN H. unfold mixed. cbn [firstn app]. destruct old; [simpl in LO; lia|]. reflexivity. Qed.
Lemma mixed_last : forall old new, length old = D -> length new = D -> 0 < D -> mixed (D - 1) new (nth (D - 1) new []) old = new.
Proof.
  intros old new LO LN H. assert (L : length (mixed (D - 1) new (nth (D - 1) new []) old) = D) by (unfold mixed; rewrite app_length, firstn_length; cbn [length]; rewrite skipn_length; lia).
  apply (nth_ext _ _ [] []); [lia|]. intros l Hl. rewrite nth_mixed by lia. destruct (Nat.ltb_spec l (D - 1)); auto. destruct (Nat.eqb_spec l (D - 1)); subst; auto. lia.
Qed.

(** What a sweep gains, with [mu] a lower bound of the joint Gram matrix ([mu = 0] will do for a descent). *)
Lemma sweep_gain : forall mu, (0 <= mu)%R -> (forall c, (mu * normK _ keys c <= total n (fun r => fitK _ _ keys val c r ^ 2))%R) ->
  forall old new, shape Bs old -> sweep Bs y old new ->
  (mu * normK _ keys (fun k => co old k - co new k) <= misfit Bs y old - misfit Bs y new)%R.
Proof.
  intros mu M0 MU old new SO SW. pose proof SO as (LO & _). pose proof SW as ((LN & _) & _).
  destruct (Nat.eq_dec D 0) as [Z|NZ].
  { assert (K : keys = []) by (unfold keys; rewrite Z; reflexivity). destruct old; [|simpl in LO; lia]. destruct new; [|simpl in LN; lia].
    unfold normK. rewrite K. cbn. lra. }
  assert (G : forall z, z < D -> (mu * normK _ keys (fun k => co old k - co (mixed z new (nth z new []) old) k) <= misfit Bs y old - misfit Bs y (mixed z new (nth z new []) old))%R).
  { induction z as [|z IH]; intros Hz.
    - pose proof (mixed_step old new 0 SO SW Hz) as Q. rewrite mixed_first in Q by lia.
      pose proof (MU (fun k => co old k - co (mixed 0 new (nth 0 new []) old) k)%R). lra.
    - specialize (IH ltac:(lia)). pose proof (mixed_step old new (S z) SO SW Hz) as Q. rewrite <- mixed_next in Q by lia.
      set (A := mixed z new (nth z new []) old) in *. set (B := mixed (S z) new (nth (S z) new []) old) in *.
      pose proof (MU (fun k => co A k - co B k)%R) as M.
      assert (E : normK _ keys (fun k => co old k - co B k)%R = (normK _ keys (fun k => co old k - co A k) + normK _ keys (fun k => co A k - co B k))%R).
      { unfold normK. rewrite <- Rsum_map_plus. apply Rsum_ext. intros (l, j) I. apply in_keys in I as (Hl & _). unfold co, at2, A, B. cbn [fst snd]. rewrite !nth_mixed by lia.
        destruct (Nat.ltb_spec l z), (Nat.ltb_spec l (S z)), (Nat.eqb_spec l z), (Nat.eqb_spec l (S z)); subst; try lia; try ring. }
      rewrite E. lra. }
  specialize (G (D - 1) ltac:(lia)). rewrite mixed_last in G by lia. exact G.
Qed.

Lemma sweep_descends : forall old new, shape Bs old -> sweep Bs y old new -> (misfit Bs y new <= misfit Bs y old)%R.
Proof.
  intros old new SO SW. assert (Z : (0 <= 0)%R) by lra. pose proof (sweep_gain 0%R Z) as G. specialize (G ltac:(intros c; rewrite Rmult_0_l; apply sq_nonneg) old new SO SW). lra.
Qed.

Lemma sweep_states : forall old new, shape Bs old -> sweep Bs y old new ->
  forall k, In k keys -> exists s, s k = co new k /\ half _ _ pts keys val out 0 s k = 0%R /\ forall l, In l keys -> s l = co new l \/ s l = co old l.
Proof.
  intros old new SO SW (z, i) I. pose proof SO as (LO & _). pose proof SW as ((LN & _) & _). apply in_keys in I as (Hz & Hi).
  exists (co (mixed z new (nth z new []) old)). split.
  { unfold co, at2. cbn [fst snd]. rewrite nth_mixed by lia. rewrite Nat.ltb_irrefl, Nat.eqb_refl. auto. }
  split; [apply mixed_half; auto|]. intros (l, j) I. apply in_keys in I as (Hl & _). unfold co, at2. cbn [fst snd]. rewrite nth_mixed by lia.
  destruct (l <? z); auto. destruct (Nat.eqb_spec l z); subst; auto.
Qed.

Lemma sweep_fixed : forall xs, sweep Bs y xs xs -> forall es, (misfit Bs y xs <= misfit Bs y es)%R.
Proof.
  intros xs SW es. rewrite !misfit_obj. apply stationary_minimal; [lra|]. intros k I. destruct (sweep_states xs xs (proj1 SW) SW k I) as (s & E & H & O).
  eapply eq_trans; [|exact H]. apply half_ext; auto. intros l Hl. destruct (O l Hl); auto.
Qed.

(** With independent columns the excess over the best fit shrinks by a constant factor. *)
Lemma sweep_contracts : forall mu, (0 < mu)%R -> (forall es, (mu * weight Bs es <= total n (fun r => explained Bs es r ^ 2))%R) ->
  forall old new es, shape Bs old -> sweep Bs y old new ->
  (misfit Bs y new - misfit Bs y es <= block_gram Bs n / (block_gram Bs n + mu ^ 2) * (misfit Bs y old - misfit Bs y es))%R.
Proof.
  intros mu MP MU' old new es SO SW.
  assert (MU : forall c, (mu * normK _ keys c <= total n (fun r => fitK _ _ keys val c r ^ 2))%R).
  { intros c. set (xs := map (fun z => map (fun i => c (z, i)) (seq 0 (width Bs z))) (seq 0 D)).
    assert (E : forall k, In k keys -> co xs k = c k).
    { intros (z, i) I. apply in_keys in I as (Hz & Hi). unfold co, at2, xs. cbn [fst snd].
      rewrite !nth_map_seq by auto. reflexivity. }
    specialize (MU' xs). rewrite weight_norm in MU'. replace (normK _ keys c) with (normK _ keys (co xs)).
    - eapply Rle_trans; [exact MU'|]. right. apply total_ext. intros r _. rewrite explained_fit. rewrite (fitK_ext _ _ keys val (co xs) c); auto.
    - unfold normK. apply Rsum_ext. intros k I. rewrite E; auto. }
  pose proof (sweep_gain mu ltac:(lra) MU old new SO SW) as GN. pose proof (sweep_half _ _ pts keys val out 0 (co old) (co new) (sweep_states old new SO SW)) as SH.
  rewrite <- block_gram_gram in SH. set (g := block_gram Bs n) in *. set (N := normK _ keys (fun k => co old k - co new k)%R) in *.
  set (A := SUM k IN keys, (half _ _ pts keys val out 0 (co new) k ^ 2)%R) in *.
  assert (G0 : (0 <= g)%R). { unfold g. rewrite block_gram_gram. apply Rsum_nonneg. intros x Hx. apply in_map_iff in Hx as (a & <- & _). apply sq_nonneg. }
  assert (B : (misfit Bs y new - misfit Bs y es <= A / mu)%R).
  { rewrite !misfit_obj. rewrite (expand_diff _ _ pts keys val out 0 (co es) (co new)). pose proof (MU (fun k => co es k - co new k)%R) as M.
    assert (Q : (0 <= SUM k IN keys, ((half _ _ pts keys val out 0 (co new) k / mu + (co es k - co new k)) ^ 2))%R) by apply sq_nonneg.
    rewrite (Rsum_ext _ _ (fun k => (/ mu * / mu) * (half _ _ pts keys val out 0 (co new) k ^ 2) + (2 * / mu) * ((co es k - co new k) * half _ _ pts keys val out 0 (co new) k) + (co es k - co new k) ^ 2)%R) in Q by (intros; field; lra).
    rewrite (Rsum_map_plus _ (fun k => / mu * / mu * half _ _ pts keys val out 0 (co new) k ^ 2 + 2 * / mu * ((co es k - co new k) * half _ _ pts keys val out 0 (co new) k))%R (fun k => (co es k - co new k) ^ 2)%R) in Q.
    rewrite (Rsum_map_plus _ (fun k => / mu * / mu * half _ _ pts keys val out 0 (co new) k ^ 2)%R), !Rsum_map_scal in Q. fold A in Q. fold (normK _ keys (fun k => co es k - co new k)%R) in Q.
    set (X := SUM k IN keys, ((co es k - co new k) * half _ _ pts keys val out 0 (co new) k)%R) in *. set (N' := normK _ keys (fun k => co es k - co new k)%R) in *.
    change (Rsum (map ?f pts)) with (total n f). set (T := total n _) in *.
    apply (Rmult_le_compat_l mu) in Q; [|lra]. replace (mu * (/ mu * / mu * A + 2 * / mu * X + N'))%R with (A / mu + 2 * X + mu * N')%R in Q by (field; lra). lra. }
  set (u := (misfit Bs y new - misfit Bs y es)%R) in *.
  assert (M : (u * mu ^ 2 <= g * (misfit Bs y old - misfit Bs y new))%R).
  { apply (Rmult_le_compat_r (mu ^ 2)) in B; [|nra]. replace (A / mu * mu ^ 2)%R with (A * mu)%R in B by (field; lra).
    eapply Rle_trans; [exact B|]. eapply Rle_trans; [apply Rmult_le_compat_r; [lra|exact SH]|]. rewrite Rmult_assoc. apply Rmult_le_compat_l; [auto|]. lra. }
  replace (misfit Bs y old - misfit Bs y new)%R with ((misfit Bs y old - misfit Bs y es) - u)%R in M by (unfold u; ring).
  assert (LP : (0 < mu ^ 2)%R) by nra. apply (Rmult_le_reg_r (g + mu ^ 2)); [lra|].
  replace (g / (g + mu ^ 2) * (misfit Bs y old - misfit Bs y es) * (g + mu ^ 2))%R with (g * (misfit Bs y old - misfit Bs y es))%R by (field; lra). lra.
Qed.

Lemma sweeps_contract : forall mu, (0 < mu)%R -> (forall es, (mu * weight Bs es <= total n (fun r => explained Bs es r ^ 2))%R) ->
  forall (h : nat -> list (list R)) p, shape Bs (h 0) -> (forall k, k < p -> sweep Bs y (h k) (h (S k))) ->
  forall es, (misfit Bs y (h p) - misfit Bs y es <= (block_gram Bs n / (block_gram Bs n + mu ^ 2)) ^ p * (misfit Bs y (h 0%nat) - misfit Bs y es))%R.
Proof.
  intros mu MP MU h p S0 SW es. assert (G0 : (0 <= block_gram Bs n)%R). { rewrite block_gram_gram. apply Rsum_nonneg. intros x Hx. apply in_map_iff in Hx as (a & <- & _). apply sq_nonneg. }
  set (q := (block_gram Bs n / (block_gram Bs n + mu ^ 2))%R). assert (Q0 : (0 <= q)%R). { unfold q. apply Rmult_le_pos; auto. left. apply Rinv_0_lt_compat. nra. }
  induction p as [|p IH]; [cbn; lra|]. assert (SP : shape Bs (h p)) by (destruct p; auto; apply (SW p); lia).
  eapply Rle_trans; [apply (sweep_contracts mu MP MU (h p) (h (S p)) es SP); apply SW; lia|]. fold q. cbn [pow]. rewrite Rmult_assoc. apply Rmult_le_compat_l; auto.
Qed.
End Blocks.
