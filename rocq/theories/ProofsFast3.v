(** * The FAST sampler and analyser together. *)
From Coq Require Import Reals String List Arith ZArith Lia Lra.
From Verif Require Import Base Arrays ModelGroups ModelScale Stats SpecSobol ModelFast SpecFast ProofsFast ProofsFast2.
Import ListNotations.
Local Open Scope nat_scope.

(** The search curve is determined by the condition used above. *)
Lemma on_curve_unique : forall a x x', on_curve a x -> on_curve a x' -> x = x'.
Proof.
  intros a x x' [[H1 H2] H3] [[H4 H5] H6]. rewrite <- H6 in H3. pose proof PI_RGT_0.
  assert (PI * (x - 1 / 2) = PI * (x' - 1 / 2))%R.
  { rewrite <- (asin_sin (PI * (x - 1 / 2))), <- (asin_sin (PI * (x' - 1 / 2))) by nra. rewrite H3. auto. }
  apply Rmult_eq_reg_l with PI; lra.
Qed.

Lemma fast_end_to_end : forall nq tq p N M u (f : list R -> R) bnd draws,
  4 * M ^ 2 < N -> 1 <= M -> p_dists p = None -> 0 < p_num_vars p ->
  length (p_bounds p) = p_num_vars p -> good_box (p_bounds p) ->
  (forall i, i < p_num_vars p -> good_draws N (draws i)) ->
  exists p' m res w0 comp, fast_sample nq tq p N M u = (p', Ok (InPlace m)) /\
    fast_frequencies N M (p_num_vars p) = Ok (w0, comp) /\
    fast_analyze (p_num_vars p) (map f (rows m)) M bnd draws = Ok res /\ length res = p_num_vars p /\
    forall i r, nth_error res i = Some r -> exists block, length block = N /\
      orders_ok (map f block) M (f_S1 r) (f_ST r) /\
      forall k row, nth_error block k = Some row -> length row = p_num_vars p /\
        nth_error (rows m) (i * N + k) = Some row /\
        forall j lo up, nth_error (p_bounds p) j = Some [lo; up] ->
          exists w x, frequency_of w0 comp i j w /\
            on_curve (INR w * (2 * PI / INR N * INR k) + 2 * PI * u i)%R x /\
            nth_error row j = Some (lo + x * (up - lo))%R.
Proof.
  intros nq tq p N M u f bnd draws HN HM Hd Hn HBl HG Hdr.
  destruct (fast_public nq tq p N M u HN HM Hd Hn HBl HG) as (p' & m & w0 & comp & E & EF & L & W & Hr).
  destruct (fast_analyze_spec (p_num_vars p) N M bnd draws (map f (rows m)) Hn HM ltac:(simpl in HN; nia)
              ltac:(rewrite map_length; auto) Hdr) as (res & Ea & La & Ha).
  exists p', m, res, w0, comp. split; auto. split; auto. split; auto. split; auto.
  intros i r Hir. destruct (Ha i r Hir) as [Ho _].
  assert (Hi : i < p_num_vars p) by (rewrite <- La; apply nth_error_Some; congruence).
  exists (map (fun k => nth (i * N + k) (rows m) []) (seq 0 N)).
  split; [rewrite map_length, seq_length; auto|]. split.
  - rewrite map_map. erewrite map_ext_in; [exact Ho|]. intros k Hk. apply in_seq in Hk. cbv beta.
    rewrite (nth_indep _ 0%R (f [])) by (rewrite map_length; nia). rewrite map_nth. auto.
  - intros k row Hk. rewrite nth_error_map_seq in Hk. destruct (Nat.ltb_spec k N) as [HkN|]; [|discriminate].
    injection Hk as <-.
    assert (En : nth_error (rows m) (i * N + k) = Some (nth (i * N + k) (rows m) [])) by (apply nth_error_nth'; nia).
    split. { rewrite Forall_forall in W. apply W. eapply nth_error_In; eauto. }
    split; auto. intros j lo up Hj. destruct (Hr i k j lo up Hi HkN Hj) as (w & x & F & O & Ex & _).
    exists w, x. split; auto. split; auto. unfold entry in Ex. rewrite En in Ex. auto.
Qed.
