(** * Properties of seed handling. *)
From Coq Require Import Reals List Arith ZArith Lia Bool.
From Verif Require Import Base ModelScale ModelGroups ModelDgsm ModelSeeds.
Import ListNotations.
Local Open Scope nat_scope.

(** The answer does not depend on what happened before the call. *)
Definition reproducible {bits legacy A} (call : world bits legacy -> outcome bits legacy A) : Prop := forall w w', fst (call w) = fst (call w').

(** Seeds that are plain numbers or lists of them. *)
Definition numeric (s : seedval) : Prop := match s with SBool _ | SInt _ | SNpInt _ | SFloat _ | SList _ | SArray _ => True | _ => False end.

Section All.
Variables bits legacy A : Type.
Variable np : numpy bits legacy.

(** C59.  morris and rbd_fast analysers, latin, morris and fast samplers: every number or list of numbers, 0 included. *)
Theorem C59_rng : forall (body : bits -> result A * bits) s, numeric s -> reproducible (rng_call np body s).
Proof.
  intros body s N w w'. unfold rng_call. destruct s as [|b|z|z|zero|l|l|k|k|k]; cbn in N; try contradiction; cbn [handle_seed default_rng].
  - destruct (body _). reflexivity.
  - destruct (Z.ltb z 0); [reflexivity|]. cbn [read]. destruct (body _). reflexivity.
  - reflexivity.
  - reflexivity.
  - destruct (existsb _ l); [reflexivity|]. cbn [read]. destruct (body _). reflexivity.
  - destruct (existsb _ l); [reflexivity|]. cbn [read]. destruct (body _). reflexivity.
Qed.

(** C59.  fast, dgsm, delta and enhanced_hdmr analysers: every number or list except zero, False and the empty list. *)
Theorem C59_global : forall (body : legacy -> result A * legacy) s, numeric s -> truthy s <> Ok false -> reproducible (global_call np body s).
Proof.
  intros body s N T w w'. unfold global_call. destruct (truthy s) as [[|]|e] eqn:E; [|contradiction|reflexivity].
  destruct s as [|b|z|z|zero|l|l|k|k|k]; cbn in N; try contradiction; cbn [np_seed].
  - cbn [w_global set_global]. destruct (body _). reflexivity.
  - destruct (word z); [|reflexivity]. cbn [w_global set_global]. destruct (body _). reflexivity.
  - destruct (word z); [|reflexivity]. cbn [w_global set_global]. destruct (body _). reflexivity.
  - reflexivity.
  - destruct (_ || _); [reflexivity|]. cbn [w_global set_global]. destruct (body _). reflexivity.
  - destruct l as [|z [|z' l]].
    + reflexivity.
    + destruct (word z); [|reflexivity]. cbn [w_global set_global]. destruct (body _). reflexivity.
    + destruct (_ || _); [reflexivity|]. cbn [w_global set_global]. destruct (body _). reflexivity.
Qed.

(** C59.  The sobol analyser: the same seeds. *)
Theorem C59_sobol : forall (modern : bits -> result A * bits) (old : legacy -> result A * legacy) s, numeric s -> truthy s <> Ok false ->
  reproducible (sobol_call np modern old s).
Proof.
  intros modern old s N T w w'. unfold sobol_call. destruct (truthy s) as [[|]|e] eqn:E; [|contradiction|reflexivity].
  destruct s as [|b|z|z|zero|l|l|k|k|k]; cbn in N; try contradiction; cbn [default_rng].
  - cbn [read]. destruct (modern _). reflexivity.
  - destruct (Z.ltb z 0); [reflexivity|]. cbn [read]. destruct (modern _). reflexivity.
  - destruct (Z.ltb z 0); [reflexivity|]. cbn [read]. destruct (modern _). reflexivity.
  - reflexivity.
  - destruct (existsb _ l); [reflexivity|]. cbn [read]. destruct (modern _). reflexivity.
  - destruct (existsb _ l); [reflexivity|]. cbn [read]. destruct (modern _). reflexivity.
Qed.

(** C59.  The scrambled Sobol' sampler with any integer; without scrambling, with any seed. *)
Theorem C59_qmc : forall scramble (body : bits -> result A * bits) plain s, numeric s \/ scramble = false ->
  reproducible (qmc_call np scramble body plain s).
Proof.
  intros scramble body plain s N w w'. unfold qmc_call.
  destruct s as [|b|z|z|zero|l|l|k|k|k]; cbn [default_rng]; try reflexivity;
    repeat match goal with |- context [Z.ltb ?z 0] => destruct (Z.ltb z 0); [reflexivity|] end;
    destruct scramble; try reflexivity; cbn [read];
    try (destruct (body _); reflexivity); destruct N as [N|N]; try contradiction; discriminate.
Qed.

(** C59.  ff and pawn analysers, ff and finite_diff samplers, rsa and discrepancy analysers: any seed, or none. *)
Theorem C59_undrawn : forall (r : result A) s,
  reproducible (global_undrawn np r s) /\ reproducible (rng_undrawn np r s) /\ reproducible (ignored_call (bits := bits) (legacy := legacy) r s)
  /\ (forall w, fst (global_undrawn np r s w) = r \/ exists e, fst (global_undrawn np r s w) = Err e)
  /\ (forall w, fst (rng_undrawn np r s w) = r \/ exists e, fst (rng_undrawn np r s w) = Err e).
Proof.
  intros r s. unfold reproducible, global_undrawn, rng_undrawn, ignored_call. split; [|split; [|split; [|split]]].
  - intros w w'. unfold global_call. destruct (truthy s) as [[|]|e]; [|reflexivity|reflexivity].
    destruct s as [|b|z|z|zero|l|l|k|k|k]; cbn [np_seed]; try reflexivity;
      repeat match goal with |- context [word ?z] => destruct (word z); [|reflexivity] end; try reflexivity.
    + destruct (_ || _); reflexivity.
    + destruct l as [|z [|z' l]]; [reflexivity| |].
      * destruct (word z); reflexivity.
      * destruct (_ || _); reflexivity.
  - intros w w'. unfold rng_call. destruct s as [|b|z|z|zero|l|l|k|k|k]; cbn; try reflexivity.
    + destruct (Z.ltb z 0); reflexivity.
    + destruct (existsb _ l); reflexivity.
    + destruct (existsb _ l); reflexivity.
  - reflexivity.
  - intros w. unfold global_call. destruct (truthy s) as [t|e]; [|right; exists e; reflexivity].
    destruct (if t then np_seed np s w else Ok w) as [w1|e]; [left|right; exists e]; reflexivity.
  - intros w. unfold rng_call. destruct (handle_seed np s w) as [[h w1]|e]; [left|right; exists e]; reflexivity.
Qed.
End All.
Print Assumptions C59_rng.
Print Assumptions C59_global.
Print Assumptions C59_sobol.
Print Assumptions C59_qmc.
Print Assumptions C59_undrawn.

(** A small numpy: states are numbers, and the body returns the state it found. *)
Definition counting : numpy nat nat := mkNumpy Z.to_nat (fun l => length l) Z.to_nat (fun l => length l) (fun n => n).
Definition show (s : nat) : result nat * nat := (Ok s, S s).
Definition at_state (n : nat) : world nat nat :=
  mkWorld n 0 (fun _ => mkGenerator 5 (fun i => 10 + i) 0) (fun _ => 7) (fun _ => 8).

(** The rest of dgsm.analyze is such a body. *)
Example ex_dgsm : forall nq p X Y conf (draws : nat -> nat -> list (list nat)),
  reproducible (global_call counting (fun g => (dgsm_analyze nq p X Y conf (fun j => draws g j), g + p_num_vars p)) (SInt 42)).
Proof. intros. apply C59_global; [exact I|discriminate]. Qed.

(** C59 fails for the seed 0: fast, dgsm, delta, enhanced_hdmr and sobol treat it as no seed. *)
Theorem C59_zero_refuted :
  (forall bits legacy A (np : numpy bits legacy) (body : legacy -> result A * legacy) w, global_call np body (SInt 0) w = global_call np body SNone w)
  /\ (forall bits legacy A (np : numpy bits legacy) modern (old : legacy -> result A * legacy) w,
        sobol_call np modern old (SInt 0) w = sobol_call np modern old SNone w)
  /\ ~ reproducible (global_call counting show (SInt 0)) /\ ~ reproducible (sobol_call counting show show (SInt 0)).
Proof.
  split; [reflexivity|]. split; [reflexivity|]. split; intros H; discriminate (H (at_state 1) (at_state 2)).
Qed.
Print Assumptions C59_zero_refuted.

(** C59 fails for hdmr with every integer: the answer is the one of the global generator. *)
Theorem C59_hdmr_refuted :
  (forall bits legacy A (np : numpy bits legacy) (body : legacy -> result A * legacy) z w, (0 <= z)%Z ->
     fst (hdmr_call np body (SInt z) w) = fst (body (w_global w)))
  /\ forall z, (0 <= z)%Z -> ~ reproducible (hdmr_call counting show (SInt z)).
Proof.
  assert (E : forall bits legacy A (np : numpy bits legacy) (body : legacy -> result A * legacy) z w, (0 <= z)%Z ->
     fst (hdmr_call np body (SInt z) w) = fst (body (w_global w))).
  { intros bits legacy A np body z w Z. unfold hdmr_call. cbn [truthy handle_seed default_rng].
    replace (Z.ltb z 0) with false by (symmetry; apply Z.ltb_ge; assumption).
    destruct (negb (Z.eqb z 0)); destruct (body _); reflexivity. }
  split; [exact E|]. intros z Z H. specialize (H (at_state 1) (at_state 2)). rewrite !E in H by assumption. discriminate.
Qed.
Print Assumptions C59_hdmr_refuted.

(** C78.  Functions with their own generator, those without randomness and the Sobol' sampler leave the global generator as it was. *)
Theorem C78_untouched : forall bits legacy A (np : numpy bits legacy) s w,
  (forall body : bits -> result A * bits, w_global (snd (rng_call np body s w)) = w_global w)
  /\ (forall r : result A, w_global (snd (rng_undrawn np r s w)) = w_global w)
  /\ (forall r : result A, w_global (snd (ignored_call r s w)) = w_global w)
  /\ (forall scramble (body : bits -> result A * bits) plain, w_global (snd (qmc_call np scramble body plain s w)) = w_global w).
Proof.
  assert (K : forall bits legacy (h : handle bits) b (w : world bits legacy), w_global (write h b w) = w_global w).
  { intros bits legacy h b w. destruct h; reflexivity. }
  assert (D : forall bits legacy (np : numpy bits legacy) s w h w', default_rng np s w = Ok (h, w') -> w_global w' = w_global w).
  { intros bits legacy np s w h w' E. destruct s as [|b|z|z|zero|l|l|k|k|k]; cbn in E;
      repeat match type of E with (if ?c then _ else _) = _ => destruct c; [discriminate|] end; try discriminate; injection E as <- <-; reflexivity. }
  assert (H : forall bits legacy (np : numpy bits legacy) s w h w', handle_seed np s w = Ok (h, w') -> w_global w' = w_global w).
  { intros bits legacy np s w h w' E. destruct s; cbn [handle_seed] in E; try discriminate; try (apply (D _ _ _ _ _ _ _ E)). injection E as <- <-. reflexivity. }
  intros bits legacy A np s w.
  assert (R : forall body : bits -> result A * bits, w_global (snd (rng_call np body s w)) = w_global w).
  { intros body. unfold rng_call. destruct (handle_seed np s w) as [[h w1]|e] eqn:E; [|reflexivity].
    destruct (body _) as [r b]. cbn [snd]. rewrite K. apply (H _ _ _ _ _ _ _ E). }
  split; [exact R|]. split; [intros r; apply R|]. split; [reflexivity|].
  intros scramble body plain. unfold qmc_call. destruct s; try reflexivity;
    match goal with |- context [default_rng np ?s w] => destruct (default_rng np s w) as [[h w1]|e] eqn:E; [|reflexivity] end;
    destruct scramble; try (apply (D _ _ _ _ _ _ _ E)); destruct (body _) as [r b1]; cbn [snd]; rewrite K; apply (D _ _ _ _ _ _ _ E).
Qed.
Print Assumptions C78_untouched.

(** C78.  The sobol analyser leaves it alone when it is given a seed that counts. *)
Theorem C78_sobol : forall bits legacy A (np : numpy bits legacy) modern (old : legacy -> result A * legacy) s w, truthy s <> Ok false ->
  w_global (snd (sobol_call np modern old s w)) = w_global w.
Proof.
  intros bits legacy A np modern old s w T. unfold sobol_call. destruct (truthy s) as [[|]|e]; [|contradiction|reflexivity].
  destruct s as [|b|z|z|zero|l|l|k|k|k]; cbn [default_rng];
    repeat match goal with |- context [if ?c then _ else _] => destruct c; [reflexivity|] end; try reflexivity;
    cbn [read entropy]; destruct (modern _); reflexivity.
Qed.
Print Assumptions C78_sobol.

(** C78.  The draws of an unseeded Sobol' analysis, and all of HDMR's, come from the global generator and move it on. *)
Theorem C78_consumes : forall bits legacy A (np : numpy bits legacy) (body : legacy -> result A * legacy) s w,
  (forall modern, truthy s = Ok false -> fst (sobol_call np modern body s w) = fst (body (w_global w))
     /\ w_global (snd (sobol_call np modern body s w)) = snd (body (w_global w)))
  /\ (forall z, s = SInt z -> (0 <= z)%Z -> fst (hdmr_call np body s w) = fst (body (w_global w)) /\ w_global (snd (hdmr_call np body s w)) = snd (body (w_global w)))
  /\ (s = SNone -> fst (global_call np body s w) = fst (body (w_global w)) /\ w_global (snd (global_call np body s w)) = snd (body (w_global w))
     /\ fst (hdmr_call np body s w) = fst (body (w_global w)) /\ w_global (snd (hdmr_call np body s w)) = snd (body (w_global w))).
Proof.
  intros bits legacy A np body s w. split; [|split].
  - intros modern T. unfold sobol_call. rewrite T. destruct (body _); split; reflexivity.
  - intros z -> Z. unfold hdmr_call. cbn [truthy handle_seed default_rng]. replace (Z.ltb z 0) with false by (symmetry; apply Z.ltb_ge; assumption).
    destruct (negb (Z.eqb z 0)); destruct (body (w_global w)); split; reflexivity.
  - intros ->. unfold global_call, hdmr_call. cbn [truthy]. destruct (body _); repeat split.
Qed.
Print Assumptions C78_consumes.

(** C78 fails for the others: a seed replaces the state of the global generator, even in pawn and ff which draw nothing. *)
Theorem C78_global_refuted :
  (forall bits legacy A (np : numpy bits legacy) (r : result A) z w, (0 < z < 2 ^ 32)%Z -> w_global (snd (global_undrawn np r (SInt z) w)) = seed_int np z)
  /\ (forall bits legacy A (np : numpy bits legacy) (body : legacy -> result A * legacy) z w, (0 < z < 2 ^ 32)%Z ->
        w_global (snd (global_call np body (SInt z) w)) = snd (body (seed_int np z)))
  /\ w_global (snd (global_undrawn counting (Ok 0) (SInt 3) (at_state 1))) <> w_global (at_state 1).
Proof.
  assert (E : forall bits legacy A (np : numpy bits legacy) (body : legacy -> result A * legacy) z w, (0 < z < 2 ^ 32)%Z ->
        w_global (snd (global_call np body (SInt z) w)) = snd (body (seed_int np z))).
  { intros bits legacy A np body z w Z. unfold global_call. cbn [truthy]. replace (Z.eqb z 0) with false by (symmetry; apply Z.eqb_neq; lia).
    cbn [negb np_seed]. replace (word z) with true; [cbn [w_global set_global]; destruct (body _); reflexivity|].
    unfold word. symmetry. apply andb_true_intro. split; [apply Z.leb_le; lia|apply Z.ltb_lt; lia]. }
  split; [|split; [exact E|discriminate]]. intros. unfold global_undrawn. rewrite E by assumption. reflexivity.
Qed.
Print Assumptions C78_global_refuted.

(** C79.  A Generator as the seed: the functions with their own generator draw from its next child, so the n-th call in a row uses the n-th
    child, and the stream of the object itself does not move; sobol analysis and the scrambled sobol sampler draw from the object. *)
Theorem C79_child : forall bits legacy A (np : numpy bits legacy) (body : bits -> result A * bits) k w,
  let g := w_gens w k in
  fst (rng_call np body (SGenerator k) w) = fst (body (g_children g (g_spawned g)))
  /\ w_gens (snd (rng_call np body (SGenerator k) w)) k = mkGenerator (g_bits g) (g_children g) (S (g_spawned g))
  /\ forall j, j <> k -> w_gens (snd (rng_call np body (SGenerator k) w)) j = w_gens w j.
Proof.
  intros bits legacy A np body k w g. unfold rng_call. cbn [handle_seed read write]. fold g. destruct (body _) as [r b] eqn:E. cbn [fst snd].
  split; [reflexivity|]. split.
  - cbn [set_gen w_gens]. rewrite Nat.eqb_refl. reflexivity.
  - intros j J. cbn [set_gen w_gens]. apply Nat.eqb_neq in J. rewrite J. reflexivity.
Qed.
Print Assumptions C79_child.

Fixpoint in_a_row {bits legacy A} (call : world bits legacy -> outcome bits legacy A) (n : nat) (w : world bits legacy) : list (result A) :=
  match n with 0 => [] | S n => let '(r, w) := call w in r :: in_a_row call n w end.

Theorem C79_row : forall bits legacy A (np : numpy bits legacy) (body : bits -> result A * bits) k n w,
  in_a_row (rng_call np body (SGenerator k)) n w
  = map (fun i => fst (body (g_children (w_gens w k) i))) (seq (g_spawned (w_gens w k)) n).
Proof.
  intros bits legacy A np body k. induction n as [|n IH]; intros w; [reflexivity|].
  destruct (C79_child bits legacy A np body k w) as (H1 & H2 & _).
  cbn [in_a_row]. destruct (rng_call np body (SGenerator k) w) as [r w1]. cbn [fst snd] in *. rewrite IH, H2, H1. reflexivity.
Qed.
Print Assumptions C79_row.

Theorem C79_object : forall bits legacy A (np : numpy bits legacy) (body : bits -> result A * bits) (old : legacy -> result A * legacy) plain k w,
  let g := w_gens w k in
  let after := mkGenerator (snd (body (g_bits g))) (g_children g) (g_spawned g) in
  (fst (sobol_call np body old (SGenerator k) w) = fst (body (g_bits g)) /\ w_gens (snd (sobol_call np body old (SGenerator k) w)) k = after)
  /\ (fst (qmc_call np true body plain (SGenerator k) w) = fst (body (g_bits g)) /\ w_gens (snd (qmc_call np true body plain (SGenerator k) w)) k = after).
Proof.
  intros bits legacy A np body old plain k w g after. unfold after, sobol_call, qmc_call. cbn [truthy default_rng read write]. fold g.
  destruct (body (g_bits g)) as [r b]. cbn [fst snd set_gen w_gens]. rewrite Nat.eqb_refl. repeat split.
Qed.
Print Assumptions C79_object.

(** C79 fails of the documentation of the samplers ("that instance is used"): the answer is not the one that the instance would give, and the
    instance gives its next draws as if nothing had happened. *)
Theorem C79_instance_refuted :
  fst (rng_call counting show (SGenerator 0) (at_state 1)) <> fst (show (g_bits (w_gens (at_state 1) 0)))
  /\ g_bits (w_gens (snd (rng_call counting show (SGenerator 0) (at_state 1))) 0) = g_bits (w_gens (at_state 1) 0)
  /\ in_a_row (rng_call counting show (SGenerator 0)) 2 (at_state 1) = [Ok 10; Ok 11].
Proof. split; [discriminate|]. split; reflexivity. Qed.
Print Assumptions C79_instance_refuted.

(** C80.  Which integers are accepted, by which functions. *)
Theorem C80_accepted_partial : forall bits legacy A (np : numpy bits legacy) (r : result A) z w,
  (fst (rng_undrawn np r (SInt z) w) = if Z.leb 0 z then r else Err ValueError)
  /\ (fst (global_undrawn np r (SInt z) w) = if Z.eqb z 0 || word z then r else Err ValueError)
  /\ (fst (global_undrawn np r (SNpInt z) w) = if Z.eqb z 0 || word z then r else Err ValueError)
  /\ (fst (sobol_call np (fun b => (r, b)) (fun g => (r, g)) (SInt z) w) = if Z.leb 0 z then r else Err ValueError).
Proof.
  intros bits legacy A np r z w.
  assert (L : Z.ltb z 0 = negb (Z.leb 0 z)). { destruct (Z.leb_spec 0 z), (Z.ltb_spec z 0); try reflexivity; lia. }
  split; [|split; [|split]].
  - unfold rng_undrawn, rng_call. cbn [handle_seed default_rng]. rewrite L. destruct (Z.leb 0 z); reflexivity.
  - unfold global_undrawn, global_call. cbn [truthy np_seed]. destruct (Z.eqb z 0); [reflexivity|]. destruct (word z); reflexivity.
  - unfold global_undrawn, global_call. cbn [truthy np_seed]. destruct (Z.eqb z 0); [reflexivity|]. destruct (word z); reflexivity.
  - unfold sobol_call. cbn [truthy default_rng]. rewrite L. destruct (Z.eqb z 0) eqn:E.
    + apply Z.eqb_eq in E. subst. reflexivity.
    + destruct (Z.leb 0 z); reflexivity.
Qed.
Print Assumptions C80_accepted_partial.

(** C80 fails: numpy's own integers are refused by every function that uses handle_seed (missing above). *)
Theorem C80_numpy_refuted : forall bits legacy A (np : numpy bits legacy) (body : bits -> result A * bits) z w,
  fst (rng_call np body (SNpInt z) w) = Err ValueError.
Proof. reflexivity. Qed.
Print Assumptions C80_numpy_refuted.

Example ex_seeded : fst (rng_call counting show (SInt 0) (at_state 1)) = Ok 0 /\ fst (global_call counting show (SInt 3) (at_state 1)) = Ok 3
  /\ fst (sobol_call counting show show (SInt 3) (at_state 1)) = Ok 3 /\ fst (qmc_call counting true show (Ok 0) (SInt 4) (at_state 1)) = Ok 4
  /\ fst (rng_call counting show (SInt (-1)) (at_state 1)) = Err ValueError
  /\ fst (global_call counting show (SInt (2 ^ 32)) (at_state 1)) = Err ValueError.
Proof. repeat split. Qed.
