(** * ProblemSpec: parallel evaluation (C49), analyses per output (C50), single parameters (C51), construction (C52). *)
From Coq Require Import Reals Decimal DecimalNat DecimalString String List Arith ZArith Bool Lia.
From Verif Require Import Base Arrays ListFacts ModelGroups ModelProblemSpec SpecProblemSpec ProofsProblemSpec.
Import ListNotations.
Local Open Scope nat_scope.

Lemma skipn_skipn2 : forall A a b (l : list A), skipn a (skipn b l) = skipn (b + a) l.
Proof. intros A a b. revert a. induction b as [|b IH]; intros a [|x l]; simpl; auto. apply skipn_nil. Qed.
Lemma slice_exact : forall A (done rest : list A) n, n <= length rest -> slice_len (done ++ rest) (length done) n = n.
Proof. intros A done rest n H. unfold slice_len. rewrite app_length. lia. Qed.
Lemma put_exact : forall A (done rest new : list A), put (done ++ rest) (length done) new = (done ++ new) ++ skipn (length new) rest.
Proof.
  intros A done rest new. unfold put. rewrite firstn_app, firstn_all, Nat.sub_diag, firstn_O, app_nil_r, <- app_assoc. do 2 f_equal.
  rewrite skipn_app. rewrite (skipn_all2 done) by lia. simpl. f_equal. lia.
Qed.

Section Collect.
Context {V : Type}.
Variable junk : nat -> nat -> V.

Lemma fold_exact : forall A (write : list A -> nat -> arr V -> result (list A)) (mk : list A -> arr V),
  (forall l, nrows (mk l) = length l) ->
  forall (ok : list A -> Prop),
  (forall done rest l, ok l -> length l <= length rest -> write (done ++ rest) (length done) (mk l) = Ok (put (done ++ rest) (length done) l)) ->
  forall ls done rest, Forall ok ls -> length (concat ls) <= length rest ->
  foldM (write_chunk write) (map (fun l => Some (mk l)) ls) (done ++ rest, length done) =
  Ok ((done ++ concat ls) ++ skipn (length (concat ls)) rest, length done + length (concat ls)).
Proof.
  intros A write mk N ok W. induction ls as [|l ls IH]; intros done rest F H; cbn [map foldM].
  - simpl. rewrite app_nil_r, Nat.add_0_r. reflexivity.
  - simpl concat in *. rewrite app_length in H. unfold write_chunk at 1. simpl fst. simpl snd.
    inversion F as [|? ? F1 F2]; subst. rewrite W by (auto; lia). cbn [bind]. rewrite N, put_exact. rewrite <- app_length. rewrite IH; auto.
    + rewrite !app_length, <- !app_assoc, skipn_skipn2, Nat.add_assoc. reflexivity.
    + rewrite skipn_length. lia.
Qed.

Lemma write1_exact : forall (done rest l : list V), length l <= length rest ->
  write1 (done ++ rest) (length done) (A1 l) = Ok (put (done ++ rest) (length done) l).
Proof. intros done rest l H. unfold write1. simpl nrows. rewrite slice_exact by lia. rewrite Nat.eqb_refl. reflexivity. Qed.
Lemma write2_exact : forall k (done rest l : list (list V)), Forall (fun r => length r = k) l -> length l <= length rest ->
  write2 k (done ++ rest) (length done) (A2 (mkMat k l)) = Ok (put (done ++ rest) (length done) l).
Proof.
  intros k done rest l F H. unfold write2. simpl. rewrite Nat.eqb_refl. simpl orb. cbv iota.
  assert (M : mapM (stretch k) l = Ok l).
  { clear H. induction F as [|r l Hr F IH]; [reflexivity|]. cbn [mapM]. unfold stretch at 1. rewrite Hr, Nat.eqb_refl. cbn [bind]. rewrite IH. reflexivity. }
  rewrite M. cbn [bind]. rewrite slice_exact by lia. rewrite Nat.eqb_refl. reflexivity.
Qed.

Lemma collect1 : forall ls, ls <> [] -> collect junk (length (concat ls)) (map (fun l => Some (A1 l)) ls) = Ok (Some (A1 (concat ls))).
Proof.
  intros ls N. destruct ls as [|l0 ls0] eqn:E; [contradiction|]. rewrite <- E. clear N.
  replace (collect junk (length (concat ls)) (map (fun l => Some (A1 l)) ls)) with
    (do st <- foldM (write_chunk write1) (map (fun l => Some (A1 l)) ls) (map (fun i => junk i 0) (seq 0 (length (concat ls))), 0) ;; Ok (Some (A1 (fst st))))
    by (rewrite E; reflexivity).
  pose proof (fold_exact V write1 A1 (fun l => eq_refl) (fun _ => True) (fun d r l _ H => write1_exact d r l H) ls [] (map (fun i => junk i 0) (seq 0 (length (concat ls))))) as FE.
  cbn [app length] in FE. rewrite FE.
  - cbn [bind fst]. rewrite skipn_all2 by (rewrite map_length, seq_length; lia). rewrite app_nil_r. reflexivity.
  - apply Forall_forall. auto.
  - rewrite map_length, seq_length. lia.
Qed.
Lemma collect2 : forall k ls, ls <> [] -> Forall (Forall (fun r => length r = k)) ls ->
  collect junk (length (concat ls)) (map (fun l => Some (A2 (mkMat k l))) ls) = Ok (Some (A2 (mkMat k (concat ls)))).
Proof.
  intros k ls N F. destruct ls as [|l0 ls0] eqn:E; [contradiction|]. rewrite <- E in *. clear N.
  replace (collect junk (length (concat ls)) (map (fun l => Some (A2 (mkMat k l))) ls)) with
    (do st <- foldM (write_chunk (write2 k)) (map (fun l => Some (A2 (mkMat k l))) ls) (map (fun i => map (junk i) (seq 0 k)) (seq 0 (length (concat ls))), 0) ;; Ok (Some (A2 (mkMat k (fst st)))))
    by (rewrite E; reflexivity).
  pose proof (fold_exact (list V) (write2 k) (fun l => A2 (mkMat k l)) (fun l => eq_refl) _ (write2_exact k) ls [] (map (fun i => map (junk i) (seq 0 k)) (seq 0 (length (concat ls))))) as FE.
  cbn [app length] in FE. rewrite FE; auto.
  - cbn [bind fst]. rewrite skipn_all2 by (rewrite map_length, seq_length; lia). rewrite app_nil_r. reflexivity.
  - rewrite map_length, seq_length. lia.
Qed.
End Collect.

Lemma split_nonempty : forall A sizes (l : list A), Forall (fun s => 0 < s) sizes -> list_sum sizes <= length l -> Forall (fun c => c <> []) (split_sizes sizes l).
Proof.
  intros A. induction sizes as [|s sizes IH]; intros l F H; simpl in *; [constructor|]. inversion F; subst. constructor.
  - destruct s; [lia|]. destruct l; simpl in *; [lia|discriminate].
  - apply IH; auto. rewrite skipn_length. lia.
Qed.
Lemma array_split_nonempty : forall A (l : list A) n ps, n <= length l -> array_split l n = Ok ps -> Forall (fun c => c <> []) ps.
Proof.
  intros A l n ps H E. unfold array_split in E. destruct (Nat.eqb_spec n 0) as [|N]; [discriminate|]. injection E as <-.
  assert (0 < length l / n) by (apply Nat.div_str_pos; lia).
  pose proof (Nat.mod_upper_bound (length l) n N). pose proof (Nat.div_mod (length l) n N).
  apply split_nonempty.
  - apply Forall_app. split; apply Forall_forall; intros x I; apply repeat_spec in I; subst; lia.
  - rewrite list_sum_app, !list_sum_repeat. nia.
Qed.

Section Parallel.
Context {V Res Arg : Type}.
Variable junk : nat -> nat -> V.
Variable cpu : nat.
Variable pathos : bool.

(** The number of chunks. *)
Definition workers (np : option Z) : Z := match np with None => Z.of_nat cpu | Some z => Z.min (Z.of_nat cpu) z end.
Lemma workers_pos : forall np, 1 <= cpu -> (forall z, np = Some z -> (1 <= z)%Z) -> (1 <= workers np)%Z.
Proof. intros [z|] C H; simpl; [specialize (H z eq_refl)|]; lia. Qed.

Lemma parallel_chunks : forall (x : mat V) n, (1 <= n)%Z ->
  exists ps, chunks (A2 x) n = Ok (map (fun c => A2 (mkMat (cols x) c)) ps) /\ concat ps = rows x /\ length ps = Z.to_nat n /\
    (Z.to_nat n <= length (rows x) -> Forall (fun c => c <> []) ps).
Proof.
  intros x n H. unfold chunks. destruct (Z.leb_spec n 0); [lia|].
  destruct (array_split_ok (rows x) (n := Z.to_nat n)) as [ps E]; [lia|]. rewrite E. cbn [bind].
  destruct (array_split_concat _ _ E) as [E1 E2]. exists ps. repeat split; auto. intros L. eapply array_split_nonempty; eauto.
Qed.

Lemma concat_map_map : forall A B (g : A -> B) ls, concat (map (map g) ls) = map g (concat ls).
Proof. intros A B g ls. symmetry. apply concat_map. Qed.

Lemma eval_split1 : forall (f : value V -> result (value V)) g x ps, rowwise1 g f -> ps <> [] -> concat ps = rows x ->
  (do res <- mapM (fun c => f (Some c)) (map (fun c => A2 (mkMat (cols x) c)) ps) ;; collect junk (length (rows x)) res) = f (Some (A2 x)).
Proof.
  intros f g x ps G N E.
  assert (M : mapM (fun c => f (Some c)) (map (fun c => A2 (mkMat (cols x) c)) ps) = Ok (map (fun l => Some (A1 l)) (map (map g) ps))).
  { clear N E. induction ps as [|p ps IH]; [reflexivity|]. cbn [map mapM]. rewrite (G (mkMat (cols x) p)). cbn [bind]. rewrite IH. reflexivity. }
  rewrite M. cbn [bind]. replace (length (rows x)) with (length (concat (map (map g) ps))) by (rewrite concat_map_map, map_length, E; reflexivity).
  rewrite collect1 by (destruct ps; [contradiction|discriminate]). rewrite concat_map_map, E. symmetry. apply G.
Qed.
Lemma eval_split2 : forall (f : value V -> result (value V)) k g x ps, (forall r, length (g r) = k) ->
  (forall c, In c (rows x :: ps) -> f (Some (A2 (mkMat (cols x) c))) = Ok (Some (A2 (mkMat k (map g c))))) -> ps <> [] -> concat ps = rows x ->
  (do res <- mapM (fun c => f (Some c)) (map (fun c => A2 (mkMat (cols x) c)) ps) ;; collect junk (length (rows x)) res) = f (Some (A2 x)).
Proof.
  intros f k g x ps K G N E.
  assert (M : mapM (fun c => f (Some c)) (map (fun c => A2 (mkMat (cols x) c)) ps) = Ok (map (fun l => Some (A2 (mkMat k l))) (map (map g) ps))).
  { assert (G' : forall c, In c ps -> f (Some (A2 (mkMat (cols x) c))) = Ok (Some (A2 (mkMat k (map g c))))) by (intros; apply G; right; auto).
    clear N E G. induction ps as [|p ps IH]; [reflexivity|]. cbn [map mapM]. rewrite (G' p) by (left; auto). cbn [bind]. rewrite IH; [reflexivity|]. intros; apply G'; right; auto. }
  rewrite M. cbn [bind]. replace (length (rows x)) with (length (concat (map (map g) ps))) by (rewrite concat_map_map, map_length, E; reflexivity).
  rewrite collect2.
  - rewrite concat_map_map, E. symmetry. destruct x as [c r]. simpl in *. apply (G r). left; auto.
  - destruct ps; [contradiction|discriminate].
  - apply Forall_forall. intros l I. apply in_map_iff in I. destruct I as (p & <- & _). apply Forall_forall. intros r I. apply in_map_iff in I. destruct I as (q & <- & _). apply K.
Qed.

Lemma parallel_same : forall (f : value V -> result (value V)) np (s : spec V Res) x, 1 <= cpu -> (forall z, np = Some z -> (1 <= z)%Z) ->
  s_samples s = Some (A2 x) ->
  (forall ps, ps <> [] -> concat ps = rows x -> (Z.to_nat (workers np) <= length (rows x) -> Forall (fun c => c <> []) ps) ->
    (do res <- mapM (fun c => f (Some c)) (map (fun c => A2 (mkMat (cols x) c)) ps) ;; collect junk (length (rows x)) res) = f (Some (A2 x))) ->
  evaluate_parallel junk cpu false f np s = store (f (Some (A2 x))) s.
Proof.
  intros f np s x C P E H. unfold evaluate_parallel. rewrite E. fold (workers np).
  destruct (parallel_chunks x (workers np) (workers_pos np C P)) as (ps & EC & E1 & E2 & E3). rewrite EC. cbn [bind]. simpl nrows. rewrite H; auto.
  intros ->. simpl in E2. pose proof (workers_pos np C P). lia.
Qed.

(** C49, one number per row. *)
Lemma spec_parallel1 : forall f g (s : spec V Res) x, 1 <= cpu -> s_samples s = Some (A2 x) -> rowwise1 g f ->
  (forall np, (forall z, np = Some z -> (1 <= z)%Z) -> evaluate_parallel junk cpu false f np s = evaluate junk cpu false f (Some 1%Z) s) /\
  (forall z, evaluate junk cpu false f (Some z) s = evaluate junk cpu false f (Some 1%Z) s) /\
  (forall n k, (1 <= n)%Z -> 1 <= k -> evaluate_distributed junk true f n (Some k) s = evaluate junk cpu false f (Some 1%Z) s).
Proof.
  intros f g s x C E G.
  assert (P : forall np, (forall z, np = Some z -> (1 <= z)%Z) -> evaluate_parallel junk cpu false f np s = evaluate junk cpu false f (Some 1%Z) s).
  { intros np P. rewrite (parallel_same f np s x C P E); [unfold evaluate; rewrite E; reflexivity|]. intros ps N EP _. eapply eval_split1; eauto. }
  repeat split; auto.
  - intros z. destruct (Z.ltb_spec 1 z) as [L|L].
    + rewrite <- (P (Some z)). { unfold evaluate. destruct (Z.ltb_spec 1 z); [reflexivity|lia]. } intros z' EZ. injection EZ as <-. lia.
    + unfold evaluate. destruct (Z.ltb_spec 1 z); [lia|]. destruct (Z.ltb_spec 1 1); [lia|]. reflexivity.
  - intros n k Hn Hk. unfold evaluate_distributed. simpl negb. cbv iota. rewrite E.
    destruct (parallel_chunks x (n * Z.of_nat k) ltac:(nia)) as (ps & EC & E1 & E2 & E3). rewrite EC. cbn [bind]. simpl nrows.
    rewrite (eval_split1 f g x ps G); auto; [unfold evaluate; rewrite E; reflexivity|]. intros ->. simpl in E2. nia.
Qed.
(** C49, [k] numbers per row. *)
Lemma spec_parallel2 : forall f k g (s : spec V Res) x, 1 <= cpu -> s_samples s = Some (A2 x) -> rowwise2 k g f ->
  (forall np, (forall z, np = Some z -> (1 <= z)%Z) -> evaluate_parallel junk cpu false f np s = evaluate junk cpu false f (Some 1%Z) s) /\
  (forall z, evaluate junk cpu false f (Some z) s = evaluate junk cpu false f (Some 1%Z) s) /\
  (forall n k, (1 <= n)%Z -> 1 <= k -> evaluate_distributed junk true f n (Some k) s = evaluate junk cpu false f (Some 1%Z) s).
Proof.
  intros f k g s x C E [K G].
  assert (P : forall np, (forall z, np = Some z -> (1 <= z)%Z) -> evaluate_parallel junk cpu false f np s = evaluate junk cpu false f (Some 1%Z) s).
  { intros np P. rewrite (parallel_same f np s x C P E); [unfold evaluate; rewrite E; reflexivity|]. intros ps N EP _. eapply (eval_split2 f k g); eauto. intros c _. apply (G (mkMat (cols x) c)). }
  repeat split; auto.
  - intros z. destruct (Z.ltb_spec 1 z) as [L|L].
    + rewrite <- (P (Some z)). { unfold evaluate. destruct (Z.ltb_spec 1 z); [reflexivity|lia]. } intros z' EZ. injection EZ as <-. lia.
    + unfold evaluate. destruct (Z.ltb_spec 1 z); [lia|]. destruct (Z.ltb_spec 1 1); [lia|]. reflexivity.
  - intros n j Hn Hk. unfold evaluate_distributed. simpl negb. cbv iota. rewrite E.
    destruct (parallel_chunks x (n * Z.of_nat j) ltac:(nia)) as (ps & EC & E1 & E2 & E3). rewrite EC. cbn [bind]. simpl nrows.
    rewrite (eval_split2 f k g x ps K); auto; [unfold evaluate; rewrite E; reflexivity| |].
    + intros c _. apply (G (mkMat (cols x) c)).
    + intros ->. simpl in E2. nia.
Qed.
(** C49, when no chunk is empty. *)
Lemma spec_parallel3 : forall f k g (s : spec V Res) x np, 1 <= cpu -> s_samples s = Some (A2 x) -> rowwise2_nonempty k g f ->
  (forall z, np = Some z -> (1 <= z)%Z) -> (cpu <= length (rows x) \/ exists z, np = Some z /\ (z <= Z.of_nat (length (rows x)))%Z) ->
  evaluate_parallel junk cpu false f np s = evaluate junk cpu false f (Some 1%Z) s.
Proof.
  intros f k g s x np C E [K G] P L.
  assert (W : Z.to_nat (workers np) <= length (rows x)). { destruct np as [z|]; simpl; destruct L as [L|(z' & EZ & L)]; try (injection EZ as <-); try discriminate; lia. }
  pose proof (workers_pos np C P).
  rewrite (parallel_same f np s x C P E); [unfold evaluate; rewrite E; reflexivity|]. intros ps N EP F. specialize (F W).
  eapply (eval_split2 f k g); eauto. intros c [<-|I].
  - apply (G (mkMat (cols x) (rows x))). simpl. intros Z0. rewrite Z0 in W. simpl in W. lia.
  - apply (G (mkMat (cols x) c)). rewrite Forall_forall in F. apply F. exact I.
Qed.

(** C49: with p_tqdm installed every parallel evaluation fails. *)
Lemma spec_ptqdm : forall f (s : spec V Res) x np, s_samples s = Some x -> (1 <= workers np)%Z ->
  evaluate_parallel junk cpu true f np s = (s, Some TypeError).
Proof.
  intros f s x np E W. unfold evaluate_parallel. rewrite E. fold (workers np). unfold chunks. destruct (Z.leb_spec (workers np) 0); [lia|].
  destruct x as [l|m]; [destruct (array_split_ok l (n := Z.to_nat (workers np))) as [ps ->]; [lia|]|destruct (array_split_ok (rows m) (n := Z.to_nat (workers np))) as [ps ->]; [lia|]]; reflexivity.
Qed.
End Parallel.
