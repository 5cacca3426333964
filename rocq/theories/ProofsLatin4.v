(** * Latin hypercube samples: rows, means and variances of outputs. *)
From Coq Require Import Reals String List Arith Lia Lra Permutation Bool.
From Verif Require Import Base Arrays ListFacts ModelGroups ModelScale ModelLatin Stats Sums SpecGroups SpecSobol SpecLatin SpecFF SpecMorris SpecExpect SpecMorris2 SpecLatin2
  ProofsGroups ProofsSobol6 ProofsFF2 ProofsLatin ProofsExpect ProofsMorris12 ProofsLatin2 ProofsLatin3.
Import ListNotations.
Local Open Scope nat_scope.

Lemma latin_groups_iff : forall p, every_labelled p -> exists n members gof, latin_groups p = Ok (n, members) /\
  (forall j, j < p_num_vars p -> gof j < n) /\
  (forall g j, g < n -> In j (members g) -> j < p_num_vars p /\ gof j = g) /\
  (forall j, j < p_num_vars p -> In j (members (gof j))) /\ draw_groups p n gof.
Proof.
  intros p HL. destruct (latin_groups_ok p HL) as (n & members & gof & E & H1 & H2 & H3 & H4). exists n, members, gof.
  repeat (split; [assumption|]). intros j j' J J'. split; [apply H4; assumption|]. intros EG.
  unfold latin_groups in E. destruct (truthy_groups p) as [g|] eqn:ET.
  - assert (Ep : p_groups p = Some g).
    { unfold truthy_groups in ET. destruct (p_groups p) as [[|x l]|]; congruence. }
    destruct (compute_groups_matrix_total g) as [m Hm]. rewrite Hm in E. cbn [bind fst] in E. injection E as <- <-.
    destruct (groups_matrix_membership _ _ _ Hm) as (_ & _ & He).
    pose proof (H3 j J) as I. pose proof (H3 j' J') as I'. rewrite <- EG in I'. apply where_one_In in I, I'. apply He in I as (x & X1 & X2). apply He in I' as (y & Y1 & Y2).
    right. exists g, x. split; [exact Ep|]. split; [exact X1|]. congruence.
  - left. injection E as <- <-. pose proof (H3 j J) as I. pose proof (H3 j' J') as I'. destruct I as [I|[]]. destruct I' as [I'|[]]. congruence.
Qed.

Lemma latin_rows : forall p, box_problem p -> exists G gof, draw_groups p G gof /\
  forall nq tq N u perm junk, 0 < N -> inside_strata u -> (forall g, Permutation (perm g) (seq 0 N)) ->
  exists p', latin_sample nq tq p N u perm junk
    = (p', Ok (InPlace (mkMat (p_num_vars p) (map (fun s => stratum_point (p_bounds p) gof N u (map (fun g => nth s (perm g) 0) (seq 0 G))) (seq 0 N))))).
Proof.
  intros p (HL & Hd & Hn & HB & HGB). destruct (latin_groups_iff p HL) as (G & members & gof & E & H1 & H2 & H3 & H4).
  exists G, gof. split; [exact H4|]. intros nq tq N u perm junk HN HU HP.
  set (rs := tab N (p_num_vars p) (fun s j => latin_draw N u (nth s (perm (gof j)) 0) (gof j))).
  assert (EU : latin_unit p N u perm junk = Ok rs).
  { unfold latin_unit. rewrite E. cbn [bind]. replace (N =? 0) with false by (symmetry; apply Nat.eqb_neq; lia).
    rewrite repeat_tab, (groups_loop p N u perm (conj HU HP) G members).
    - f_equal. unfold rs. apply tab_ext. intros s j Hs Hj. apply (fold_unique N u perm).
      + apply seq_NoDup.
      + intros g Hg. apply in_seq in Hg. split.
        * intros Hin. symmetry. apply (H2 g j); auto. lia.
        * intros ->. auto.
      + apply in_seq. pose proof (H1 j Hj). lia.
    - intros g j Hg Hj. apply (H2 g j); auto.
    - intros g Hg. apply in_seq in Hg. lia. }
  destruct (scale_ok_box (mkMat (p_num_vars p) rs) (p_bounds p) Hn HB HGB) as (v & Es & Lv & Hv). cbn [cols rows] in Es, Lv.
  unfold latin_sample. rewrite EU. unfold scale_samples. rewrite Hd, Es. eexists. do 4 f_equal.
  unfold rs, tab. rewrite map_map. apply map_ext_in. intros s Is. apply in_seq in Is. apply nth_error_ext'. intros j. rewrite to_physical_nth.
  unfold stratum_point. rewrite !nth_error_map_seq, HB. destruct (Nat.ltb_spec j (p_num_vars p)) as [J|J]; [|reflexivity].
  destruct (good_box_nth (p_bounds p) j HGB ltac:(lia)) as [Hb _]. apply Hv in Hb. rewrite Hb. f_equal.
  assert (EC : nth (gof j) (map (fun g => nth s (perm g) 0) (seq 0 G)) 0 = nth s (perm (gof j)) 0).
  { apply nth_error_nth. rewrite nth_error_map_seq. pose proof (H1 j J) as GJ. apply Nat.ltb_lt in GJ. rewrite GJ. reflexivity. }
  cbv zeta. rewrite EC. unfold latin_draw, ranges. rewrite plus_INR. simpl (INR 1). unfold Rdiv. ring.
Qed.

Lemma cells_list : forall N s (ps : list (list nat)) G, length ps = G -> map (fun g => nth s (nth g ps (seq 0 N)) 0) (seq 0 G) = cells s ps.
Proof.
  intros N s ps G <-. unfold cells. apply nth_error_ext'. intros j. rewrite nth_error_map_seq, nth_error_map'. destruct (Nat.ltb_spec j (length ps)) as [J|J].
  - rewrite (nth_error_nth' ps (seq 0 N)) by lia. reflexivity.
  - assert (nth_error ps j = None) as -> by (apply nth_error_None; lia). reflexivity.
Qed.

Theorem latin_law : forall p, box_problem p -> exists G gof, draw_groups p G gof /\
  forall N u f, 1 <= N -> inside_strata u -> let point := stratum_point (p_bounds p) gof N u in exists (row : nat -> list (list nat) -> list R),
  (forall ps, length ps = G -> Forall (fun q => Permutation q (seq 0 N)) ps -> forall nq tq junk, exists p',
     latin_sample nq tq p N u (fun g => nth g ps (seq 0 N)) junk = (p', Ok (InPlace (mkMat (p_num_vars p) (map (fun s => row s ps) (seq 0 N)))))) /\
  (forall s, s < N -> expect (shuffles N G) (fun ps => f (row s ps)) = expect (grid_law N G) (fun c => f (point c))) /\
  (2 <= N -> (variance (shuffles N G) (fun ps => mean (map (fun s => f (row s ps)) (seq 0 N))) <= variance (grid_law N G) (fun c => f (point c)) / (INR N - 1))%R).
Proof.
  intros p HP. destruct (latin_rows p HP) as (G & gof & HG & LR). exists G, gof. split; [exact HG|]. intros N u f HN HU point.
  exists (fun s ps => point (cells s ps)). split; [|split].
  - intros ps LP FP nq tq junk. destruct (LR nq tq N u (fun g => nth g ps (seq 0 N)) junk) as (p' & E); [lia|exact HU| |].
    + intros g. destruct (Nat.lt_ge_cases g (length ps)) as [J|J]; [rewrite Forall_forall in FP; apply FP, nth_In, J|rewrite nth_overflow by lia; reflexivity].
    + exists p'. rewrite E. do 4 f_equal. apply map_ext. intros s. rewrite (cells_list N s ps G LP). reflexivity.
  - intros s S. apply (row_law N G s (fun c => f (point c)) S).
  - intros N2. apply (variance_bound N N2 G (fun c => f (point c))).
Qed.
