(** * Samples and outputs read from files by the analyses of the command line: C112. *)
From Coq Require Import Reals String List Arith ZArith Bool Lia Lra Permutation.
From Verif Require Import Base Arrays ListFacts ModelGroups SpecGroups ModelScale ProofsScale Stats Sums ModelMorrisAnalyze SpecSobol Quant
  ModelPawn SpecPawn ProofsPawn4 PropertiesPawn ModelRbd SpecRbd PropertiesRbd ModelRsa SpecRsa PropertiesRsa ModelDiscrepancy SpecDiscrepancy ProofsDiscrepancy PropertiesDiscrepancy
  ModelCli ModelFiles2 ProofsFiles3.
Import ListNotations.
Local Open Scope nat_scope.

(** C112: the sample of a file with at least two runs and two parameters reaches every analysis as the table of the file, whatever the method;
    with a single run or a single parameter it still does for all methods but four. *)
Theorem C112_sample : forall int_of float_of files name cl c f d n, salib int_of float_of "analyze" name cl = Ok c ->
  In ("X"%string, VTable f d None n) c ->
  (2 <= length (rows (files f)) /\ 2 <= cols (files f)) \/ ~ In name ["discrepancy"; "pawn"; "rbd_fast"; "rsa"]%string ->
  load files (VTable f d None n) = Ok (Matrix (files f)).
Proof.
  intros int_of float_of files name cl c f d n H I K. apply load_matrix. destruct (call_tables _ _ _ _ _ H) as [T _].
  destruct (T _ I) as (f' & d' & n' & E & C). injection E as <- <- <-. destruct K as [K|K]; [right; exact K|]. destruct C as [[-> _]|[_ C]]; [left; lia|contradiction].
Qed.
Print Assumptions C112_sample.

(** C112: the outputs are the asked-for column of the file, counted from the left or, if negative, from the right; one value per run, in order. *)
Theorem C112_outputs : forall int_of float_of files name cl c f d k n i, salib int_of float_of "analyze" name cl = Ok c ->
  In ("Y"%string, VTable f d (Some (VInt k)) n) c -> wf_mat (files f) -> 2 <= length (rows (files f)) -> i < cols (files f) ->
  (k = Z.of_nat i \/ k = (Z.of_nat i - Z.of_nat (cols (files f)))%Z) ->
  load files (VTable f d (Some (VInt k)) n) = Ok (Vector (map (fun r => nth i r 0%R) (rows (files f)))).
Proof.
  intros int_of float_of files name cl c f d k n i H I W L J K. destruct (call_tables _ _ _ _ _ H) as [_ T].
  destruct (T _ I) as (f' & d' & c' & E). injection E as <- <- <- ->. apply load_outputs; assumption.
Qed.
Print Assumptions C112_outputs.

(** C112: with one of these four methods a file with a single run and several parameters arrives as the vector of its only row, and a file with a single number as that number. *)
Theorem C112_single_run : forall int_of float_of files name cl c f d n, salib int_of float_of "analyze" name cl = Ok c ->
  In name ["discrepancy"; "pawn"; "rbd_fast"; "rsa"]%string -> In ("X"%string, VTable f d None n) c ->
  (forall row, rows (files f) = [row] -> cols (files f) <> 1 -> load files (VTable f d None n) = Ok (Vector row)) /\
  (forall x, rows (files f) = [[x]] -> cols (files f) = 1 -> load files (VTable f d None n) = Ok (Scalar x)).
Proof.
  intros int_of float_of files name cl c f d n H N I. destruct (call_tables _ _ _ _ _ H) as [T _].
  destruct (T _ I) as (f' & d' & n' & E & [[_ K]|[-> _]]); [contradiction|]. injection E as <- <- ->. unfold load, loadtxt, squeeze. cbn [bind Nat.leb].
  split; [intros row -> C|intros x -> C]; cbn [length Nat.eqb nth]; destruct (Nat.eqb_spec (cols (files f)) 1); [contradiction|reflexivity|reflexivity|contradiction].
Qed.
Print Assumptions C112_single_run.

(** C112 fails for a single parameter with the other four methods.  The file with one number per line arrives as a vector, and the analysis
    raises; the library function given the table of the same file returns its result. *)
Lemma single_parameter : forall int_of float_of files name cl c f d n, salib int_of float_of "analyze" name cl = Ok c -> In name squeezed ->
  In ("X"%string, VTable f d None n) c -> 2 <= length (rows (files f)) -> cols (files f) = 1 ->
  load files (VTable f d None n) = Ok (Vector (map (fun r => nth 0 r 0%R) (rows (files f)))).
Proof.
  intros int_of float_of files name cl c f d n H N I L C. destruct (call_tables _ _ _ _ _ H) as [T _].
  destruct (T _ I) as (f' & d' & n' & E & [[_ K]|[-> _]]); [contradiction|]. injection E as <- <- ->. apply load_column; assumption.
Qed.

Theorem C112_pawn_refuted : forall int_of float_of files cl c f d n p Y S ls, salib int_of float_of "analyze" "pawn" cl = Ok c ->
  In ("X"%string, VTable f d None n) c -> wf_mat (files f) -> cols (files f) = 1 -> 2 <= length (rows (files f)) ->
  length (rows (files f)) = length Y -> p_num_vars p = 1 -> ungrouped p -> labels_of p ls -> 0 < S ->
  (exists X, load files (VTable f d None n) = Ok X /\ pawn_array p X Y S = Err IndexError) /\ exists out, pawn_array p (Matrix (files f)) Y S = Ok out.
Proof.
  intros int_of float_of files cl c f d n p Y S ls H I W C L E P U Ls HS. split.
  - eexists. split; [apply (single_parameter _ _ _ _ _ _ _ _ _ H); auto; cbn; auto|]. unfold pawn_array. destruct (Nat.eqb_spec S 0); [lia|reflexivity].
  - destruct (C41_rows p (map (map Some) (rows (files f))) Y S ls HS) as (out & O & _); auto.
    + split; [|rewrite map_length; exact E]. rewrite P. apply Forall_map. eapply Forall_impl; [|exact W]. intros r Hr. cbn beta. rewrite map_length, Hr. lia.
    + exists out. unfold pawn_array. destruct (Nat.eqb_spec S 0); [lia|exact O].
Qed.
Print Assumptions C112_pawn_refuted.

Theorem C112_rbd_refuted : forall int_of float_of files cl c f d n argsort nq p Y M level draws, salib int_of float_of "analyze" "rbd_fast" cl = Ok c ->
  In ("X"%string, VTable f d None n) c -> cols (files f) = 1 -> p_num_vars p = 1 -> argsort_ok argsort -> rbd_input 1 (rows (files f)) Y M draws ->
  (exists X, load files (VTable f d None n) = Ok X /\ rbd_array argsort nq p X Y M level draws = Err IndexError) /\
  exists out, rbd_array argsort nq p (Matrix (files f)) Y M level draws = Ok out.
Proof.
  intros int_of float_of files cl c f d n argsort nq p Y M level draws H I C P A RI. split.
  - eexists. split; [apply (single_parameter _ _ _ _ _ _ _ _ _ H); auto; [cbn; auto|destruct RI as (_ & E & E2 & _); lia]|reflexivity].
  - rewrite <- P in RI. destruct (C40_analyze argsort nq p _ Y M level draws A RI) as (out & O & _). exists out. exact O.
Qed.
Print Assumptions C112_rbd_refuted.

Theorem C112_rsa_refuted : forall int_of float_of files cl c f d n p Y bins target ls r, salib int_of float_of "analyze" "rsa" cl = Ok c ->
  In ("X"%string, VTable f d None n) c -> cols (files f) = 1 -> 2 <= length (rows (files f)) ->
  ungrouped p -> labels_of p ls -> length ls = 1 -> rsa (files f) Y bins target = Ok r ->
  (exists X, load files (VTable f d None n) = Ok X /\ rsa_array p X Y bins target = Err ValueError) /\ exists out, rsa_array p (Matrix (files f)) Y bins target = Ok out.
Proof.
  intros int_of float_of files cl c f d n p Y bins target ls r H I C L U Ls L1 Hr. split.
  - eexists. split; [apply (single_parameter _ _ _ _ _ _ _ _ _ H); auto; cbn; auto 10|reflexivity].
  - destruct ls as [|l [|? ?]]; try discriminate. destruct (C42_report p (files f) Y bins target [l] [l] r) as (out & O & _); auto; [|cbn; lia|exists out; exact O].
    split; [repeat constructor; intros []|]. split; [tauto|]. intros i j x y Hij _ Hj. destruct j as [|[|j]]; [lia|discriminate Hj|discriminate Hj].
Qed.
Print Assumptions C112_rsa_refuted.

Theorem C112_discrepancy_refuted : forall int_of float_of files cl c f d n disc p Y, salib int_of float_of "analyze" "discrepancy" cl = Ok c ->
  In ("X"%string, VTable f d None n) c -> p_num_vars p = 1 -> ungrouped p -> disc_ok disc -> disc_input p (files f) Y ->
  (exists X, load files (VTable f d None n) = Ok X /\ disc_array disc p X Y = Err ValueError) /\ exists out, disc_array disc p (Matrix (files f)) Y = Ok out.
Proof.
  intros int_of float_of files cl c f d n disc p Y H I P U D DI. split.
  - destruct DI as (G & NE & LB & C & _ & LY & a & b & Ia & Ib & Hab). eexists. split.
    + apply (single_parameter _ _ _ _ _ _ _ _ _ H); auto; [cbn; auto| |lia]. rewrite LY. destruct Y as [|y1 [|y2 Y]]; cbn; try lia; [destruct Ia|].
      destruct Ia as [<-|[]], Ib as [<-|[]]. contradiction.
    + unfold disc_array. rewrite (box_columns _ G NE). reflexivity.
  - destruct (C43_shares disc p (files f) Y D DI U) as (raw & out & _ & O & _). exists out. exact O.
Qed.
Print Assumptions C112_discrepancy_refuted.

(** salib analyze pawn -p p.txt -X x.txt -Y y.txt, with one parameter; and the last of two outputs of three runs. *)
Definition files2_cl : list (string * string) := [("-p", "p.txt"); ("-X", "x.txt"); ("-Y", "y.txt"); ("-c", "-1")]%string.
Definition files2_int (s : string) : option Z := if String.eqb s "-1" then Some (-1)%Z else None.
Definition files2_files (v : aval) : mat R :=
  match v with VStr "x.txt"%string => mkMat 1 [[1]; [2]; [3]]%R | _ => mkMat 2 [[10; 11]; [20; 22]; [30; 33]]%R end.
Example C112_example : exists c, salib files2_int (fun _ => None) "analyze" "pawn" files2_cl = Ok c /\
  In ("X"%string, VTable (VStr "x.txt") (VStr " ") None 0) c /\ In ("Y"%string, VTable (VStr "y.txt") (VStr " ") (Some (VInt (-1))) 0) c /\
  load files2_files (VTable (VStr "x.txt") (VStr " ") None 0) = Ok (Vector [1; 2; 3]%R) /\
  load files2_files (VTable (VStr "x.txt") (VStr " ") None 2) = Ok (Matrix (mkMat 1 [[1]; [2]; [3]]%R)) /\
  load files2_files (VTable (VStr "y.txt") (VStr " ") (Some (VInt (-1))) 0) = Ok (Vector [11; 22; 33]%R).
Proof.
  assert (E : exists c, salib files2_int (fun _ => None) "analyze" "pawn" files2_cl = Ok c /\
    In ("X"%string, VTable (VStr "x.txt") (VStr " ") None 0) c /\ In ("Y"%string, VTable (VStr "y.txt") (VStr " ") (Some (VInt (-1))) 0) c).
  { eexists. split; [cbn; reflexivity|]. cbn. tauto. }
  destruct E as (c & E & IX & IY). exists c. repeat (split; [assumption|]). split; [reflexivity|]. split; [reflexivity|].
  apply (C112_outputs _ _ files2_files _ _ _ _ _ _ _ 1 E IY); cbn; auto. repeat constructor.
Qed.
