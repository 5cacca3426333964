(** * What the analyses get from files. *)
From Coq Require Import Reals String List Arith ZArith Bool Lia Lra.
From Verif Require Import Base Arrays ListFacts ModelGroups ModelScale ModelCli ModelFiles2.
Import ListNotations.
Local Open Scope nat_scope.

Definition squeezed : list string := ["discrepancy"; "pawn"; "rbd_fast"; "rsa"]%string.

Lemma load_matrix : forall files f d n, (2 <= n \/ (2 <= length (rows (files f)) /\ 2 <= cols (files f))) ->
  load files (VTable f d None n) = Ok (Matrix (files f)).
Proof.
  intros files f d n H. unfold load, loadtxt. cbn [bind]. destruct (Nat.leb_spec 2 n); auto. destruct H as [H|[H1 H2]]; [lia|].
  unfold squeeze. destruct (Nat.eqb_spec (length (rows (files f))) 1), (Nat.eqb_spec (cols (files f)) 1); auto; lia.
Qed.

Lemma load_column : forall files f d, 2 <= length (rows (files f)) -> cols (files f) = 1 ->
  load files (VTable f d None 0) = Ok (Vector (map (fun r => nth 0 r 0%R) (rows (files f)))).
Proof.
  intros files f d H1 H2. unfold load, loadtxt, squeeze. cbn [bind Nat.leb]. rewrite H2. destruct (Nat.eqb_spec (length (rows (files f))) 1); [lia|]. reflexivity.
Qed.

Lemma mapM_get_nth : forall (A : Type) (d : A) rs i, Forall (fun r => i < length r) rs -> mapM (fun r => get r i) rs = Ok (map (fun r => nth i r d) rs).
Proof.
  intros A d rs i H. induction H as [|r rs Hr _ IH]; auto. cbn [mapM map]. unfold get at 1. rewrite (nth_error_nth' r d Hr). cbn [bind]. rewrite IH. reflexivity.
Qed.

Lemma load_outputs : forall files f d c i, wf_mat (files f) -> 2 <= length (rows (files f)) -> i < cols (files f) ->
  (c = Z.of_nat i \/ c = (Z.of_nat i - Z.of_nat (cols (files f)))%Z) ->
  load files (VTable f d (Some (VInt c)) 0) = Ok (Vector (map (fun r => nth i r 0%R) (rows (files f)))).
Proof.
  intros files f d c i W H1 H2 Hc. unfold load, loadtxt, pick.
  assert (E : (if (c <? 0)%Z then (c + Z.of_nat (cols (files f)))%Z else c) = Z.of_nat i) by (destruct (Z.ltb_spec c 0); lia).
  rewrite E. destruct (Z.ltb_spec (Z.of_nat i) 0); [lia|]. destruct (Z.leb_spec (Z.of_nat (cols (files f))) (Z.of_nat i)); [lia|]. cbn [orb].
  rewrite Nat2Z.id. unfold wf_mat in W. rewrite (mapM_get_nth R 0%R).
  2:{ eapply Forall_impl; [|exact W]. intros r Hr. rewrite Hr. auto. }
  cbn [bind Nat.leb]. unfold squeeze. cbn [rows cols]. rewrite !map_length. destruct (Nat.eqb_spec (length (rows (files f))) 1); [lia|]. cbn [Nat.eqb].
  do 2 f_equal. rewrite !map_map. reflexivity.
Qed.

(** The arguments X and Y of the calls. *)
Lemma call_tables : forall int_of float_of name cl c, salib int_of float_of "analyze" name cl = Ok c ->
  (forall v, In ("X"%string, v) c -> exists f d n, v = VTable f d None n /\ ((n = 2 /\ ~ In name squeezed) \/ (n = 0 /\ In name squeezed))) /\
  (forall v, In ("Y"%string, v) c -> exists f d col, v = VTable f d (Some col) 0).
Proof.
  intros int_of float_of name cl c H. unfold salib in H. destruct (find _ methods) as [m|] eqn:F; [|discriminate].
  pose proof (find_some _ _ F) as [I E]. apply andb_prop in E. destruct E as [EA EN]. apply String.eqb_eq in EA. apply String.eqb_eq in EN. subst name. clear F.
  unfold run in H. destruct (parse_args int_of float_of (m_options m) cl) as [ns|]; [|discriminate]. cbn [bind] in H. injection H as <-.
  unfold methods in I. cbn [In] in I.
  do 7 (destruct I as [<-|I]; [discriminate EA|]).
  do 12 (destruct I as [<-|I]; [cbn -[squeezed eval]; split;
    intros v Hv; repeat (destruct Hv as [Hv|Hv]; [try discriminate Hv; injection Hv as <-; cbn [eval inputs outputs option_map]; eexists _, _, _; try reflexivity;
    (split; [reflexivity|]; (left; split; [reflexivity|]; unfold squeezed; cbn; intuition discriminate) || (right; split; [reflexivity|]; unfold squeezed; cbn; tauto))|]);
    destruct Hv|]).
  destruct I.
Qed.
