(** * Proofs about bar charts. *)
From Coq Require Import Reals String Ascii List Arith Lia Lra Bool.
From Verif Require Import Base ListFacts ModelScale ModelPlotting SpecPlotting.
Import ListNotations.
Local Open Scope nat_scope.

(** ** Texts *)
Lemma prefix_app : forall a b, String.prefix a (a ++ b)%string = true.
Proof. induction a as [|c a IH]; intros b; [destruct b; reflexivity|]. cbn. destruct (ascii_dec c c); [apply IH|congruence]. Qed.
Lemma prefix_split : forall a s, String.prefix a s = true -> exists b, s = (a ++ b)%string.
Proof.
  induction a as [|c a IH]; intros s H; [exists s; reflexivity|]. destruct s as [|d s]; [discriminate|]. cbn in H. destruct (ascii_dec c d) as [->|]; [|discriminate].
  destruct (IH s H) as (b & ->). exists b. reflexivity.
Qed.
Lemma contains_spec : forall s, contains "_conf" s = true <-> mentions_conf s.
Proof.
  induction s as [|c s IH].
  - split; [discriminate|]. intros (a & b & E). destruct a; discriminate.
  - cbn [contains]. rewrite orb_true_iff, IH. split.
    + intros [P|(a & b & ->)].
      * apply prefix_split in P as (b & ->). exists ""%string, b. reflexivity.
      * exists (String c a), b. reflexivity.
    + intros (a & b & E). destruct a as [|c' a].
      * left. rewrite E. apply (prefix_app "_conf" b).
      * right. exists a, b. injection E as _ E. exact E.
Qed.
Lemma contains_false : forall s, contains "_conf" s = false <-> ~ mentions_conf s.
Proof. intros s. rewrite <- contains_spec. destruct (contains "_conf" s); split; congruence. Qed.
Lemma conf_mentions : forall k, mentions_conf (conf_name k).
Proof. intros k. exists k, ""%string. reflexivity. Qed.

Lemma conf_inside : forall c k, String.prefix "_conf" (String c k) = false -> String.prefix "_conf" (String c (k ++ "_conf")) = false.
Proof.
  intros c k H. cbn -[ascii_dec] in *. destruct (ascii_dec "_" c); [|reflexivity].
  destruct k as [|c1 k]; [reflexivity|]. cbn -[ascii_dec] in *. destruct (ascii_dec "c" c1); [|reflexivity].
  destruct k as [|c2 k]; [reflexivity|]. cbn -[ascii_dec] in *. destruct (ascii_dec "o" c2); [|reflexivity].
  destruct k as [|c3 k]; [reflexivity|]. cbn -[ascii_dec] in *. destruct (ascii_dec "n" c3); [|reflexivity].
  destruct k as [|c4 k]; [reflexivity|]. cbn -[ascii_dec] in *. destruct (ascii_dec "f" c4); [|reflexivity].
  destruct k; discriminate.
Qed.
Lemma erase_conf_from : forall k n, contains "_conf" k = false -> String.length k < n -> erase_from n "_conf" (conf_name k) = k.
Proof.
  unfold conf_name. induction k as [|c k IH]; intros n H L.
  - destruct n as [|n]; [lia|]. destruct n; reflexivity.
  - destruct n as [|n]; [lia|]. cbn [contains] in H. apply orb_false_iff in H as [H1 H2].
    change ((String c k) ++ "_conf")%string with (String c (k ++ "_conf")). cbn [erase_from]. rewrite (conf_inside c k H1), (IH n H2) by (cbn in L; lia). reflexivity.
Qed.
Lemma length_app : forall a b, String.length (a ++ b) = String.length a + String.length b.
Proof. induction a as [|c a IH]; intros b; [reflexivity|]. cbn. rewrite IH. reflexivity. Qed.
Lemma erase_conf : forall k, ~ mentions_conf k -> erase "_conf" (conf_name k) = k.
Proof. intros k H. apply contains_false in H. unfold erase. apply erase_conf_from; [exact H|]. unfold conf_name. rewrite length_app. cbn. lia. Qed.

(** ** Columns *)
Lemma numeric_In : forall cs k l, In (k, l) (numeric cs) <-> In (k, Numbers l) cs.
Proof.
  intros cs k l. unfold numeric. rewrite in_flat_map. split.
  - intros ([k' [l'|l']] & I & H); cbn in H; [|destruct H]. destruct H as [E|[]]. injection E as <- <-. exact I.
  - intros I. exists (k, Numbers l). split; [exact I|left; reflexivity].
Qed.
Lemma find_column_In : forall cs k l, find_column cs k = Some l -> In (k, l) cs.
Proof.
  induction cs as [|[k' l'] cs IH]; intros k l H; [discriminate|]. cbn in H. destruct (String.eqb_spec k k') as [->|].
  - injection H as ->. left. reflexivity.
  - right. apply IH, H.
Qed.
Lemma find_column_unique : forall cs k l, (forall l', In (k, l') cs -> l' = l) -> In (k, l) cs -> find_column cs k = Some l.
Proof.
  induction cs as [|[k' l'] cs IH]; intros k l U I; [destruct I|]. cbn. destruct (String.eqb_spec k k') as [->|NE].
  - f_equal. apply U. left. reflexivity.
  - apply IH; [intros l'' I'; apply U; right; exact I'|]. destruct I as [E|I]; [congruence|exact I].
Qed.
Lemma nodup_fst : forall A (cs : list (string * A)) k a b, NoDup (map fst cs) -> In (k, a) cs -> In (k, b) cs -> a = b.
Proof.
  intros A. induction cs as [|[k' x] cs IH]; intros k a b N I J; [destruct I|]. cbn in N. inversion N as [|? ? N1 N2]; subst.
  destruct I as [I|I], J as [J|J].
  - congruence.
  - injection I as -> ->. exfalso. apply N1. change k with (fst (k, b)). apply in_map, J.
  - injection J as -> ->. exfalso. apply N1. change k with (fst (k, a)). apply in_map, I.
  - apply (IH k); assumption.
Qed.

Definition is_conf (c : string * column) : bool := contains "_conf" (fst c).
Definition confs_of (f : frame) := map (fun c => (erase "_conf" (fst c), snd c)) (numeric (filter is_conf (fr_columns f))).
Definition indices_of (f : frame) := numeric (filter (fun c => negb (is_conf c)) (fr_columns f)).

Lemma indices_In : forall f k l, In (k, l) (indices_of f) <-> drawn f k l.
Proof.
  intros f k l. unfold indices_of, drawn. rewrite numeric_In, filter_In. unfold is_conf. cbn [fst]. rewrite negb_true_iff, contains_false. reflexivity.
Qed.
Lemma confs_In : forall f k e, regular (fr_columns f) -> ~ mentions_conf k -> (In (k, e) (confs_of f) <-> In (conf_name k, Numbers e) (fr_columns f)).
Proof.
  intros f k e (N & H) NM. unfold confs_of. rewrite in_map_iff. split.
  - intros ([k' l] & E & I). cbn [fst snd] in E. injection E as E ->. apply numeric_In, filter_In in I as (I & M). unfold is_conf in M. cbn [fst] in M. apply contains_spec in M.
    destruct (H _ _ I M) as (b & -> & NB). rewrite erase_conf in E by exact NB. subst b. exact I.
  - intros I. exists (conf_name k, e). cbn [fst snd]. rewrite erase_conf by exact NM. split; [reflexivity|]. apply numeric_In, filter_In. split; [exact I|].
    unfold is_conf. cbn [fst]. apply contains_spec, conf_mentions.
Qed.

Definition bad_errors (f : frame) : bool :=
  existsb (fun c => existsb negative (snd c)) (filter (fun c => existsb (fun s => String.eqb (fst c) (fst s)) (indices_of f)) (confs_of f)).
Lemma bar_plot_eq : forall f, bar_plot f = if bad_errors f then Err ValueError else
  match indices_of f with
  | [] => Err TypeError
  | _ => Ok (mkChart (fr_index f) (map (fun c => mkBars (fst c) (snd c) (find_column (confs_of f) (fst c))) (indices_of f)))
  end.
Proof. reflexivity. Qed.

Theorem bars_paired : forall f c, regular (fr_columns f) -> bar_plot f = Ok c -> charted f c.
Proof.
  intros f c RG H. rewrite bar_plot_eq in H. destruct (bad_errors f); [discriminate|].
  assert (E : c = mkChart (fr_index f) (map (fun c => mkBars (fst c) (snd c) (find_column (confs_of f) (fst c))) (indices_of f))).
  { destruct (indices_of f) as [|x r]; [discriminate H|]. injection H as <-. reflexivity. }
  subst c. clear H. split; [reflexivity|]. cbn [ch_bars]. split.
  - intros k l. rewrite <- indices_In, <- (map_id (indices_of f)) at 1. rewrite map_id. split.
    + intros I. exists (find_column (confs_of f) k). apply in_map_iff. exists (k, l). split; [reflexivity|exact I].
    + intros (e & I). apply in_map_iff in I as ([k' l'] & E & I). cbn [fst snd] in E. injection E as -> -> _. exact I.
  - intros b I e. apply in_map_iff in I as ([k l] & <- & I). cbn [b_errors b_name fst snd]. apply indices_In in I as (_ & NM).
    rewrite <- (confs_In f k e RG NM). split; [apply find_column_In|]. intros I. apply find_column_unique; [|exact I].
    intros e' I'. apply (confs_In f k _ RG NM) in I, I'. destruct RG as (N & _). assert (Q := nodup_fst _ _ _ _ _ N I I'). congruence.
Qed.

Theorem bars_refused : forall f, regular (fr_columns f) ->
  (bar_plot f = Err TypeError <-> (forall k l, ~ drawn f k l)) /\
  (bar_plot f = Err ValueError <-> exists k l e v, drawn f k l /\ In (conf_name k, Numbers e) (fr_columns f) /\ In (Some v) e /\ (v < 0)%R) /\
  (forall x, bar_plot f = Err x -> x = TypeError \/ x = ValueError).
Proof.
  intros f RG. rewrite bar_plot_eq. set (bad := bad_errors f).
  assert (B : bad = true <-> exists k l e v, drawn f k l /\ In (conf_name k, Numbers e) (fr_columns f) /\ In (Some v) e /\ (v < 0)%R).
  { unfold bad, bad_errors. rewrite existsb_exists. split.
    - intros ([k e] & I & H). cbn [snd] in H. apply filter_In in I as (I & X). cbn [fst] in X. apply existsb_exists in X as ([k' l] & X1 & X2). cbn [fst] in X2. apply String.eqb_eq in X2. subst k'.
      apply indices_In in X1. apply existsb_exists in H as ([v|] & H1 & H2); [|discriminate]. cbn in H2. unfold Rltb in H2. destruct (Rlt_dec v 0) as [LV|]; [|discriminate].
      exists k, l, e, v. split; [exact X1|]. split; [|split; assumption]. apply (confs_In f k e RG); [apply X1|exact I].
    - intros (k & l & e & v & D & I & IV & LV). exists (k, e). split.
      + apply filter_In. split; [apply (confs_In f k e RG); [apply D|exact I]|]. cbn [fst]. apply existsb_exists. exists (k, l). split; [apply indices_In, D|apply String.eqb_refl].
      + cbn [snd]. apply existsb_exists. exists (Some v). split; [exact IV|]. cbn. unfold Rltb. destruct (Rlt_dec v 0); [reflexivity|contradiction]. }
  assert (EM : indices_of f = [] <-> forall k l, ~ drawn f k l).
  { split.
    - intros E k l D. apply indices_In in D. rewrite E in D. destruct D.
    - intros H. destruct (indices_of f) as [|[k l] r] eqn:E; [reflexivity|]. exfalso. apply (H k l). apply indices_In. rewrite E. left. reflexivity. }
  split; [|split].
  - rewrite <- EM. destruct bad eqn:EB.
    + destruct (proj1 B eq_refl) as (k & l & _ & _ & D & _). apply indices_In in D. split; [discriminate|]. intros E. rewrite E in D. destruct D.
    + destruct (indices_of f); split; congruence.
  - rewrite <- B. destruct bad; [split; reflexivity|]. split; [destruct (indices_of f); discriminate|discriminate].
  - intros x. destruct bad; [right; congruence|]. destruct (indices_of f); [left; congruence|discriminate].
Qed.
