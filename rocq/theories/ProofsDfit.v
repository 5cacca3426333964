(** * Coefficients and costs by block, as one vector and one matrix. *)
From Coq Require Import Reals List Arith Bool Lia Lra.
From Verif Require Import Base Stats Sums SpecRidge ProofsRidge ProofsRidge2 SpecEhdmr SpecEfit SpecDfit ProofsEfit ProofsEfit2 ProofsEfit3 ModelDfit.
Import ListNotations.
Local Open Scope nat_scope.

Lemma total_add : forall a b f, total (a + b) f = (total a f + total b (fun i => f (a + i)%nat))%R.
Proof.
  intros a b f. unfold total. rewrite seq_app, map_app, Rsum_app. f_equal. cbn [Nat.add]. rewrite (seq_as_map a), map_map. reflexivity.
Qed.
Lemma total_S : forall n f, total (S n) f = (f 0%nat + total n (fun i => f (S i)))%R.
Proof. intros n f. change (S n) with (1 + n). rewrite total_add. unfold total at 1. cbn. rewrite Rplus_0_r. reflexivity. Qed.
Lemma total_last : forall n f, total (S n) f = (total n f + f n)%R.
Proof. intros n f. replace (S n) with (n + 1) by lia. rewrite total_add. unfold total at 2. cbn. rewrite Nat.add_0_r. lra. Qed.

Lemma shape_cons : forall B Bs x xs, shape (B :: Bs) (x :: xs) <-> length x = length B /\ shape Bs xs.
Proof.
  intros B Bs x xs. unfold shape, width. split.
  - intros (L & H). split; [apply (H 0); simpl; lia|]. split; [simpl in L; lia|]. intros z Hz. apply (H (S z)). simpl. lia.
  - intros (L & M & H). split; [simpl; lia|]. intros [|z] Hz; [exact L|]. apply H. simpl in Hz. lia.
Qed.
Lemma shape_concat : forall Bs xs, shape Bs xs -> length (concat xs) = length (concat Bs).
Proof.
  induction Bs as [|B Bs IH]; intros [|x xs] S; try (destruct S as (L & _); discriminate); auto. apply shape_cons in S as (L & S). cbn [concat]. rewrite !app_length, (IH xs S). lia.
Qed.

Lemma explained_concat : forall Bs xs r, shape Bs xs -> total (length (concat Bs)) (fun j => nth r (nth j (concat Bs) []) 0 * nth j (concat xs) 0)%R = explained Bs xs r.
Proof.
  induction Bs as [|B Bs IH]; intros [|x xs] r S; try (destruct S as (L & _); discriminate); auto. apply shape_cons in S as (L & S).
  cbn [concat]. rewrite app_length, total_add. unfold explained. cbn [length]. rewrite total_S. f_equal.
  - unfold width. cbn [nth]. apply total_ext. intros j Hj. rewrite !app_nth1 by lia. reflexivity.
  - change (total (length Bs) _) with (explained Bs xs r). rewrite <- (IH xs r S). apply total_ext. intros j Hj. rewrite !app_nth2 by lia. f_equal; f_equal; [f_equal|]; lia.
Qed.

Lemma forms_entries : forall C xs, length C = length xs -> (forall z, z < length C -> length (nth z C []) = length (nth z xs [])) ->
  total (length (concat xs)) (fun i => total (length (concat xs)) (fun j => nth i (concat xs) 0 * block_entry C i j * nth j (concat xs) 0))%R = forms C xs.
Proof.
  induction C as [|c C IH]; intros [|x xs] L H; try discriminate; auto. injection L as L. assert (L0 : length c = length x) by (apply (H 0); simpl; lia).
  assert (H' : forall z, z < length C -> length (nth z C []) = length (nth z xs [])) by (intros z Hz; apply (H (S z)); simpl; lia).
  unfold forms. cbn [length]. rewrite total_S. change (total (length C) _) with (forms C xs). rewrite <- (IH xs L H'). cbn [concat nth]. rewrite app_length, total_add. f_equal.
  - change (quadratic c x) with (total (length x) (fun i => total (length x) (fun j => nth i x 0 * nth j (nth i c []) 0 * nth j x 0)))%R.
    apply total_ext. intros i Hi. rewrite total_add. rewrite (total_ext (length (concat xs)) _ (fun _ => 0%R)).
    + rewrite total_zero, Rplus_0_r. apply total_ext. intros j Hj. rewrite !app_nth1 by lia. cbn [block_entry]. rewrite L0.
      destruct (Nat.ltb_spec i (length x)); [|lia]. destruct (Nat.ltb_spec j (length x)); [|lia]. reflexivity.
    + intros j Hj. cbn [block_entry]. rewrite L0. destruct (Nat.ltb_spec i (length x)); [|lia]. destruct (Nat.ltb_spec (length x + j) (length x)); [lia|]. ring.
  - apply total_ext. intros i Hi. rewrite total_add. rewrite (total_ext (length x) _ (fun _ => 0%R)).
    + rewrite total_zero, Rplus_0_l. apply total_ext. intros j Hj. rewrite !app_nth2 by lia. cbn [block_entry]. rewrite L0.
      destruct (Nat.ltb_spec (length x + i) (length x)); [lia|]. destruct (Nat.ltb_spec (length x + j) (length x)); [lia|].
      replace (length x + i - length x) with i by lia. replace (length x + j - length x) with j by lia. reflexivity.
    + intros j Hj. cbn [block_entry]. rewrite L0. destruct (Nat.ltb_spec (length x + i) (length x)); [lia|]. destruct (Nat.ltb_spec j (length x)); [|lia]. ring.
Qed.
Lemma entry_sym : forall C i j, (forall c, In c C -> forall a b, a < length c -> b < length c -> nth b (nth a c []) 0%R = nth a (nth b c []) 0%R) -> block_entry C i j = block_entry C j i.
Proof.
  induction C as [|c C IH]; intros i j H; auto. cbn [block_entry]. destruct (Nat.ltb_spec i (length c)); destruct (Nat.ltb_spec j (length c)); auto; [apply H; simpl; auto|].
  apply IH. intros; apply H; simpl; auto.
Qed.

(** A vector cut into blocks. *)
Fixpoint cut {A B} (Bs : list (list A)) (v : list B) : list (list B) := match Bs with [] => [] | b :: Bs' => firstn (length b) v :: cut Bs' (skipn (length b) v) end.
Lemma cut_spec : forall (Bs : list (list (list R))) (v : list R), length v = length (concat Bs) -> shape Bs (cut Bs v) /\ concat (cut Bs v) = v.
Proof.
  induction Bs as [|b Bs IH]; intros v L; cbn [cut concat].
  - destruct v; [|discriminate]. split; auto. split; auto. intros z Hz. simpl in Hz. lia.
  - cbn [concat] in L. rewrite app_length in L. destruct (IH (skipn (length b) v)) as (S & E); [rewrite skipn_length; lia|]. split; [apply shape_cons; split; auto; rewrite firstn_length; lia|].
    rewrite E. apply firstn_skipn.
Qed.
Lemma concat_shape_inj : forall Bs xs es, shape Bs xs -> shape Bs es -> concat xs = concat es -> xs = es.
Proof.
  induction Bs as [|b Bs IH]; intros xs es S S' E.
  - destruct S as (L & _), S' as (L' & _). destruct xs, es; auto; discriminate.
  - destruct xs as [|x xs]; [destruct S as (L & _); discriminate|]. destruct es as [|e es]; [destruct S' as (L & _); discriminate|].
    apply shape_cons in S as (L & S), S' as (L' & S'). cbn [concat] in E. apply app_inj_length in E as (-> & E); [|lia]. f_equal. auto.
Qed.
