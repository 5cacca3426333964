(** * Enhanced HDMR: the cost of triples among four parameters or more. *)
From Coq Require Import Reals String List Arith ZArith Bool Lia Lra.
From Verif Require Import Base Arrays ListFacts Stats Sums ModelMorris ModelHdmr SpecHdmr ModelEhdmr SpecEhdmr ProofsHdmr ProofsEhdmr ProofsEhdmr2 ProofsEhdmr3 ProofsEhdmr7 ProofsEhdmr8.
Import ListNotations.
Local Open Scope nat_scope.

Section Triple.
Variables (c : core) (first : list (list (list R))).
Hypothesis O : c_order c = 3.
Hypothesis EX : c_ext c = true.
Hypothesis D4 : 4 <= c_d c.
Hypothesis L1 : length first = c_d c.
Hypothesis L2 : forall b, In b first -> length b = c_p c.
Let phi a := nth a first [].
Let i := c_nc1 c + c_nc2 c.

Lemma first_triple : nth_error (hdmr_term_list (c_d c) 3) i = Some [0; 1; 2] /\ i < c_nc_t c /\
  term_columns c (extend_basis c (concat first)) i = phi 0 ++ phi 1 ++ phi 2 ++ products (phi 0) (phi 1) ++ products (phi 0) (phi 2) ++ products (phi 0) (phi 3)
      ++ products (products (phi 0) (phi 1)) (phi 2).
Proof.
  assert (C2 : c_nc2 c = length (hdmr_c2 (c_d c) 3)) by (unfold c_nc2, hdmr_c2; rewrite O; cbn [Nat.ltb Nat.leb]; rewrite comb_length, seq_length; auto).
  assert (C3 : exists r, hdmr_c3 (c_d c) 3 = [0; 1; 2] :: r).
  { unfold hdmr_c3. cbn [Nat.eqb]. destruct (c_d c) as [|[|[|q]]]; try lia. cbn [seq combinations map app]. eauto. }
  destruct C3 as (r & C3).
  assert (I : i < c_nc_t c).
  { unfold i, c_nc_t. assert (1 <= c_nc3 c); [|lia]. unfold c_nc3. rewrite O. cbn [Nat.eqb]. rewrite <- (seq_length (c_d c) 0), <- comb_length.
    unfold hdmr_c3 in C3. cbn [Nat.eqb] in C3. rewrite C3. simpl. lia. }
  split; [|split; auto].
  - unfold hdmr_term_list, i, c_nc1. rewrite nth_error_app2; rewrite map_length, seq_length; [|lia]. rewrite nth_error_app2; [|lia].
    rewrite C2. replace (c_d c + length (hdmr_c2 (c_d c) 3) - c_d c - length (hdmr_c2 (c_d c) 3)) with 0 by lia. rewrite C3. reflexivity.
  - rewrite term_columns_spec; [|congruence|auto|lia|auto].
    unfold term_blocks. rewrite O. cbn [Nat.ltb Nat.leb Nat.eqb].
    assert (LS : length (second_terms c) = c_nc2 c) by (rewrite C2; reflexivity).
    rewrite app_nth2; rewrite map_length, seq_length; [|unfold i, c_nc1; lia]. rewrite app_nth2; rewrite map_length, LS; [|unfold i, c_nc1; lia].
    unfold i, c_nc1. replace (c_d c + c_nc2 c - c_d c - c_nc2 c) with 0 by lia.
    unfold third_terms. unfold hdmr_c3 in C3. cbn [Nat.eqb] in C3. rewrite C3. cbn [map nth third_columns]. rewrite EX.
    assert (SE : exists r, second_terms c = [0; 1] :: [0; 2] :: [0; 3] :: r).
    { unfold second_terms. destruct (c_d c) as [|[|[|[|q]]]]; try lia. cbn [seq combinations map app]. eauto. }
    destruct SE as (r' & SE). unfold pair_products. rewrite SE. cbn [nth]. rewrite <- !app_assoc. reflexivity.
Qed.
End Triple.

(** Eight points: the first parameter is 1 where the others vary and -1 where they are 0. *)
Definition w0 : list R := [1; 1; 1; 1; -1; -1; -1; -1]%R.
Definition w1 : list R := [1; 1; -1; -1; 0; 0; 0; 0]%R.
Definition w2 : list R := [1; -1; 1; -1; 0; 0; 0; 0]%R.
Definition w3 : list R := [0; 0; 0; 0; 0; 0; 0; 0]%R.
Definition four_columns (d : nat) : list (list (list R)) := [w0] :: [w1] :: [w2] :: repeat [w3] (d - 3).

Theorem triple_cost : forall d, 4 <= d ->
  let c := mkCore d 3 true 8 1 in let first := four_columns d in let phi a := nth a first [] in
  let x := [0; 0; 0; 0; 0; 0; 1]%R in let f := combination 8 (own_columns true phi [0; 1; 2]) x in
  exists i C a, nth_error (hdmr_term_list d 3) i = Some [0; 1; 2] /\ nth_error (cost_blocks c (extend_basis c (concat first))) i = Some C /\
    quadratic C x = 0%R /\ mean f = 0%R /\ In a (lower_columns phi [0; 1; 2]) /\ inner a f = (1 / 2)%R.
Proof.
  intros d D c first phi x f.
  assert (L1 : length first = c_d c) by (unfold first, four_columns; cbn [length]; rewrite repeat_length; simpl; lia).
  assert (L2 : forall b, In b first -> length b = c_p c).
  { intros b [<-|[<-|[<-|H]]]; try reflexivity. apply repeat_spec in H. subst b. reflexivity. }
  destruct (first_triple c first eq_refl eq_refl D L1 L2) as (T & I & E). set (i := c_nc1 c + c_nc2 c) in *.
  assert (P3 : nth 3 first [] = [w3]). { unfold first, four_columns. destruct (d - 3) eqn:Q; [lia|]. reflexivity. }
  assert (P0 : nth 0 first [] = [w0]) by reflexivity. assert (P1 : nth 1 first [] = [w1]) by reflexivity. assert (P2 : nth 2 first [] = [w2]) by reflexivity.
  rewrite P0, P1, P2, P3 in E.
  exists i, (square_of (sr 8 (term_columns c (extend_basis c (concat first)) i) 6) 7), (map2 Rmult w1 w2).
  assert (FE : f = [1; -1; -1; 1; 0; 0; 0; 0]%R).
  { unfold f, phi, first, four_columns. cbn. unfold combination. cbn. repeat (apply f_equal2; [unfold Rsum; cbn; ring|]). reflexivity. }
  split; auto. split.
  { unfold cost_blocks. rewrite nth_error_map', nth_error_seq. destruct (Nat.ltb_spec i (c_nc_t c)); [|lia]. cbn [option_map Nat.add].
    assert (A1 : (i <? c_nc1 c) = false). { apply Nat.ltb_ge. unfold i. lia. }
    assert (A2 : (i <? c_nc1 c + c_nc2 c) = false). { apply Nat.ltb_ge. unfold i. lia. }
    rewrite A1, A2. reflexivity. }
  split.
  { rewrite E. change 7 with (length x). rewrite sr_quadratic; [|intros b Hb; cbn in Hb; decompose [or] Hb; subst; try reflexivity; tauto|reflexivity].
    set (g := combination _ _ _).
    assert (GE : g = [1; -1; -1; 1; 0; 0; 0; 0]%R).
    { unfold g. cbn. unfold combination. cbn. repeat (apply f_equal2; [unfold Rsum; cbn; ring|]). reflexivity. }
    rewrite GE. cbn. unfold inner, mean, Rsum. cbn. field. }
  split.
  { rewrite FE. unfold mean, Rsum. cbn. field. }
  split.
  { unfold phi, first, four_columns. cbn. tauto. }
  rewrite FE. unfold inner, Rsum. cbn. field.
Qed.
