(** * Property C71, triples among four parameters or more. *)
From Coq Require Import Reals String List Arith ZArith Bool Lia Lra.
From Verif Require Import Base Stats ModelHdmr SpecHdmr ModelEhdmr SpecEhdmr ProofsHdmr ProofsEhdmrCost.
Import ListNotations.
Local Open Scope nat_scope.

(** C71 is false of triples as soon as there are four parameters: the cost of the first triple looks at the product of the parameters 0 and 3
    in the place of that of 1 and 2 (C57_ehdmr_refuted).  For columns over eight points, the function with coefficient 1 of the
    product of all three has cost zero although it is not orthogonal to one of the triple's lower-order columns. *)
Theorem C71_triples_refuted : forall d, 4 <= d -> exists c first x, c_d c = d /\ c_order c = 3 /\ c_ext c = true /\
  length first = d /\ (forall b, In b first -> length b = c_p c) /\ (forall b col, In b first -> In col b -> length col = c_subset c) /\
  length x = coefficient_count true (c_p c) 3 /\
  let phi a := nth a first [] in let f := combination (c_subset c) (own_columns true phi [0; 1; 2]) x in
  exists i C a, nth_error (hdmr_term_list d 3) i = Some [0; 1; 2] /\ nth_error (cost_blocks c (extend_basis c (concat first))) i = Some C /\
    quadratic C x = 0%R /\ In a (lower_columns phi [0; 1; 2]) /\ inner a f <> 0%R.
Proof.
  intros d D. exists (mkCore d 3 true 8 1), (four_columns d), [0; 0; 0; 0; 0; 0; 1]%R. cbn [c_d c_order c_ext c_p c_subset].
  split; auto. split; auto. split; auto. split. { unfold four_columns. cbn [length]. rewrite repeat_length. lia. }
  split. { intros b [<-|[<-|[<-|H]]]; try reflexivity. apply repeat_spec in H. subst b. reflexivity. }
  split. { intros b col [<-|[<-|[<-|H]]]; [intros [<-|[]]; reflexivity..|]. apply repeat_spec in H. subst b. intros [<-|[]]; reflexivity. }
  split; auto. destruct (triple_cost d D) as (i & C & a & A1 & A2 & A3 & _ & A5 & A6). exists i, C, a.
  split; auto. split; auto. split; auto. split; auto. rewrite A6. lra.
Qed.
Print Assumptions C71_triples_refuted.
