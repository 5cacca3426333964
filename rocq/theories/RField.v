(** * The real numbers of the standard library as a real field of Mathematical Components.  Choice comes from the standard library's
    description axiom. *)
From Coq Require Import Reals FunctionalExtensionality ClassicalEpsilon Lra.
From mathcomp Require Import all_ssreflect all_algebra.
Set Implicit Arguments.
Unset Strict Implicit.
Unset Printing Implicit Defensive.
Import Order.TTheory GRing.Theory Num.Theory.
Local Open Scope R_scope.

Definition Reqb (x y : R) : bool := if Req_EM_T x y then true else false.
Lemma ReqbP : Equality.axiom Reqb.
Proof. by move=> x y; rewrite /Reqb; case: Req_EM_T => h; constructor. Qed.
Canonical R_eqMixin := EqMixin ReqbP.
Canonical R_eqType := Eval hnf in EqType R R_eqMixin.

Definition R_find (P : pred R) (n : nat) : option R :=
  match excluded_middle_informative (exists x, P x) with
  | left h => Some (proj1_sig (constructive_indefinite_description _ h))
  | right _ => None
  end.
Lemma R_find_ok (P : pred R) n x : R_find P n = Some x -> P x.
Proof. by rewrite /R_find; case: excluded_middle_informative => // h [<-]; case: constructive_indefinite_description. Qed.
Lemma R_find_some (P : pred R) : (exists x, P x) -> exists n, R_find P n.
Proof. by move=> h; exists 0%N; rewrite /R_find; case: excluded_middle_informative. Qed.
Lemma R_find_ext (P Q : pred R) : P =1 Q -> R_find P =1 R_find Q.
Proof. by move=> e n; have -> : P = Q by apply: functional_extensionality. Qed.
Definition R_choiceMixin : choiceMixin R := Choice.Mixin R_find_ok R_find_some R_find_ext.
Canonical R_choiceType := Eval hnf in ChoiceType R R_choiceMixin.

Lemma R_addA : associative Rplus. Proof. by move=> x y z; rewrite Rplus_assoc. Qed.
Lemma R_mulA : associative Rmult. Proof. by move=> x y z; rewrite Rmult_assoc. Qed.
Definition R_zmodMixin := ZmodMixin R_addA Rplus_comm Rplus_0_l Rplus_opp_l.
Canonical R_zmodType := Eval hnf in ZmodType R R_zmodMixin.
Lemma R_one_neq0 : R1 != 0 :> R. Proof. by apply/eqP; apply: R1_neq_R0. Qed.
Lemma R_mulDl : left_distributive Rmult Rplus. Proof. by move=> x y z; ring. Qed.
Definition R_ringMixin := ComRingMixin R_mulA Rmult_comm Rmult_1_l R_mulDl R_one_neq0.
Canonical R_ringType := Eval hnf in RingType R R_ringMixin.
Canonical R_comRingType := Eval hnf in ComRingType R Rmult_comm.
Definition R_inv (x : R) : R := if x == 0 then 0 else / x.
Lemma R_mulV (x : R) : x != 0 -> R_inv x * x = 1.
Proof. by rewrite /R_inv => /negbTE h; rewrite h; apply: Rinv_l; apply/eqP; rewrite h. Qed.
Lemma R_inv0 : R_inv 0 = 0. Proof. by rewrite /R_inv eqxx. Qed.
Definition R_unitRingMixin := FieldUnitMixin R_mulV R_inv0.
Canonical R_unitRingType := Eval hnf in UnitRingType R R_unitRingMixin.
Canonical R_comUnitRingType := Eval hnf in [comUnitRingType of R].
Lemma R_field : GRing.Field.mixin_of R_unitRingType. Proof. by []. Qed.
Definition R_idomainMixin := FieldIdomainMixin R_field.
Canonical R_idomainType := Eval hnf in IdomainType R R_idomainMixin.
Canonical R_fieldType := Eval hnf in FieldType R R_field.

Definition Rlebb (x y : R) : bool := if Rle_dec x y then true else false.
Definition Rltbb (x y : R) : bool := if Rlt_dec x y then true else false.
Lemma RlebbP x y : reflect (x <= y) (Rlebb x y).
Proof. by rewrite /Rlebb; case: Rle_dec => h; constructor. Qed.
Lemma RltbbP x y : reflect (x < y) (Rltbb x y).
Proof. by rewrite /Rltbb; case: Rlt_dec => h; constructor. Qed.

Lemma R_norm_add x y : Rlebb (Rabs (x + y)) (Rabs x + Rabs y).
Proof. by apply/RlebbP; apply: Rabs_triang. Qed.
Lemma R_addr_gt0 x y : Rltbb 0 x -> Rltbb 0 y -> Rltbb 0 (x + y).
Proof. by move=> /RltbbP hx /RltbbP hy; apply/RltbbP; lra. Qed.
Lemma R_norm0 x : Rabs x = 0 -> x = 0.
Proof. by rewrite /Rabs; case: Rcase_abs => h e; lra. Qed.
Lemma R_leVge x y : Rlebb 0 x -> Rlebb 0 y -> Rlebb x y || Rlebb y x.
Proof. by move=> _ _; case: (Rle_dec x y) => h; apply/orP; [left|right]; apply/RlebbP; lra. Qed.
Lemma R_leb_def x y : Rlebb x y = (Rabs (y - x) == y - x).
Proof.
apply/RlebbP/eqP => h; first by apply: Rabs_pos_eq; lra.
by move: h; rewrite /Rabs; case: Rcase_abs => ? ?; lra.
Qed.
Lemma R_ltb_def x y : Rltbb x y = (y != x) && (Rlebb x y).
Proof.
apply/RltbbP/andP => [h|[/eqP n /RlebbP h]]; last by lra.
by split; [apply/eqP; lra|apply/RlebbP; lra].
Qed.
Definition R_numMixin := NumMixin R_norm_add R_addr_gt0 R_norm0 R_leVge Rabs_mult R_leb_def R_ltb_def.
Canonical R_porderType := POrderType ring_display R R_numMixin.
Canonical R_numDomainType := NumDomainType R R_numMixin.
Canonical R_normedZmodType := NormedZmodType R R R_numMixin.
Canonical R_numFieldType := [numFieldType of R].
Lemma R_total : totalPOrderMixin R_porderType.
Proof. by move=> x y; case: (Rle_dec x y) => h; apply/orP; [left|right]; apply/RlebbP; lra. Qed.
Canonical R_latticeType := LatticeType R R_total.
Canonical R_distrLatticeType := DistrLatticeType R R_total.
Canonical R_orderType := OrderType R R_total.
Canonical R_realDomainType := [realDomainType of R].
Canonical R_realFieldType := [realFieldType of R].

Local Open Scope ring_scope.
Lemma R_leE (x y : R) : Rle x y <-> x <= y.
Proof. by split=> [h|/RlebbP h]; [apply/RlebbP|]. Qed.
Lemma R_ltE (x y : R) : Rlt x y <-> x < y.
Proof. by split=> [h|/RltbbP h]; [apply/RltbbP|]. Qed.
Lemma R_addE (x y : R) : Rplus x y = x + y. Proof. by []. Qed.
Lemma R_mulE (x y : R) : Rmult x y = x * y. Proof. by []. Qed.
Lemma R_oppE (x : R) : Ropp x = - x. Proof. by []. Qed.
Lemma R_subE (x y : R) : Rminus x y = x - y. Proof. by []. Qed.
Lemma R_sqE (x : R) : pow x 2 = x ^+ 2. Proof. by rewrite /= Rmult_1_r expr2. Qed.
