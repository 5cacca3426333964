(** * Bounds for pi. *)
From Coq Require Import Reals Lra Machin Ratan.
Local Open Scope R_scope.

Lemma pi_bounds : 314159 / 100000 < PI < 314160 / 100000.
Proof.
  destruct (PI_2_3_7_ineq 2) as [A B].
  unfold tg_alt, PI_2_3_7_tg, Ratan_seq in A, B. cbn in A, B. lra.
Qed.
