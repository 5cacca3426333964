(** * C118: the test function of Oakley and O'Hagan and the indices quoted for it. *)
From Coq Require Import Reals List Arith ZArith Lia Lra.
From Coquelicot Require Import Coquelicot.
From Verif Require Import Base Stats ModelOakley SpecOakley ProofsOakley ProofsOakley2 ProofsOakley3 ProofsOakley4 ProofsOakley5 ProofsOakley6 ProofsOakley7.
Import ListNotations.
Local Open Scope R_scope.

(** A square matrix. *)
Definition square (n : nat) (M : list (list R)) : Prop := length M = n /\ List.Forall (fun r => length r = n) M.
(** [f] is the function computed for rows of [n] inputs. *)
Definition computes (A M : list (list R)) (n : nat) (f : list R -> R) : Prop :=
  forall v, length v = n -> oakley_evaluate [v] A M = Ok [f v].

(** The value returned for every row. *)
Theorem C118_value : forall n a1 a2 a3 M X,
  length a1 = n -> length a2 = n -> length a3 = n -> square n M -> List.Forall (fun x => length x = n) X ->
  oakley_evaluate X [a1; a2; a3] M =
  Ok (map (fun x => over n (fun i => nth i a1 0 * nth i x 0 + nth i a2 0 * sin (nth i x 0) + nth i a3 0 * cos (nth i x 0))
                    + over n (fun i => over n (fun j => entry M i j * nth i x 0 * nth j x 0))) X).
Proof. exact evaluate_value. Qed.

(** Every first-order index, for independent normal inputs cut off outside [-a, a]: the variance of the input's own terms, over
    the sum of those variances and of the products of pairs. *)
Theorem C118_decomposition : forall s a n a1 a2 a3 M f i, 0 < s -> 0 < a ->
  length a1 = n -> length a2 = n -> length a3 = n -> square n M -> (i < n)%nat -> computes [a1; a2; a3] M n f ->
  let E := normal_avg s a in
  let V := fun i => avar E (fun x => nth i a1 0 * x + nth i a2 0 * sin x + nth i a3 0 * cos x + entry M i i * x ^ 2) in
  first_order E n f i = V i / (over n V + E (fun x => x ^ 2) ^ 2 * over_pairs n (fun i j => (entry M i j + entry M j i) ^ 2)).
Proof. exact decomposition. Qed.

(** The limit for normal inputs, in closed form. *)
Theorem C118_limit : forall s n a1 a2 a3 M f i, 0 < s ->
  length a1 = n -> length a2 = n -> length a3 = n -> square n M -> (i < n)%nat -> computes [a1; a2; a3] M n f ->
  let V := fun i => normal_part s (nth i a1 0) (nth i a2 0) (nth i a3 0) (entry M i i) in
  let T := over n V + s ^ 4 * over_pairs n (fun i j => (entry M i j + entry M j i) ^ 2) in
  T <> 0 -> normal_first_order s n f i (V i / T).
Proof. exact limit_index. Qed.

(** The indices quoted in the file as analytic are those of standard normal inputs, up to 2 10^-5. *)
Theorem C118_quoted : forall f i, computes oakley_A oakley_M 15 f -> (i < 15)%nat ->
  exists l, normal_first_order 1 15 f i l /\ Rabs (l - nth i oakley_quoted 0) < 2 / 100000.
Proof. exact quoted_index. Qed.

(** They are not the indices of the problem the file samples (standard deviation 0.835): the five largest, x11 to x15, are each
    more than 0.01 above the quoted value. *)
Theorem C118_problem_refuted : forall f i, computes oakley_A oakley_M 15 f -> (10 <= i < 15)%nat ->
  exists l, normal_first_order oakley_sd 15 f i l /\ nth i oakley_quoted 0 + 1 / 100 < l.
Proof. exact sampled_index. Qed.

(** The function of the example exists. *)
Example C118_example_defined : exists f, computes oakley_A oakley_M 15 f.
Proof. exact example_computes. Qed.

(** [3 x1 + 4 x2]: the first input explains 9/25. *)
Example C118_example : forall f, computes [[3; 4]; [0; 0]; [0; 0]] [[0; 0]; [0; 0]] 2 f -> normal_first_order 1 2 f 0 (9 / 25).
Proof.
  intros f H. pose proof (C118_limit 1 2 [3; 4] [0; 0] [0; 0] [[0; 0]; [0; 0]] f 0 ltac:(lra) eq_refl eq_refl eq_refl) as L.
  replace (9 / 25) with (normal_part 1 3 0 0 0 / (over 2 (fun i => normal_part 1 (nth i [3; 4] 0) (nth i [0; 0] 0) (nth i [0; 0] 0) (entry [[0; 0]; [0; 0]] i i))
     + 1 ^ 4 * over_pairs 2 (fun i j => (entry [[0; 0]; [0; 0]] i j + entry [[0; 0]; [0; 0]] j i) ^ 2))).
  - apply L; auto; [split; auto; repeat constructor|]. unfold over_pairs, over, entry, normal_part. simpl. lra.
  - unfold over_pairs, over, entry, normal_part. simpl. field.
Qed.

Print Assumptions C118_value.
Print Assumptions C118_decomposition.
Print Assumptions C118_limit.
Print Assumptions C118_quoted.
Print Assumptions C118_problem_refuted.
