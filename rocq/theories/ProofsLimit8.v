(** * A concrete filling sample, and the Ishigami function in the limit. *)
From Coq Require Import Reals String List Arith ZArith Bool Lia Lra Psatz.
From Verif Require Import Base Arrays ModelGroups ModelScale Stats ModelSobol SpecGroups SpecSobol SpecIntegral ProofsIntegral SpecExpect SpecExpect2 ProofsExpect
  ModelTestFunctions ProofsTestFunctions3 SpecLimit ProofsPoincare ProofsPoincare2 ProofsLimit ProofsLimit2 ProofsLimit3 ProofsLimit4 ProofsLimit5 ProofsLimit6.
Import ListNotations.
Local Open Scope R_scope.

(** ** A generator whose point sets are grids *)
Definition grid_qrng (d skip N : nat) : list (list R) :=
  match find (fun k => (k ^ d =? N)%nat) (seq 0 (S N)) with Some k => grid_points k (unit_box d) | None => [] end.
Lemma grid_qrng_at : forall d skip n, (0 < d)%nat -> grid_qrng d skip (S n ^ d)%nat = grid_points (S n) (unit_box d).
Proof.
  intros d skip n D. unfold grid_qrng.
  destruct (find (fun k => (k ^ d =? S n ^ d)%nat) (seq 0 (S (S n ^ d)))) as [k|] eqn:E.
  - apply find_some in E. destruct E as (_ & E). apply Nat.eqb_eq in E. destruct (Nat.lt_trichotomy k (S n)) as [L|[->|L]]; auto.
    + assert (k ^ d < S n ^ d)%nat by (apply Nat.pow_lt_mono_l; lia). lia.
    + assert (S n ^ d < k ^ d)%nat by (apply Nat.pow_lt_mono_l; lia). lia.
  - exfalso. assert (S n ^ 1 <= S n ^ d)%nat by (apply Nat.pow_le_mono_r; lia). rewrite Nat.pow_1_r in H.
    pose proof (find_none _ _ E (S n)) as F. cbv beta in F. rewrite Nat.eqb_refl in F. discriminate F. apply in_seq. lia.
Qed.
Lemma grid_qrng_fills : forall d skip, (0 < d)%nat -> fills (unit_box d) (fun n => grid_qrng d skip (S n ^ d)%nat).
Proof.
  intros d skip D. destruct (grid_fills (unit_box d) (unit_proper d)) as (H1 & H2). split.
  - intros n. rewrite grid_qrng_at by auto. apply H1.
  - intros h v C A. apply (Un_cv_ext (fun n => mean (map h (grid_points (S n) (unit_box d))))); [intros; rewrite grid_qrng_at; auto|]. apply H2; auto.
Qed.
Lemma grid_qrng_length : forall d skip n, (0 < d)%nat -> length (grid_qrng d skip (S n ^ d)%nat) = (S n ^ d)%nat.
Proof. intros d skip n D. rewrite grid_qrng_at, grid_points_length by auto. unfold unit_box. rewrite repeat_length. reflexivity. Qed.
Lemma grid_qrng_rows : forall d skip n, (0 < d)%nat -> Forall (fun x => length x = d) (grid_qrng d skip (S n ^ d)%nat).
Proof.
  intros d skip n D. destruct (grid_qrng_fills d skip D) as (H & _). destruct (H n) as (_ & HI). revert HI. apply Forall_impl. intros x Hx. apply inside_length in Hx. rewrite Hx.
  unfold unit_box. apply repeat_length.
Qed.

(** ** Functions that agree on the box *)
Lemma variance_same : forall b f g v, proper b -> (forall x, inside b x -> f x = g x) -> SpecIntegral.variance b f v -> SpecIntegral.variance b g v.
Proof.
  intros b f g v P E (m & H1 & H2). exists m. split; [apply (average_ext b f); auto|]. apply (average_ext b (fun x => (f x - m) ^ 2)); auto. intros x Hx. rewrite E; auto.
Qed.
Lemma closed_same : forall b f g u v, proper b -> (forall x, inside b x -> f x = g x) -> closed_share b f u v -> closed_share b g u v.
Proof.
  intros b f g u v P E (h & H & V). exists h. split; auto. intros x X. apply (average_ext b (fun y => f (mix u x y))); auto. intros y Y. apply E. apply mix_inside; auto.
Qed.

(** ** Ishigami *)
Lemma ish_continuous : forall A B, continuous_on cube3 (ish A B).
Proof.
  intros A B. assert (P : proper cube3) by apply (proper_pi 3).
  assert (SC : forall i, (i < 3)%nat -> continuous_on cube3 (fun x => sin (nth i x 0))).
  { intros i I. apply (continuous_lipschitz cube3 (fun x => nth i x 0) sin 1); [lra|apply sin_lipschitz|]. apply continuous_coord. auto. }
  unfold ish. apply continuous_plus; [apply continuous_plus|].
  - apply (SC 0%nat). lia.
  - apply continuous_scal. apply continuous_square; auto. 
  - apply continuous_mult; auto. apply continuous_scal.
    apply (continuous_ext cube3 (fun x => (nth 2 x 0 ^ 2) ^ 2)); [intros; ring|]. apply continuous_square; auto. apply continuous_square; auto. apply continuous_coord. simpl. lia.
Qed.
