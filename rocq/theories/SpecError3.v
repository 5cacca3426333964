(** * Resampled means and root mean squares. *)
From Coq Require Import Reals List.
From Verif Require Import Stats.
Import ListNotations.
Local Open Scope R_scope.

(** The mean magnitudes of the resamples [idxs] of the values [E]. *)
Definition boot (E : nat -> R) (idxs : list (list nat)) : list R := map (fun idx => mean (map (fun t => Rabs (E t)) idx)) idxs.
(** The root mean square with divisor n - 1. *)
Definition rms (l : list R) : R := sqrt (Rsum (map (fun x => x ^ 2) l) / INR (length l - 1)).
