(** * What the figure of regional sensitivity analysis should show. *)
From Coq Require Import Reals String List.
From Verif Require Import ModelScale ModelRsa ModelRsaPlot.
Import ListNotations.
Local Open Scope nat_scope.

(** The panel of column [i] of a table [r]: named after it, a point per bin, at the lower edge of the bin. *)
Definition panel_is (bins : nat) (r : list (list fval)) (i : nat) (n : string) (p : rsa_panel) : Prop :=
  fst p = n /\ length (snd p) = bins /\ forall s, s < bins -> nth_error (snd p) s = Some ((INR s / INR bins)%R, nth s (nth i r []) None).
(** No parameter has the name of another entry of the result. *)
Definition free_of_keys (ns : list string) : Prop := forall n, In n ns -> ~ In n ["names"; "bins"; "target"]%string.
