(** * Specification vocabulary for grouping and parameter files (no model functions). *)
From Coq Require Import Reals Ascii String List Arith.
From Verif Require Import Base ModelGroups.
Import ListNotations.

(** The labels of a problem: its groups when given and non-empty, else its names.
    (Only the record fields of [problem] are used.) *)
Definition labels_of (p : problem) (ls : list string) : Prop :=
  (exists g gs, p_groups p = Some (g :: gs) /\ ls = g :: gs) \/
  ((p_groups p = None \/ p_groups p = Some []) /\ ls = p_names p).

(** [n] is the position of the first occurrence of [x] in [l]. *)
Definition first_at (l : list string) (x : string) (n : nat) : Prop :=
  nth_error l n = Some x /\ forall m, m < n -> nth_error l m <> Some x.

(** A name that is a comment: blanks followed by '#'. *)
Definition comment_name (s : string) : Prop :=
  exists pre rest, s = (pre ++ String "#"%char rest)%string /\
    forall c, In c (list_ascii_of_string pre) ->
      In c (map ascii_of_nat [9; 10; 11; 12; 13; 28; 29; 30; 31; 32]).

(** The rows that describe parameters, in file order. *)
Inductive param_rows : list csv_row -> list csv_row -> Prop :=
| pr_nil : param_rows [] []
| pr_comment : forall r rs ks,
    comment_name (r_name r) -> param_rows rs ks -> param_rows (r :: rs) ks
| pr_param : forall r rs ks,
    ~ comment_name (r_name r) -> param_rows rs ks -> param_rows (r :: rs) (r :: ks).

(** The group of a row: its own name when the column is missing or "NA". *)
Definition effective_group (r : csv_row) (g : string) : Prop :=
  ((r_group r = None \/ r_group r = Some "NA"%string) /\ g = r_name r) \/
  (r_group r = Some g /\ g <> "NA"%string).

(** The distribution of a row: uniform when the column is missing. *)
Definition effective_dist (r : csv_row) (d : string) : Prop :=
  (r_dist r = None /\ d = "unif"%string) \/ r_dist r = Some d.

(** A row one of whose bounds is not a number. *)
Definition bad_number (r : csv_row) : Prop :=
  (forall lo, r_lower r <> Ok lo) \/ (forall up, r_upper r <> Ok up).
