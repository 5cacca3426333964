(** * Specification vocabulary for Sobol'/Saltelli sampling and analysis.

    Only the fields of [problem], list positions and real arithmetic are used here. *)
From Coq Require Import Reals String List Arith.
From Verif Require Import Base ModelGroups SpecGroups.
Import ListNotations.

(** The problem has real groups: labels other than the names, at least two of them distinct. *)
Definition grouped (p : problem) (g : list string) : Prop :=
  p_groups p = Some g /\ g <> p_names p /\ exists x y, In x g /\ In y g /\ x <> y.
Definition ungrouped (p : problem) : Prop := forall g, ~ grouped p g.

(** [ns] lists the distinct labels of [ls] in order of first appearance. *)
Definition first_appearance (ls ns : list string) : Prop :=
  NoDup ns /\ (forall x, In x ns <-> In x ls) /\
  (forall i j x y, i < j -> nth_error ns i = Some x -> nth_error ns j = Some y ->
     exists a b, a < b /\ first_at ls x a /\ first_at ls y b).

(** [G] is the number of groups (of parameters, when there are no groups). *)
Definition group_count (p : problem) (G : nat) : Prop :=
  (exists g ns, grouped p g /\ first_appearance g ns /\ G = length ns) \/
  (ungrouped p /\ G = p_num_vars p).

(** Parameter [j] belongs to the [k]-th group. *)
Definition in_group (p : problem) (k j : nat) : Prop :=
  (exists g ns x, grouped p g /\ first_appearance g ns /\
     nth_error ns k = Some x /\ nth_error g j = Some x) \/
  (ungrouped p /\ j = k).

(** Real groups come with one label per parameter. *)
Definition labelled (p : problem) : Prop :=
  forall g, grouped p g -> length g = p_num_vars p.

(** [row] is [a] with the entries selected by [sel] replaced by those of [b]. *)
Definition replaced {A} (sel : nat -> Prop) (a b row : list A) : Prop :=
  length row = length a /\
  forall j, (sel j -> nth_error row j = nth_error b j) /\
            (~ sel j -> nth_error row j = nth_error a j).

(** Number of rows per base point. *)
Definition block_size (G : nat) (second : bool) : nat := if second then 2 * G + 2 else G + 2.

(** The rows of one base point [a ++ b] are: a; a with group k from b, for each k; (second order)
    b with group k from a, for each k; b. *)
Definition saltelli_block {A} (p : problem) (G : nat) (second : bool) (a b : list A)
  (row : nat -> option (list A)) : Prop :=
  row 0 = Some a /\ row (block_size G second - 1) = Some b /\
  (forall k, k < G -> exists r, row (1 + k) = Some r /\ replaced (in_group p k) a b r) /\
  (second = true ->
   forall k, k < G -> exists r, row (1 + G + k) = Some r /\ replaced (in_group p k) b a r).

(** Bounds given as one pair (lower, upper) with lower < upper per parameter. *)
Definition good_box (bounds : list (list R)) : Prop :=
  Forall (fun b => exists lo up, b = [lo; up] /\ (lo < up)%R) bounds.

(** [a'] is the unit-cube point [a] expressed in parameter units. *)
Definition physical (bounds : list (list R)) (a a' : list R) : Prop :=
  length a' = length a /\
  forall j x lo up, nth_error a j = Some x -> nth_error bounds j = Some [lo; up] ->
    nth_error a' j = Some (lo + x * (up - lo))%R.

(** Output number [o] of base point [i], for a model run on a Saltelli sample of [D] groups. *)
Definition out (Y : list R) (D : nat) (second : bool) (i o : nat) : R :=
  nth (i * block_size D second + o) Y 0%R.

(** Two of the outputs of type A or B drawn into the bootstrap resamples [r] differ. *)
Definition drawn_varied (Y : list R) (D : nat) (second : bool) (r : list (list nat)) : Prop :=
  exists i i' x y, In i (concat r) /\ In i' (concat r) /\ x <> y /\
    (nth_error Y (i * block_size D second) = Some x \/
     nth_error Y (i * block_size D second + (block_size D second - 1)) = Some x) /\
    (nth_error Y (i' * block_size D second) = Some y \/
     nth_error Y (i' * block_size D second + (block_size D second - 1)) = Some y).

(** All outputs of type A or B drawn by the indices [idx] are equal. *)
Definition drawn_constant (Y : list R) (D : nat) (second : bool) (idx : list nat) : Prop :=
  exists c, forall i, In i idx -> out Y D second i 0 = c /\ out Y D second i (block_size D second - 1) = c.

(** What a function that ignores the parameters of group [k] is. *)
Definition ignores {A B} (f : list A -> B) (p : problem) (k : nat) : Prop :=
  forall x y, length x = p_num_vars p -> length y = p_num_vars p ->
    (forall j, ~ in_group p k j -> nth_error x j = nth_error y j) -> f x = f y.

(** A problem is unambiguous: real groups label each parameter, names are distinct, one per
    parameter, and a single shared group label is used only for a single parameter. *)
Definition one_group (p : problem) : Prop :=
  exists g x l, p_groups p = Some (x :: l) /\ forall y, In y (x :: l) -> y = g.
Definition consistent (p : problem) : Prop :=
  labelled p /\ NoDup (p_names p) /\ length (p_names p) = p_num_vars p /\
  (one_group p -> p_num_vars p = 1).

(** The base rows [idxs] exist and have 2 * num_vars columns. *)
Definition proper_base {A} (base : list (list A)) (idxs : list nat) (p : problem) : Prop :=
  forall i, In i idxs -> exists b, nth_error base i = Some b /\ length b = 2 * p_num_vars p.
