(** * Specification vocabulary for the delta analyser. *)
From Coq Require Import Reals String List Arith ZArith Permutation Sorted.
From Verif Require Import Base Arrays ModelScale Stats Quant SpecRsa.
Import ListNotations.
Local Open Scope nat_scope.

(** [fin] puts together consecutive bins of [init]: a bin is only extended while it is smaller than [k], and only
    the last one may stay smaller. *)
Definition merged (k : nat) (init fin : list (list nat)) : Prop :=
  exists gs : list (list (list nat)), concat gs = init /\ fin = map (@concat nat) gs /\
    Forall (fun g => g <> [] /\ forall g1 g2, g = g1 ++ g2 -> g1 <> [] -> g2 <> [] -> length (concat g1) < k) gs /\
    forall g gs1 gs2, gs = gs1 ++ g :: gs2 -> gs2 <> [] -> k <= length (concat g).

(** Cut points that cover the values: at least two, not decreasing, no value outside. *)
Definition covers (edges X : list R) : Prop :=
  2 <= length edges /\
  (forall i j, i <= j -> j < length edges -> (nth i edges 0 <= nth j edges 0)%R) /\
  forall x, In x X -> (nth 0 edges 0 <= x <= nth (length edges - 1) edges 0)%R.

(** The bins [bs] of [n] positions are given by the cut points. *)
Definition binned (edges X : list R) (bs : list (list nat)) : Prop :=
  length bs = length edges - 1 /\
  forall s b, nth_error bs s = Some b ->
    StronglySorted lt b /\
    forall i, In i b <-> exists x, nth_error X i = Some x /\ in_bin (fun t => nth t edges 0%R) s x.

(** The share of bin [i] when [total] draws are dealt out to [n] bins. *)
Definition share_of (total n i : nat) : nat := total / n + (if i <? total mod n then 1 else 0).

(** [ds] are the draws from the non-empty bins among [bins], numbered from [i]. *)
Inductive dealt (total n : nat) : nat -> list (list nat) -> list (list nat) -> Prop :=
| dealt_nil : forall i, dealt total n i [] []
| dealt_empty : forall i bins ds, dealt total n (S i) bins ds -> dealt total n i ([] :: bins) ds
| dealt_bin : forall i b bins d ds, b <> [] -> length d = share_of total n i -> incl d b ->
    dealt total n (S i) bins ds -> dealt total n i (b :: bins) (d :: ds).

(** A parameter whose values are all the same. *)
Definition constant (X : list R) : Prop := forall x y, In x X -> In y X -> x = y.

(** Position [k] comes no later than position [i] when the values are ordered, ties by position. *)
Definition before (X : list R) (k i : nat) : Prop :=
  (nth k X 0 < nth i X 0)%R \/ (nth k X 0 = nth i X 0)%R /\ k <= i.
(** The rank of position [i], counted from 1. *)
Definition rank_is (X : list R) (i r : nat) : Prop :=
  exists l, NoDup l /\ length l = r /\ forall k, In k l <-> k < length X /\ before X k i.
(** [M] classes of (nearly) equal size: class [j] holds the ranks above j n / M up to (j + 1) n / M. *)
Definition equal_classes (X : list R) (M : nat) (cls : list (list nat)) : Prop :=
  length cls = M /\
  forall j c, nth_error cls j = Some c -> StronglySorted lt c /\
    forall i, In i c <-> i < length X /\ exists r, rank_is X i r /\ j * length X / M < r <= (j + 1) * length X / M.

(** The outputs at some positions; the sum of squared deviations from the mean. *)
Definition outputs (Y : list R) (c : list nat) : list R := map (fun i => nth i Y 0%R) c.
Definition squares_of (l : list R) : R := Rsum (map (fun v => (v - mean l) ^ 2)%R l).

(** The number of classes for [y] resampled points: y ^ (2 / (7 + tanh ((1500 - y) / 500))) rounded up, at most 48. *)
Definition class_count (y M : nat) : Prop :=
  let q := Rpower (INR y) (2 / (7 + tanh ((1500 - INR y) / 500)))%R in
  ((q <= 48)%R -> (INR M - 1 < q <= INR M)%R) /\ ((48 < q)%R -> M = 48).
(** The first-order index: the share of the variance that is between the classes; 0 for constant output. *)
Definition first_order (Y X : list R) (s : R) : Prop :=
  (constant Y -> s = 0%R) /\
  (~ constant Y -> exists M cls, class_count (length Y) M /\ equal_classes X M cls /\
     s = (1 - Rsum (map (fun c => squares_of (outputs Y c)) cls) / squares_of Y)%R).

(** An input of the analysis: a column and a name per parameter, an output per row. *)
Definition suffix_free (names : list string) : Prop :=
  forall n t, In n names -> ~ In (n : string) (map (fun s => t ++ s)%string ["_raw"; "_balanced"; "_step"; "_conf"]%string).
Definition delta_input (p : ModelGroups.problem) (X : mat R) (Y : list R) : Prop :=
  wf_mat X /\ cols X = ModelGroups.p_num_vars p /\ length (ModelGroups.p_names p) = ModelGroups.p_num_vars p /\
  length (rows X) = length Y /\ Y <> [] /\ suffix_free (ModelGroups.p_names p).

(** The value of a first-order index computed from [y] rows drawn with replacement. *)
Definition good_index (Y X : list R) (y : nat) (s : R) : Prop :=
  exists ind, length ind = y /\ Forall (fun i => i < length Y) ind /\ first_order (outputs Y ind) (outputs X ind) s /\ (0 <= s <= 1)%R.

(** The positive values; position [i] holds the [j]-th of them. *)
Definition positives (X : list R) : list R := filter (fun x => if Rlt_dec 0 x then true else false) X.
Definition positive_place (X : list R) (j i : nat) : Prop :=
  (exists x, nth_error X i = Some x /\ (0 < x)%R) /\ length (positives (firstn i X)) = j.
(** [n] equal bins from [a] to [b]. *)
Definition even_edges (a b : R) (n : nat) (edges : list R) : Prop :=
  length edges = n + 1 /\ forall i, i <= n -> nth i edges 0%R = (a + INR i * ((b - a) / INR n))%R.

(** A density estimate: an estimate per grid point, not negative, with mass at most [T]. *)
Definition mass (f g : list R) : R :=
  Rsum (map (fun i => ((nth (S i) g 0 - nth i g 0) * (nth i f 0 + nth (S i) f 0) / 2)%R) (seq 0 (Nat.min (length f) (length g) - 1))).
Definition density (T : R) (kde : list R -> list R -> result (list R)) : Prop :=
  forall d g f, kde d g = Ok f -> length f = length g /\ Forall (fun v => 0 <= v)%R f /\ (mass f g <= T)%R.
