(** * Specification vocabulary for Morris designs. *)
From Coq Require Import Reals String List Arith ZArith Permutation Sorted.
From Verif Require Import Base Stats ModelGroups SpecGroups SpecSobol SpecFF ModelMorris ModelMorrisAnalyze.
Import ListNotations.
Local Open Scope nat_scope.

(** The step for [p] levels. *)
Definition step (p : nat) : R := (INR p / (2 * (INR p - 1)))%R.

(** [y] is the point [x] with the coordinates selected by [sel] moved by [h j], up or down, and the
    others unchanged. *)
Definition moves (sel : nat -> Prop) (h : nat -> R) (x y : list R) : Prop :=
  length y = length x /\
  forall j a, nth_error x j = Some a ->
    (sel j -> nth_error y j = Some (a + h j)%R \/ nth_error y j = Some (a - h j)%R) /\
    (~ sel j -> nth_error y j = Some a).

(** The points [T] form a trajectory for the labels [ls] (one per parameter), visiting the labels in
    the order [order]. *)
Definition ordered_trajectory (ls : list string) (h : nat -> R) (order : list string) (T : list (list R)) : Prop :=
  NoDup order /\ (forall x, In x order <-> In x ls) /\
  length T = length order + 1 /\ Forall (fun r => length r = length ls) T /\
  forall r x a b, nth_error order r = Some x -> nth_error T r = Some a -> nth_error T (r + 1) = Some b ->
    moves (fun j => nth_error ls j = Some x) h a b.
Definition trajectory (ls : list string) (h : nat -> R) (T : list (list R)) : Prop :=
  exists order, ordered_trajectory ls h order T.

(** [X] consists of [N] trajectories, one after the other. *)
Definition morris_design (ls : list string) (h : nat -> R) (N : nat) (X : list (list R)) : Prop :=
  exists Ts, length Ts = N /\ X = concat Ts /\ Forall (trajectory ls h) Ts.

(** [G] is the number of distinct labels. *)
Definition distinct_count (ls : list string) (G : nat) : Prop :=
  exists ns, NoDup ns /\ (forall x, In x ns <-> In x ls) /\ length ns = G.

(** What numpy's generator can return for one trajectory: any order of the [G] groups, any
    directions, any positions in a grid of [n] values. *)
Definition valid_draw (G n : nat) (d : draw) : Prop :=
  Permutation (t_perm d) (seq 0 G) /\ forall j, t_start d j < n.
Definition valid_draws (ls : list string) (levels : nat) (draws : nat -> draw) : Prop :=
  exists G, distinct_count ls G /\ forall t, valid_draw G (levels / 2) (draws t).

(** A problem the Morris sampler accepts: labels [ls], one per parameter, one pair of increasing
    bounds per parameter, no distributions. *)
Definition morris_problem (p : problem) (ls : list string) : Prop :=
  labels_of p ls /\ length ls = p_num_vars p /\ 0 < p_num_vars p /\
  length (p_bounds p) = p_num_vars p /\ good_box (p_bounds p) /\ p_dists p = None.

(** Distances travelled in parameter units. *)
Definition ranges (bounds : list (list R)) (j : nat) : R := (upper bounds j - lower bounds j)%R.

(** ** Selecting trajectories *)

(** The [j]-th block of [size] rows. *)
Definition block {A} (X : list A) (size j : nat) : list A := firstn size (skipn (j * size) X).

(** All pairs of elements at increasing positions. *)
Fixpoint pairs {A} (l : list A) : list (A * A) :=
  match l with [] => [] | x :: r => map (fun y => (x, y)) r ++ pairs r end.

(** Distance of two trajectories: the sum, rounded by [rnd], of the Euclidean distances between
    the points of the one and the points of the other; 0 for equal trajectories. *)
Definition point_distance (x y : list R) : R :=
  sqrt (fold_right Rplus 0%R (map (fun ab => (fst ab - snd ab) ^ 2)%R (combine x y))).
Definition is_distance (rnd : R -> R) (A B : list (list R)) (d : R) : Prop :=
  (A = B /\ d = 0%R) \/
  (A <> B /\ d = rnd (fold_right Rplus 0 (map (fun x => fold_right Rplus 0 (map (point_distance x) B)) A))%R).

(** [s] is the spread of the selection [c] of trajectories of [X]: the [score] of the distances of
    all its pairs. *)
Definition is_spread (rnd : R -> R) (score : list R -> R) (X : list (list R)) (size : nat) (c : list nat) (s : R) : Prop :=
  exists ds, Forall2 (fun ab d => is_distance rnd (block X size (fst ab)) (block X size (snd ab)) d) (pairs c) ds /\
    s = score ds.

(** [k] of the numbers below [N], in increasing order. *)
Definition selection (N k : nat) (c : list nat) : Prop :=
  length c = k /\ (forall x, In x c -> x < N) /\ StronglySorted lt c.

(** The rows of a sample with [N] trajectories of [size] points in [D > 0] dimensions. *)
Definition trajectories_of (N size D : nat) (X : list (list R)) : Prop :=
  length X = size * N /\ Forall (fun r => length r = D) X /\ 0 < D /\ 0 < size.

(** numpy's argsort: a permutation of the positions along which the values do not decrease. *)
Definition valid_argsort (argsort : list R -> list nat) : Prop :=
  forall l, Permutation (argsort l) (seq 0 (length l)) /\
    forall i j a b, i < j -> nth_error (argsort l) i = Some a -> nth_error (argsort l) j = Some b ->
      (nth a l 0 <= nth b l 0)%R.

(** ** Analysis *)

(** [e] is the elementary effect of parameter [j] along the trajectory [T] with outputs [y]: between
    the two consecutive points where coordinate [j] changes, the output at the point with the larger
    coordinate minus the output at the other, divided by [delta]. *)
Definition is_effect (delta : R) (T : list (list R)) (y : list R) (j : nat) (e : R) : Prop :=
  exists r a b, nth_error T r = Some a /\ nth_error T (r + 1) = Some b /\
    ((nth j a 0 < nth j b 0 /\ e = (nth (r + 1)%nat y 0 - nth r y 0) / delta)%R \/
     (nth j b 0 < nth j a 0 /\ e = (nth r y 0 - nth (r + 1)%nat y 0) / delta)%R).

(** The parameters with label [x]. *)
Definition members_of (ls : list string) (x : string) (js : list nat) : Prop :=
  NoDup js /\ forall j, In j js <-> nth_error ls j = Some x.

(** Points [Ts] and outputs [ys], trajectory by trajectory. *)
Definition evaluated (ls : list string) (h : nat -> R) (Ts : list (list (list R))) (ys : list (list R)) : Prop :=
  Forall (trajectory ls h) Ts /\ Forall2 (fun T y => length y = length T) Ts ys.

(** The same in the units of the parameter and of the output: the slope times the ratio of the
    standard deviations over the trajectory, 0 when the outputs are all equal. *)
Definition is_scaled_effect (h : R) (T : list (list R)) (y : list R) (j : nat) (e : R) : Prop :=
  ((forall a b, In a y -> In b y -> a = b) -> e = 0%R) /\
  ((exists a b, In a y /\ In b y /\ a <> b) ->
   exists u, is_effect h T y j u /\ e = (u * (sd (map (fun x => nth j x 0) T) / sd y))%R).

(** Rows of indices numpy's generator can draw for bootstrapping [N] trajectories. *)
Definition valid_resample (N : nat) (rs : list (list nat)) : Prop :=
  Forall (fun idx => length idx = N /\ Forall (fun t => t < N) idx) rs.

(** The statistics [out] summarise the effects [E i j] of parameter [j] in trajectory [i < N]. *)
Definition summarises (nq : R -> R) (conf_level : R) (resample : nat -> list (list nat)) (ls : list string) (N : nat)
  (E : nat -> nat -> R) (out : morris_out) : Prop :=
  first_appearance ls (m_names out) /\
  length (m_mu out) = length (m_names out) /\ length (m_mu_star out) = length (m_names out) /\
  length (m_sigma out) = length (m_names out) /\ length (m_conf out) = length (m_names out) /\
  forall k x js, nth_error (m_names out) k = Some x -> members_of ls x js ->
    nth_error (m_mu out) k = Some (Some (mean (map (fun j => mean (map (fun i => E i j) (seq 0 N))) js))) /\
    nth_error (m_mu_star out) k = Some (Some (mean (map (fun j => mean (map (fun i => Rabs (E i j)) (seq 0 N))) js))) /\
    (forall j, js = [j] -> nth_error (m_sigma out) k = Some (sd1 (map (fun i => E i j) (seq 0 N)))) /\
    (length js <> 1 -> nth_error (m_sigma out) k = Some None) /\
    (forall cs, Forall2 (fun j c => exists s,
         sd1 (map (fun idx => mean (map (fun t => Rabs (E t j)) idx)) (resample j)) = Some s /\
         c = (nq (1 / 2 + conf_level / 2) * s)%R) js cs ->
       nth_error (m_conf out) k = Some (Some (mean cs))).

(** The function [f] does not depend on the parameters labelled [x]. *)
Definition ignores (ls : list string) (x : string) (f : list R -> R) : Prop :=
  forall a b, length a = length ls -> length b = length ls ->
    (forall j, nth_error ls j <> Some x -> nth_error a j = nth_error b j) -> f a = f b.
