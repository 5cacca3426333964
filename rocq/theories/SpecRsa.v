(** * Specification vocabulary for regional sensitivity analysis. *)
From Coq Require Import Reals String List Arith Permutation.
From Verif Require Import Base Arrays ModelScale Stats Quant ModelRsa.
Import ListNotations.
Local Open Scope nat_scope.

(** A value that belongs to bin [s] of the cut points [c]: (c_s, c_{s+1}], the first bin with its lower end. *)
Definition in_bin (c : nat -> R) (s : nat) (x : R) : Prop :=
  (s = 0 -> (c 0%nat <= x)%R) /\ (0 < s -> (c s < x)%R) /\ (x <= c (s + 1)%nat)%R.

(** The entries of [m] at the places where [t] has, or has not, a property. *)
Definition inside (keep : R -> bool) (t m : list R) : list R := map snd (filter (fun tm => keep (fst tm)) (combine t m)).
Definition outside (keep : R -> bool) (t m : list R) : list R := map snd (filter (fun tm => negb (keep (fst tm))) (combine t m)).

Definition two_different (l : list R) : Prop := exists a b, In a l /\ In b l /\ a <> b.

(** The mid-rank of [v] among [z]: the values below count 1, the equal ones 1/2, plus 1/2. *)
Definition rank_in (z : list R) (v : R) : R :=
  (Rsum (map (fun w => if Rlt_dec w v then 1 else if Req_EM_T w v then 1/2 else 0) z) + 1 / 2)%R.
(** The Cramer-von Mises statistic of two samples, by mid-ranks. *)
Definition cvm_is (x y : list R) (v : R) : Prop :=
  exists a b, ascending a /\ Permutation a x /\ ascending b /\ Permutation b y /\
    let n := INR (length x) in let m := INR (length y) in
    let gap := fun l => Rsum (map (fun i => (rank_in (x ++ y) (nth i l 0) - INR (i + 1)) ^ 2)%R (seq 0 (length l))) in
    v = ((n * gap a + m * gap b) / (n * m * (n + m)) - (4 * (n * m) - 1) / (6 * (n + m)))%R.

(** What a bin must give: nan unless the outputs inside vary and something is outside; the statistic if at least
    two runs are outside; an error if exactly one is. *)
Definition bin_cell (c : nat -> R) (t y m : list R) (s : nat) (r : result fval) : Prop :=
  exists keep, (forall x, keep x = true <-> in_bin c s x) /\
    let yi := inside keep t y in let mi := inside keep t m in let mo := outside keep t m in
    (mo = [] \/ ~ two_different yi -> r = Ok None) /\
    (two_different yi -> length mo = 1 -> r = Err ValueError) /\
    (two_different yi -> 2 <= length mo -> exists v, r = Ok (Some v) /\ cvm_is mi mo v).

(** Column [d] of a sample. *)
Definition col (X : list (list R)) (d : nat) : list R := map (fun r => nth d r 0%R) X.
(** A sample with D columns and one output per run, at least one run. *)
Definition rsa_input (X : mat R) (y : list R) : Prop := wf_mat X /\ length (rows X) = length y /\ y <> [].

(** Which array is binned ([t]) and which is compared ([m]) for parameter [d]. *)
Definition roles (target : string) (X : mat R) (y : list R) (d : nat) (t m : list R) : Prop :=
  (target = "X"%string /\ t = col (rows X) d /\ m = y) \/ (target = "Y"%string /\ t = y /\ m = col (rows X) d).

(** What the result holds for the labels [ns] and the table [r], a column of [bins] values per parameter. *)
Definition reported (d : rsa_dict) (ns : list string) (bins : nat) (target : string) (r : list (list fval)) : Prop :=
  dict_get d "names" = Some (Names ns) /\ dict_get d "bins" = Some (Bins (map (fun k => INR k / INR bins)%R (seq 0 bins))) /\
  dict_get d "target" = Some (Target target) /\
  forall i n, nth_error ns i = Some n -> ~ In n ["names"; "bins"; "target"]%string -> dict_get d n = Some (Values (nth i r [])).

Definition increasing (g : R -> R) : Prop := forall x y, (x < y)%R -> (g x < g y)%R.
(** Rescaling the columns of a sample. *)
Definition recol (g : nat -> R -> R) (X : mat R) : mat R := mkMat (cols X) (map (fun r => map (fun d => g d (nth d r 0%R)) (seq 0 (cols X))) (rows X)).
