(** * Normalisation of the outputs of the Sobol' analysis in double precision. *)
From Coq Require Import Reals String List Arith ZArith Bool Permutation.
From Verif Require Import Base Arrays ModelGroups ModelScale ModelSobol ModelDouble.
Import ListNotations.
Local Open Scope R_scope.

(** np.sum: numpy adds up to 7 numbers from left to right, more of them in eight running sums, and sums of more than 128 recursively.  [sums_to l s]: [s] can be
    obtained from [l] by rounded additions in some arrangement. *)
Inductive sums_to : list R -> R -> Prop :=
| sums_one : forall x, sums_to [x] x
| sums_two : forall l l1 l2 a b, Permutation l (l1 ++ l2) -> sums_to l1 a -> sums_to l2 b -> sums_to l (fl (a + b)).

(** From left to right, for 1 to 7 numbers (starting from 0 changes nothing). *)
Definition sum_left (x : R) (l : list R) : R := fold_left (fun s y => fl (s + y)) l x.

(** Y.mean() and Y.std(), analyze/sobol.py:138: numpy divides the sum by the number of entries; the standard deviation is the square root of the mean of the
    squares of the differences from the mean. *)
Definition np_mean (Y : list R) (mu : R) : Prop := exists s, sums_to Y s /\ mu = fl (s / INR (length Y)).
Definition np_std (mu : R) (Y : list R) (sigma : R) : Prop :=
  exists s, sums_to (map (fun y => fl (fl (y - mu) * fl (y - mu))) Y) s /\ sigma = fl (sqrt (fl (s / INR (length Y)))).

(** analyze, analyze/sobol.py:114-236, for outputs normalised with the mean [mu] and the standard deviation [sigma] in double precision, line 138; what follows is
    exact.  With [sigma] = 0 every normalised output is taken to be nan (0/0). *)
Definition sobol_analyze_fl (mu sigma : R) (Zq : R -> R) (resample : nat -> list (list nat)) (cpus : nat)
  (p : problem) (Y : list R) (second : bool) (conf_level : R) (keep : bool)
  (workers : option (option nat)) : result Si :=
  let D := snd (extract_group_names p) in
  let step := (if second then 2 * D + 2 else D + 2)%nat in
  if negb (length Y mod step =? 0)%nat then Err RuntimeError
  else if negb (Rltb 0 conf_level && Rltb conf_level 1) then Err RuntimeError
  else
    let N := (length Y / step)%nat in
    let r := resample N in
    let R_ := length r in
    if ((0 <? D) && ((N =? 0) || (R_ =? 0)))%nat then Err ValueError
    else if Reqb sigma 0 then Ok (all_nan D R_ keep second (match workers with Some _ => true | None => false end))
    else
      let Yn := map (fun y => fl (fl (y - mu) / sigma)) Y in
      do s <- separate_output_values Yn D N second ;;
      let '(A, B, AB, BA) := s in
      match workers with
      | None => serial (Zq conf_level) A B AB BA r D R_ keep second
      | Some n => parallel (Zq conf_level) A B AB BA r D R_ keep second n cpus
      end.
