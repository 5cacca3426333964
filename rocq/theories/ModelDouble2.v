(** * The Morris sampler and the signs its analyser sees, in double precision. *)
From Coq Require Import Reals String List Arith ZArith Bool.
From Verif Require Import Base Arrays ModelGroups ModelScale ModelMorris ModelMorrisAnalyze ModelDouble.
Import ListNotations.
Local Open Scope R_scope.

(** _scale_samples, util/__init__.py:25-53: the product with the widths and the sum with the lower bounds are written to the array one after the other. *)
Definition scale_inplace_fl (m : mat R) (bounds : list (list R)) : result (mat R) :=
  match check_bounds bounds with
  | Err e => Err e
  | Ok lu =>
    if any_illegal lu then Err ValueError
    else match broadcast (cols m) lu with
         | Err e => Err e
         | Ok v => Ok (inplace (fun x b => fl (x + fst b)) (inplace (fun x b => fl (x * fl (snd b - fst b))) m v) v)
         end
  end.

(** sample, sample/morris/morris.py:24-150, without optimisation of the trajectories and without distributions. *)
Definition morris_sample_fl (p : problem) (N levels : nat) (draws : nat -> draw) : result (mat R) :=
  do p1 <- define_problem_with_groups p ;;
  let groups := match p_groups p1 with Some g => g | None => [] end in
  do X <- sample_morris_fl groups N levels draws ;;
  match p_dists p1 with
  | Some _ => Err ValueError
  | None => scale_inplace_fl (mkMat (length groups) X) (p_bounds p1)
  end.

(** delta_variables > 0 and < 0, analyze/morris.py:381-383, 440-458, with the subtraction rounded. *)
Definition increased_fl (size : nat) (X : list (list R)) (i k j : nat) : bool := Rltb 0 (fl (x_at size X i (k + 1) j - x_at size X i k j)).
Definition decreased_fl (size : nat) (X : list (list R)) (i k j : nat) : bool := Rltb (fl (x_at size X i (k + 1) j - x_at size X i k j)) 0.
