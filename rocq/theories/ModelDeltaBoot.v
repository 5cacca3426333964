(** * Model of the subsets that the delta analyser saves (analyze/delta.py, argument bootstrap_savedf). *)
From Coq Require Import Reals String List Arith ZArith Bool.
From Verif Require Import Base Arrays Stats Sums ModelGroups ModelFast ModelScale Quant ModelRsa ModelDelta.
Import ListNotations.
Local Open Scope nat_scope.

(** delta.py:181-183 *)
Definition parquet_path (s : string) : string := if ends_with s ".parquet" then s else (s ++ ".parquet")%string.

(** f"{name}_{mode}", delta.py:262 *)
Definition mode_name (m : mode) : string := match m with Balanced => "balanced" | Raw => "raw" | Step => "step" end.
Definition boot_key (name : string) (m : mode) : string := (name ++ "_" ++ mode_name m)%string.

(** delta.py:262-266 *)
Definition boot_column (X : list R) (ind : list nat) (y : nat) : result (list fval) :=
  if length ind =? y then do v <- take ind X ;; Ok (map Some v) else Ok (repeat None y).

(** The columns stored for one parameter, delta.py:238-267: those of the modes completed before an exception. *)
Fixpoint boot_modes (skip : mode -> bool) (bias : mode -> result (fval * fval * list nat)) (X : list R) (y : nat) (ms : list mode) : list (mode * list fval) :=
  match ms with
  | [] => []
  | m :: r =>
      if skip m then boot_modes skip bias X y r
      else match bias m with
           | Ok v => match boot_column X (snd v) y with
                     | Ok col => (m, col) :: boot_modes skip bias X y r
                     | Err _ => []
                     end
           | Err _ => []
           end
  end.
Definition boot_param (kde : list R -> list R -> result (list R)) (nq : R -> R) (dc : mode -> nat -> nat -> nat -> nat) (Y X : list R)
  (num_resamples : nat) (conf : R) (y : nat) (edges : list R) : list (mode * list fval) :=
  let m := grid_m y (classes y) in
  let Ygrid := linspace (minl Y) (maxl Y) 100 in
  let min_size := Nat.max (length X / 200) 10 in
  let few t := length (where_ t X) <? min_size in
  boot_modes (fun mo => mode_eqb mo Step && (few (fun x => leb x 0) || few (fun x => ltb 0 x)))
    (fun mo => bias_reduced kde nq (dc mo) Y Ygrid X m num_resamples conf y mo edges min_size) X y [Balanced; Raw; Step].

(** bootstrap_matrix: the assignments in order, for the columns of the sample with their names and bin edges. *)
Definition boot_matrix (kde : list R -> list R -> result (list R)) (nq : R -> R) (dc : nat -> mode -> nat -> nat -> nat -> nat) (Y : list R)
  (params : list (string * list R * list R)) (num_resamples : nat) (conf : R) (y : nat) : list (string * list fval) :=
  concat (map (fun ip => let '(name, X, edges) := snd ip in
                         map (fun mc => (boot_key name (fst mc), snd mc)) (boot_param kde nq (dc (fst ip)) Y X num_resamples conf y edges))
              (combine (seq 0 (length params)) params)).
