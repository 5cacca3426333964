(** * Shapes of arrays read from files, and the analysers that get them. *)
From Coq Require Import Reals String List Arith ZArith Bool.
From Verif Require Import Base Arrays ModelGroups ModelScale Stats ModelMorrisAnalyze Quant ModelPawn ModelRbd ModelRsa ModelDiscrepancy ModelCli.
Import ListNotations.
Local Open Scope nat_scope.

Inductive array := Scalar (x : R) | Vector (v : list R) | Matrix (m : mat R).

(** usecols=(args.column,), e.g. analyze/pawn.py:192-194: one column, counted from the end if negative. *)
Definition pick (t : mat R) (c : Z) : result (list R) :=
  let i := if (c <? 0)%Z then (c + Z.of_nat (cols t))%Z else c in
  if ((i <? 0) || (Z.of_nat (cols t) <=? i))%Z then Err ValueError else mapM (fun r => get r (Z.to_nat i)) (rows t).

(** np.squeeze (within np.loadtxt) of a two-dimensional array: dimensions of length 1 go. *)
Definition squeeze (t : mat R) : array :=
  match length (rows t) =? 1, cols t =? 1 with
  | true, true => Scalar (nth 0 (nth 0 (rows t) []) 0%R)
  | true, false => Vector (nth 0 (rows t) [])
  | false, true => Vector (map (fun r => nth 0 r 0%R) (rows t))
  | false, false => Matrix t
  end.

(** np.loadtxt(file, delimiter, usecols, ndmin) for a file with at least one row: the array is squeezed if it has more than [ndmin] dimensions
    (ndmin is 0 or 2 in the sources: e.g. analyze/pawn.py:191-194, analyze/morris.py:642-646). *)
Definition loadtxt (t : mat R) (column : option Z) (ndmin : nat) : result array :=
  do t' <- match column with None => Ok t | Some c => do v <- pick t c ;; Ok (mkMat 1 (map (fun x => [x]) v)) end ;;
  Ok (if 2 <=? ndmin then Matrix t' else squeeze t').

(** The table of an argument of a call on the command line ([ModelCli]); [files] is what the files contain. *)
Definition load (files : aval -> mat R) (v : aval) : result array :=
  match v with
  | VTable f _ None n => loadtxt (files f) None n
  | VTable f _ (Some (VInt c)) n => loadtxt (files f) (Some c) n
  | _ => Err TypeError
  end.

(** ** Analysers applied to arrays of any shape, for at least one parameter and a vector of outputs *)

(** analyze/pawn.py:106-114: X[:, d_i] of an array with fewer dimensions raises IndexError. *)
Definition pawn_array (p : problem) (X : array) (Y : list R) (S : nat) : result pawn_out :=
  if S =? 0 then Err ZeroDivisionError
  else match X with Matrix m => pawn_analyze p (map (map Some) (rows m)) Y S | _ => Err IndexError end.
(** analyze/rbd_fast.py:95-99: X[:, i]. *)
Definition rbd_array argsort nq (p : problem) (X : array) (Y : list R) (M : nat) (conf_level : R) draws : result rbd_out :=
  match X with Matrix m => rbd_analyze argsort nq p (rows m) Y M conf_level draws | _ => Err IndexError end.
(** analyze/rsa.py:106, 136-137: N, D = X.shape. *)
Definition rsa_array (p : problem) (X : array) (Y : list R) (bins : nat) (target : string) : result rsa_dict :=
  match X with Matrix m => rsa_analyze p m Y bins target | _ => Err ValueError end.
(** analyze/discrepancy.py:90-91: qmc.scale raises ValueError if the sample is not two-dimensional. *)
Definition disc_array (disc : list (R * R) -> result R) (p : problem) (X : array) (Y : list R) : result disc_out :=
  match X with Matrix m => disc_analyze disc p m Y | _ => do lu <- bounds_columns (p_bounds p) ;; Err ValueError end.
