(** * The warnings of the Sobol' samplers. *)
From Coq Require Import Reals List Arith ZArith Bool.
From Flocq Require Import Core.
From Verif Require Import Base ModelDouble ModelSobolSeq.
Import ListNotations.
Local Open Scope nat_scope.

(** The messages: saltelli.py:97-102 (deprecation), 105-110 (N), 122-127 and sample/sobol.py:112-117 (skip_values not a power of two), saltelli.py:133-139 and
    sample/sobol.py:123-129 (fewer points skipped than drawn), saltelli.py:140-141 (nothing skipped). *)
Inductive warning : Type := Deprecated | NotPowerN | NotPowerSkip | FewSkipped | NoneSkipped.

(** [not ((M & (M - 1) == 0) and (M != 0 and M - 1 != 0))], sample/sobol.py:111, saltelli.py:105 and 121. *)
Definition flagged (M : Z) : bool := negb ((Z.land M (M - 1) =? 0)%Z && (negb (M =? 0)%Z && negb (M - 1 =? 0)%Z)).

(** [int(np.log2(n))], sample/sobol.py:121-122, with [lg2] for np.log2; [int(math.log(n, 2))], saltelli.py:131-132, with [lg] for math.log: Python divides
    the two natural logarithms.  For n >= 1. *)
Definition np_exp (lg2 : R -> R) (n : nat) : Z := Ztrunc (lg2 (INR n)).
Definition math_exp (lg : R -> R) (n : nat) : Z := Ztrunc (fl (lg (INR n) / lg 2%R)).

(** The warnings about a positive [M] skipped for [N] points; [n_exp] computes the exponents.  N = 0 raises at the first of the two logarithms, after the first
    warning (ModelSobol). *)
Definition skip_warnings (n_exp : nat -> Z) (N : nat) (M : Z) : list warning :=
  (if flagged M then [NotPowerSkip] else []) ++
  (if N =? 0 then [] else if (n_exp (Z.to_nat M) <? n_exp N)%Z then [FewSkipped] else []).

(** What sobol.sample (sample/sobol.py:109-131) and saltelli.sample (saltelli.py:97-145) issue before the samples are drawn, in order.  The warnings of
    scipy's generator are not modelled. *)
Definition sobol_warnings (lg2 : R -> R) (N : nat) (skip : Z) : list warning :=
  if (0 <? skip)%Z then skip_warnings (np_exp lg2) N skip else [].
Definition saltelli_warnings (lg : R -> R) (N : nat) (skip : option Z) : list warning :=
  Deprecated :: (if flagged (Z.of_nat N) then [NotPowerN] else []) ++
  match skip with
  | None => []
  | Some z => if (0 <? z)%Z then skip_warnings (math_exp lg) N z else if (z =? 0)%Z then [NoneSkipped] else []
  end.

(** The rows sobol_sequence.sample gives saltelli.sample (saltelli.py:157), for a call that does not raise. *)
Definition drawn_sequence (bits : nat -> nat) (table : list (list BinNums.N)) (D : nat) (n : nat) : list (list R) :=
  match sequence_sample bits table n (2 * D) with Ok rs => rs | Err _ => [] end.
