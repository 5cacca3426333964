(** * Sample files: what np.savetxt writes and np.loadtxt reads back, number by number. *)
From Coq Require Import Reals List Arith ZArith.
From Flocq Require Import Core.
From Verif Require Import Base Arrays ModelDouble.
Import ListNotations.
Local Open Scope R_scope.

Definition radix10 : radix := Build_radix 10 eq_refl.

(** The number shown by "%.{p}e" % x, the format of np.savetxt in every cli_action of the samplers (sample/morris/morris.py:468-473, sample/sobol.py:246-251,
    sample/saltelli.py:259-264, sample/latin.py:96-101, sample/fast_sampler.py:130-135, sample/ff.py:142-147, sample/finite_diff.py:117-122), where p is the option
    --precision (sample/common_args.py:28-34): p + 1 significant decimal digits, nearest to x, ties to an even last digit.  The characters are not modelled. *)
Definition printed (p : nat) (x : R) : R := round radix10 (FLX_exp (Z.of_nat p + 1)) ZnearestE x.

(** float of a text, in np.loadtxt (analyze/morris.py:646 and the other cli_actions) and in read_param_file (util/util_funcs.py:78): the double nearest to
    the number that the text shows. *)
Definition read_number (d : R) : R := fl d.

(** A number after it has been written with np.savetxt and read with np.loadtxt. *)
Definition reread (p : nat) (x : R) : R := read_number (printed p x).

(** A whole sample.  Its shape is not changed here (see [ModelFiles2] for np.loadtxt's treatment of single rows and columns). *)
Definition reread_sample (p : nat) (X : list (list R)) : list (list R) := map (map (reread p)) X.
