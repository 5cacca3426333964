(** * Model of seed handling in the samplers and analysers. *)
From Coq Require Import List Arith ZArith Bool.
From Verif Require Import Base.
Set Implicit Arguments.
Import ListNotations.

(** Values passed as [seed].  Lists and tuples are [SList]; one-dimensional integer arrays are [SArray]; objects are identified by a number.
    Strings and other classes are not modelled. *)
Inductive seedval :=
  | SNone | SBool (b : bool) | SInt (z : Z) | SNpInt (z : Z) | SFloat (zero : bool)
  | SList (l : list Z) | SArray (l : list Z)
  | SGenerator (k : nat) | SBitGenerator (k : nat) | SSeedSequence (k : nat).

Section Seeds.
(** States of a modern bit generator and of numpy's global legacy generator. *)
Variables bits legacy : Type.

(** What numpy does with integers and with the operating system's entropy. *)
Record numpy := mkNumpy {
  seed_int : Z -> legacy;
  seed_list : list Z -> legacy;
  rng_int : Z -> bits;
  rng_list : list Z -> bits;
  rng_entropy : nat -> bits }.

(** A Generator object: the state of its stream, the states of the children it can spawn, and how many it has spawned. *)
Record generator := mkGenerator { g_bits : bits; g_children : nat -> bits; g_spawned : nat }.

Record world := mkWorld {
  w_global : legacy;
  w_entropy : nat;
  w_gens : nat -> generator;
  w_bitgens : nat -> bits;
  w_seqs : nat -> bits (* the generator that a SeedSequence leads to *) }.

Definition set_global (w : world) (s : legacy) : world := mkWorld s (w_entropy w) (w_gens w) (w_bitgens w) (w_seqs w).
Definition set_gen (w : world) (k : nat) (g : generator) : world :=
  mkWorld (w_global w) (w_entropy w) (fun i => if i =? k then g else w_gens w i) (w_bitgens w) (w_seqs w).
Definition set_bitgen (w : world) (k : nat) (b : bits) : world :=
  mkWorld (w_global w) (w_entropy w) (w_gens w) (fun i => if i =? k then b else w_bitgens w i) (w_seqs w).

Variable np : numpy.

(** Python's truth value of [seed]. *)
Definition truthy (s : seedval) : result bool :=
  match s with
  | SNone => Ok false
  | SBool b => Ok b
  | SInt z | SNpInt z => Ok (negb (Z.eqb z 0))
  | SFloat zero => Ok (negb zero)
  | SList l => Ok (negb (length l =? 0))
  | SArray [] => Ok false
  | SArray [z] => Ok (negb (Z.eqb z 0))
  | SArray _ => Err ValueError
  | SGenerator _ | SBitGenerator _ | SSeedSequence _ => Ok true
  end.

Definition word (z : Z) : bool := Z.leb 0 z && Z.ltb z (2 ^ 32).

(** np.random.seed, for the values that reach it. *)
Definition np_seed (s : seedval) (w : world) : result world :=
  match s with
  | SInt z | SNpInt z | SArray [z] => if word z then Ok (set_global w (seed_int np z)) else Err ValueError
  | SBool b => Ok (set_global w (seed_int np (if b then 1 else 0)%Z))
  | SList l | SArray l => if (length l =? 0) || negb (forallb word l) then Err ValueError else Ok (set_global w (seed_list np l))
  | SNone => Ok w
  | SFloat _ | SGenerator _ | SBitGenerator _ | SSeedSequence _ => Err TypeError
  end.

(** A generator at hand: one of its own or an object that the caller also holds. *)
Inductive handle := Own (b : bits) | GenObject (k : nat) | BitObject (k : nat).

Definition read (h : handle) (w : world) : bits :=
  match h with Own b => b | GenObject k => g_bits (w_gens w k) | BitObject k => w_bitgens w k end.
Definition write (h : handle) (b : bits) (w : world) : world :=
  match h with
  | Own _ => w
  | GenObject k => set_gen w k (mkGenerator b (g_children (w_gens w k)) (g_spawned (w_gens w k)))
  | BitObject k => set_bitgen w k b
  end.

Definition entropy (w : world) : handle * world :=
  (Own (rng_entropy np (w_entropy w)), mkWorld (w_global w) (S (w_entropy w)) (w_gens w) (w_bitgens w) (w_seqs w)).

(** np.random.default_rng. *)
Definition default_rng (s : seedval) (w : world) : result (handle * world) :=
  match s with
  | SNone => Ok (entropy w)
  | SInt z | SNpInt z => if Z.ltb z 0 then Err ValueError else Ok (Own (rng_int np z), w)
  | SBool b => Ok (Own (rng_int np (if b then 1 else 0)%Z), w)
  | SFloat _ => Err TypeError
  | SList l | SArray l => if existsb (fun z => Z.ltb z 0) l then Err ValueError else Ok (Own (rng_list np l), w)
  | SGenerator k => Ok (GenObject k, w)
  | SBitGenerator k => Ok (BitObject k, w)
  | SSeedSequence k => Ok (Own (w_seqs w k), w)
  end.

(** handle_seed, util/util_funcs.py:184-202. *)
Definition handle_seed (s : seedval) (w : world) : result (handle * world) :=
  match s with
  | SGenerator k =>
      let g := w_gens w k in
      Ok (Own (g_children g (g_spawned g)), set_gen w k (mkGenerator (g_bits g) (g_children g) (S (g_spawned g))))
  | SNpInt _ | SFloat _ => Err ValueError
  | _ => default_rng s w
  end.

(** ** The functions with a seed; [body] is the rest of the function as a program over the generator that it draws from. *)

Definition outcome (A : Type) : Type := result A * world.

(** [if seed: np.random.seed(seed)] followed by draws from the global generator:
    analyze/fast.py:68-69, analyze/dgsm.py:58-59, analyze/delta.py:162-163, analyze/enhanced_hdmr.py:199-200. *)
Definition global_call {A} (body : legacy -> result A * legacy) (s : seedval) (w : world) : outcome A :=
  match truthy s with
  | Err e => (Err e, w)
  | Ok t =>
      match (if t then np_seed s w else Ok w) with
      | Err e => (Err e, w)
      | Ok w => let '(r, g) := body (w_global w) in (r, set_global w g)
      end
  end.

(** The same lines in functions that draw nothing: analyze/ff.py:71-72, analyze/pawn.py:106-107. *)
Definition global_undrawn {A} (r : result A) (s : seedval) (w : world) : outcome A := global_call (fun g => (r, g)) s w.

(** [rng = handle_seed(seed)]: analyze/morris.py:136, analyze/rbd_fast.py:86, sample/latin.py:46, sample/morris/morris.py:129,
    sample/fast_sampler.py:52. *)
Definition rng_call {A} (body : bits -> result A * bits) (s : seedval) (w : world) : outcome A :=
  match handle_seed s w with
  | Err e => (Err e, w)
  | Ok (h, w) => let '(r, b) := body (read h w) in (r, write h b w)
  end.

(** The same line in functions that draw nothing: sample/ff.py:119, sample/finite_diff.py:55. *)
Definition rng_undrawn {A} (r : result A) (s : seedval) (w : world) : outcome A := rng_call (fun b => (r, b)) s w.

(** analyze/sobol.py:113-117 and 144. *)
Definition sobol_call {A} (modern : bits -> result A * bits) (old : legacy -> result A * legacy) (s : seedval) (w : world) : outcome A :=
  match truthy s with
  | Err e => (Err e, w)
  | Ok true =>
      match default_rng s w with
      | Err e => (Err e, w)
      | Ok (h, w) => let '(r, b) := modern (read h w) in (r, write h b w)
      end
  | Ok false => let '(r, g) := old (w_global w) in (r, set_global w g)
  end.

(** analyze/hdmr.py:180-181 and 384: the generator is made and not used. *)
Definition hdmr_call {A} (body : legacy -> result A * legacy) (s : seedval) (w : world) : outcome A :=
  match truthy s with
  | Err e => (Err e, w)
  | Ok t =>
      match (if t then handle_seed s w else Ok (Own (rng_entropy np 0), w)) with
      | Err e => (Err e, w)
      | Ok (_, w) => let '(r, g) := body (w_global w) in (r, set_global w g)
      end
  end.

(** analyze/rsa.py and analyze/discrepancy.py take a seed and ignore it. *)
Definition ignored_call {A} (r : result A) (s : seedval) (w : world) : outcome A := (r, w).

(** sample/sobol.py:107: scipy.stats.qmc.Sobol checks the seed; without scrambling it draws nothing. *)
Definition qmc_call {A} (scramble : bool) (body : bits -> result A * bits) (plain : result A) (s : seedval) (w : world) : outcome A :=
  match s with
  | SNone | SBool _ | SInt _ | SNpInt _ | SGenerator _ =>
      match default_rng s w with
      | Err e => (Err e, w)
      | Ok (h, w) => if scramble then let '(r, b) := body (read h w) in (r, write h b w) else (plain, w)
      end
  | _ => (Err ValueError, w)
  end.

End Seeds.
