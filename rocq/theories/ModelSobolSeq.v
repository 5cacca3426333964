(** * Model of the Sobol' sequence generator (src/SALib/sample/sobol_sequence.py:49-100). *)
From Coq Require Import Reals List Arith NArith ZArith Bool.
From Verif Require Import Base Arrays Directions1 Directions2 Directions3 Directions4.
Import ListNotations.
Local Open Scope nat_scope.

(** src/SALib/sample/directions.py:1-21202; row = (a, m_1, ..., m_s). *)
Definition directions : list (list N) := directions1 ++ directions2 ++ directions3 ++ directions4.

(** index_of_least_significant_zero_bit, sobol_sequence.py:94-100; the while loop shifts the value
    right while its last bit is 1. *)
Fixpoint lsz_pos (p : positive) : nat :=
  match p with
  | xI q => S (lsz_pos q)
  | xO _ => 1
  | xH => 2
  end.
Definition lsz (v : N) : nat := match v with N0 => 1 | Npos p => lsz_pos p end.

(** [scale], sobol_sequence.py:51. *)
Definition scale : N := 31.

(** [V[j] = v] on the array V: IndexError out of range. *)
Definition set_V (V : list N) (j : nat) (v : N) : result (list N) :=
  if j <? length V then Ok (update V j v) else Err IndexError.

(** [x << (scale - j)]; a negative shift raises ValueError. *)
Definition shift_up (x : N) (j : nat) : result N :=
  if N.leb (N.of_nat j) scale then Ok (N.shiftl x (scale - N.of_nat j)) else Err ValueError.

(** First dimension, sobol_sequence.py:65-67. *)
Definition first_V (L : nat) : result (list N) :=
  foldM (fun V j => do v <- shift_up 1 j ;; set_V V j v) (seq 1 L) (repeat 0%N (L + 1)).

(** The initial values taken from the table, sobol_sequence.py:76-77 and 79-80. *)
Definition table_V (m : list N) (upto : nat) (V : list N) : result (list N) :=
  foldM (fun V j => do x <- get m j ;; do v <- shift_up x j ;; set_V V j v) (seq 1 upto) V.

(** One step of the recurrence, sobol_sequence.py:82-84. *)
Definition recur_V (a : N) (s : nat) (V : list N) (j : nat) : result (list N) :=
  do x <- get V (j - s) ;;
  do V <- set_V V j (N.lxor x (N.shiftr x (N.of_nat s))) ;;
  foldM (fun V k => do c <- get V j ;;
                    do y <- get V (j - k) ;;
                    set_V V j (N.lxor c (N.mul (N.land (N.shiftr a (N.of_nat (s - 1 - k))) 1) y)))
        (seq 1 (s - 1)) V.

(** Direction numbers of dimension [i], sobol_sequence.py:63-84. *)
Definition dimension_V (table : list (list N)) (L i : nat) : result (list N) :=
  if i =? 0 then first_V L
  else do m <- get table (i - 1) ;;
       do a <- get m 0 ;;
       let s := length m - 1 in
       let V := repeat 0%N (L + 1) in
       if L <=? s then table_V m L V
       else do V <- table_V m s V ;; foldM (recur_V a s) (seq (s + 1) (L - s)) V.

(** The values X for j = 1 .. N-1, sobol_sequence.py:86-89 (before the division by 2^scale). *)
Fixpoint x_values (V : list N) (X : N) (js : list nat) : result (list N) :=
  match js with
  | [] => Ok []
  | j :: r => do v <- get V (lsz (N.of_nat (j - 1))) ;;
              let X' := N.lxor X v in
              do rest <- x_values V X' r ;;
              Ok (X' :: rest)
  end.

(** [X / math.pow(2, scale)]; exact in binary floating point since X < 2^53. *)
Definition to_unit (X : N) : R := (IZR (Z.of_N X) / 2 ^ 31)%R.

(** Column [i] of the result (entry 0 keeps the zero of np.zeros). *)
Definition sequence_column (table : list (list N)) (N L i : nat) : result (list R) :=
  do V <- dimension_V table L i ;;
  do xs <- x_values V 0%N (seq 1 (N - 1)) ;;
  Ok (map to_unit (firstn N (0%N :: xs))).

(** sample, sobol_sequence.py:49-91.  [bits N] is the computed value of
    [int(math.ceil(math.log(N) / math.log(2)))]; [math.log(0)] raises ValueError. *)
Definition sequence_sample (bits : nat -> nat) (table : list (list N)) (N D : nat)
  : result (list (list R)) :=
  if length table + 1 <? D then Err ValueError
  else if N =? 0 then Err ValueError
  else if 31 <? bits N then Err ValueError
  else
    do cs <- mapM (sequence_column table N (bits N)) (seq 0 D) ;;
    Ok (tab N D (fun r c => nth r (nth c cs []) 0%R)).
