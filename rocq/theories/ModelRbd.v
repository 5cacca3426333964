(** * Model of the RBD-FAST analyser (src/SALib/analyze/rbd_fast.py). *)
From Coq Require Import Reals String List Arith ZArith Bool.
From Verif Require Import Base Arrays ModelGroups ModelScale Stats Sums ModelFast.
Import ListNotations.
Local Open Scope nat_scope.

(** [l[::2]] *)
Fixpoint every2 {A} (l : list A) : list A :=
  match l with x :: _ :: r => x :: every2 r | _ => l end.

Section Rbd.
(** np.argsort; any function that returns a sorting index list (the order of ties is left open). *)
Variable argsort : list R -> list nat.

(** permute_outputs, rbd_fast.py:108-123 *)
Definition permute_outputs (X Y : list R) : result (list R) :=
  let s := argsort X in
  mapM (get Y) (every2 s ++ rev (every2 (tl s))).

(** scipy.signal.periodogram with its defaults (constant detrending, boxcar window, one-sided density,
    fs = 1), as called at rbd_fast.py:127: the exact transform of the centred signal, squared modulus over N,
    doubled except at 0 and at the Nyquist frequency of an even number of samples. *)
Definition periodogram (y : list R) : list R :=
  let n := length y in
  if n =? 0 then []
  else
    let m := mean y in
    let c := map (fun v => v - m)%R y in
    map (fun q => let e := ((dft_re c q ^ 2 + dft_im c q ^ 2) / INR n)%R in
                  if (q =? 0) || (n =? 2 * q) then e else (2 * e)%R) (seq 0 (n / 2 + 1)).

(** compute_first_order, rbd_fast.py:126-130 *)
Definition compute_first_order (y : list R) (M : nat) : fval :=
  let P := periodogram y in
  fdiv (Rsum (slice P 1 (M + 1))) (Rsum (slice P 1 (length P))).

(** unskew_S1, rbd_fast.py:133-142: [lamb] is a Python float, so that both divisions raise. *)
Definition unskew (S1 : fval) (M N : nat) : result fval :=
  if N =? 0 then Err ZeroDivisionError
  else
    let lamb := (INR (2 * M) / INR N)%R in
    if 2 * M =? N then Err ZeroDivisionError
    else Ok (option_map (fun s => s - lamb / (1 - lamb) * (1 - s))%R S1).

(** bootstrap, rbd_fast.py:145-158; [draws] holds the index arrays given by rng.choice, of length
    int(T_data / 2) each. *)
Definition rbd_bootstrap (nq : R -> R) (Xd Y : list R) (M : nat) (conf_level : R) (draws : list (list nat)) : result fval :=
  do res <- mapM (fun idx =>
      do xs <- mapM (get Xd) idx ;;
      do ys <- mapM (get Y) idx ;;
      do py <- permute_outputs xs ys ;;
      unskew (compute_first_order py M) M (length ys)) draws ;;
  Ok (width (nq (1 / 2 + conf_level / 2)%R) res).

Record rbd_out := mkRbd { r_S1 : list fval; r_conf : list fval; r_names : list string }.

(** analyze, rbd_fast.py:13-105; [draws i] are the bootstrap draws for parameter [i]. *)
Definition rbd_analyze (nq : R -> R) (p : problem) (X : list (list R)) (Y : list R) (M : nat) (conf_level : R)
  (draws : nat -> list (list nat)) : result rbd_out :=
  do rs <- mapM (fun i =>
      do Xi <- mapM (fun r => get r i) X ;;
      do py <- permute_outputs Xi Y ;;
      do s <- unskew (compute_first_order py M) M (length Y) ;;
      do c <- rbd_bootstrap nq Xi Y M conf_level (draws i) ;;
      Ok (s, c)) (seq 0 (p_num_vars p)) ;;
  Ok (mkRbd (map fst rs) (map snd rs) (p_names p)).
End Rbd.
