(** * Model of the extended FAST sampler and analyser
    (src/SALib/sample/fast_sampler.py, src/SALib/analyze/fast.py). *)
From Coq Require Import Reals List Arith ZArith Bool.
From Verif Require Import Base Arrays ModelGroups ModelScale Stats.
Import ListNotations.
Local Open Scope nat_scope.

(** ** Sampling *)

(** [np.floor(np.linspace(1, m, n))], fast_sampler.py:67, in exact arithmetic. *)
Definition floor_linspace (m n : nat) : list nat :=
  map (fun t => 1 + t * (m - 1) / (n - 1)) (seq 0 n).

(** The frequencies omega, fast_sampler.py:54-69: the driver frequency omega[0] and the complementary
    ones omega[1:].  M = 0 divides by zero; D = 0 makes the assignment to omega[0] fail. *)
Definition fast_frequencies (N M D : nat) : result (nat * list nat) :=
  if N <=? 4 * M ^ 2 then Err ValueError
  else if M =? 0 then Err ZeroDivisionError
  else if D =? 0 then Err IndexError
  else
    let w0 := (N - 1) / (2 * M) in
    let m := w0 / (2 * M) in
    Ok (w0, if D - 1 <=? m then floor_linspace m (D - 1)
            else map (fun t => t mod m + 1) (seq 0 (D - 1))).

(** The frequencies omega2 of block [i], fast_sampler.py:79-81; [prev] is the content left by the
    previous block. *)
Definition block_frequencies (D w0 : nat) (comp prev : list nat) (i : nat) : list nat :=
  fold_left (fun w jc => update w (fst jc) (snd jc))
            (combine (seq 0 i ++ seq (i + 1) (D - (i + 1))) comp) (update prev i w0).

(** One value of the search curve, fast_sampler.py:72 and 89, at step [k] of [N] with phase [phi]. *)
Definition search_curve (w N k : nat) (phi : R) : R :=
  (1 / 2 + 1 / PI * asin (sin (INR w * (2 * PI / INR N * INR k) + phi)))%R.

(** The loop over blocks, fast_sampler.py:78-90; [u i] is the i-th value of rng.random(). *)
Fixpoint fast_blocks (N D w0 : nat) (comp : list nat) (u : nat -> R) (prev : list nat) (is : list nat)
  : list (list R) :=
  match is with
  | [] => []
  | i :: r =>
      let w := block_frequencies D w0 comp prev i in
      map (fun k => map (fun j => search_curve (nth j w 0) N k (2 * PI * u i)%R) (seq 0 D)) (seq 0 N)
      ++ fast_blocks N D w0 comp u w r
  end.

Definition fast_unit (N M D : nat) (u : nat -> R) : result (list (list R)) :=
  do wc <- fast_frequencies N M D ;;
  let '(w0, comp) := wc in
  Ok (fast_blocks N D w0 comp u (repeat 0 D) (seq 0 D)).

(** fast_sampler.sample, fast_sampler.py:11-94. *)
Definition fast_sample (nq : R -> R) (tq : R -> R -> R -> R) (p : problem) (N M : nat) (u : nat -> R)
  : problem * result scaled :=
  match fast_unit N M (p_num_vars p) u with
  | Err e => (p, Err e)
  | Ok rs => let '(_, p', out) := scale_samples nq tq (mkMat (p_num_vars p) rs) p in (p', out)
  end.

(** ** Analysis *)

(** Real and imaginary part of coefficient [q] of [np.fft.fft(outputs)], as the exact discrete
    Fourier transform. *)
Definition dft_re (y : list R) (q : nat) : R :=
  Rsum (map (fun t => nth t y 0 * cos (2 * PI * INR q * INR t / INR (length y)))%R (seq 0 (length y))).
Definition dft_im (y : list R) (q : nat) : R :=
  (- Rsum (map (fun t => nth t y 0 * sin (2 * PI * INR q * INR t / INR (length y)))%R (seq 0 (length y))))%R.

(** [Sp], analyze/fast.py:113: squared modulus of the coefficients 1 .. ceil(N/2)-1 over N^2. *)
Definition spectrum (y : list R) : list R :=
  map (fun q => (sqrt (dft_re y q ^ 2 + dft_im y q ^ 2) / INR (length y)) ^ 2)%R
      (seq 1 ((length y + 1) / 2 - 1)).

(** Indexing with a possibly negative integer. *)
Definition py_get {A} (l : list A) (z : Z) : result A :=
  if Z.ltb z 0 then
    (if Z.ltb (Z.of_nat (length l) + z) 0 then Err IndexError
     else get l (Z.to_nat (Z.of_nat (length l) + z)))
  else get l (Z.to_nat z).

(** compute_orders, analyze/fast.py:111-122; the transform of an empty array raises ValueError. *)
Definition compute_orders (y : list R) (M w : nat) : result (fval * fval) :=
  if length y =? 0 then Err ValueError
  else
    let Sp := spectrum y in
    let V := (2 * Rsum Sp)%R in
    do h <- mapM (fun k => py_get Sp (Z.of_nat (k * w) - 1)) (seq 1 M) ;;
    do l <- mapM (get Sp) (seq 0 (w / 2)) ;;
    let D1 := (2 * Rsum h)%R in
    let Dt := (2 * Rsum l)%R in
    Ok (fdiv D1 V, match fdiv Dt V with Some x => Some (1 - x)%R | None => None end).

(** A confidence width from the resampled values, analyze/fast.py:150-152: nan as soon as one of
    them is nan; [bnd] is norm.ppf(0.5 + conf_level / 2). *)
Fixpoint all_some {A} (l : list (option A)) : option (list A) :=
  match l with
  | [] => Some []
  | None :: _ => None
  | Some x :: r => match all_some r with Some xs => Some (x :: xs) | None => None end
  end.
Definition width (bnd : R) (l : list fval) : fval :=
  match all_some l with
  | None => None
  | Some xs => match sd1 xs with Some s => Some (bnd * s)%R | None => None end
  end.

(** bootstrap, analyze/fast.py:125-153; [draws] are the index arrays given by np.random.choice, one
    per resample, each of ceil(len/2) indices. *)
Definition bootstrap (y : list R) (M : nat) (bnd : R) (draws : list (list nat)) : result (fval * fval) :=
  do rs <- mapM (fun idx => do ys <- mapM (get y) idx ;;
                            compute_orders ys M ((length ys - 1) / (2 * M))) draws ;;
  Ok (width bnd (map fst rs), width bnd (map snd rs)).

(** One row (S1, ST, S1_conf, ST_conf) of the result. *)
Record fast_row := mkFast { f_S1 : fval; f_ST : fval; f_S1c : fval; f_STc : fval }.

(** analyze, analyze/fast.py:68-108; [draws i] are the bootstrap draws made for parameter [i]. *)
Definition fast_analyze (D : nat) (Y : list R) (M : nat) (bnd : R) (draws : nat -> list (list nat))
  : result (list fast_row) :=
  if D =? 0 then Err ZeroDivisionError
  else if negb (length Y mod D =? 0) then Err ValueError
  else if M =? 0 then Err ZeroDivisionError
  else
    let N := length Y / D in
    let w0 := (N - 1) / (2 * M) in
    mapM (fun i =>
      let y := slice Y (i * N) ((i + 1) * N) in
      do o <- compute_orders y M w0 ;;
      do c <- bootstrap y M bnd (draws i) ;;
      Ok (mkFast (fst o) (snd o) (fst c) (snd c))) (seq 0 D).
