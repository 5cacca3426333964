(** * Model of the finite-difference sampler (src/SALib/sample/finite_diff.py) and of the DGSM
    analyser (src/SALib/analyze/dgsm.py). *)
From Coq Require Import Reals String List Arith ZArith Bool.
From Verif Require Import Base Arrays ModelGroups ModelScale Stats Sums ModelFast ModelMorrisAnalyze.
Import ListNotations.
Local Open Scope nat_scope.

(** The array scale_samples returns, as [n] rows. *)
Definition scaled_rows (n : nat) (s : scaled) : list (list fval) :=
  match s with
  | InPlace m => map (map Some) (rows m)
  | Fresh cs => map (fun i => map (fun c => nth i c None) cs) (List.seq 0 n)
  end.

(** One perturbed row, finite_diff.py:75-80: coordinate [j] is enlarged by the fraction [delta] and
    clamped; Python's min and max keep a nan first argument.  (An infinite entry, which scale_samples
    gives for a normal at 0 or 1, is also [None] here although Python would clamp it.) *)
Definition perturb (bounds : list (list R)) (delta : R) (row : list fval) (j : nat) : result (list fval) :=
  do b <- get bounds j ;;
  do x <- get row j ;;
  do hi <- get b 1 ;;
  do lo <- get b 0 ;;
  Ok (update row j (option_map (fun x => Rmax (Rmin (x + x * delta) hi) lo) x)).

(** sample, finite_diff.py:9-83; [sobol n d] is sobol_sequence.sample.  The seed is unused. *)
Definition fd_sample (nq : R -> R) (tq : R -> R -> R -> R) (sobol : nat -> nat -> result (list (list R)))
  (p : problem) (N skip : nat) (delta : R) : problem * result (list (list fval)) :=
  let D := p_num_vars p in
  match sobol (N + skip) D with
  | Err e => (p, Err e)
  | Ok base =>
    let '(_, p', out) := scale_samples nq tq (mkMat D base) p in
    (p',
     do s <- out ;;
     let rs := scaled_rows (N + skip) s in
     do blocks <- mapM (fun i => do r <- get rs i ;;
                                 do qs <- mapM (perturb (p_bounds p) delta r) (seq 0 D) ;;
                                 Ok (r :: qs)) (seq skip N) ;;
     Ok (concat blocks))
  end.

(** ** DGSM *)

(** ((perturbed - base) / x_delta) ** 2, dgsm.py:113, 122. *)
Definition slope2 (b q d : R) : fval := option_map (fun s => s ^ 2)%R (fdiv (q - b)%R d).
(** np.std of an array that may contain nan. *)
Definition fsd (l : list fval) : fval := match all_some l with Some r => Some (sd r) | None => None end.

Record dgsm_out := mkDgsm {
  d_vi : list fval; d_vi_std : list fval; d_dgsm : list fval; d_conf : list fval; d_names : list string }.

(** The body of the loop, dgsm.py:88-97, with calc_vi_stats, calc_vi_mean and calc_dgsm, 105-141:
    vi, vi_std, dgsm and dgsm_conf.  A sample with fewer rows than outputs is taken to raise ValueError
    (numpy would broadcast a strided column of one entry; not modelled).  randint raises
    ValueError for an empty range. *)
Definition dgsm_param (nq : R -> R) (bounds : list (list R)) (X : list (list R)) (Y : list R) (N D : nat) (conf_level : R)
  (resample : list (list nat)) (j : nat) : result (fval * fval * fval * fval) :=
  let step := D + 1 in
  if length X <? length Y then Err ValueError
  else
    let base := map (fun i => nth (i * step) Y 0%R) (seq 0 N) in
    let pert := map (fun i => nth (i * step + (j + 1)) Y 0%R) (seq 0 N) in
    do xb <- mapM (fun i => do r <- get X (i * step) ;; get r j) (seq 0 N) ;;
    do xp <- mapM (fun i => do r <- get X (i * step + (j + 1)) ;; get r j) (seq 0 N) ;;
    let dx := map2 (fun a b => a - b)%R xp xb in
    let slope := fun i => slope2 (nth i base 0%R) (nth i pert 0%R) (nth i dx 0%R) in
    let vi := fmean (map slope (seq 0 N)) in
    do b <- get bounds j ;;
    do hi <- get b 1 ;;
    do lo <- get b 0 ;;
    if N =? 0 then Err ValueError
    else
      let dgsm := match vi with Some v => fdiv (v * (hi - lo) ^ 2) (var base * PI ^ 2)%R | None => None end in
      let s := map (fun idx => fmean (map slope idx)) resample in
      Ok (vi, fsd (map slope (seq 0 N)), dgsm, fmul (Some (nq (1 / 2 + conf_level / 2)%R)) (fsd1 s)).

(** analyze, dgsm.py:9-102; [resample j] are the rows of indices drawn for parameter [j]. *)
Definition dgsm_analyze (nq : R -> R) (p : problem) (X : list (list R)) (Y : list R) (conf_level : R)
  (resample : nat -> list (list nat)) : result dgsm_out :=
  let D := p_num_vars p in
  if negb (length Y mod (D + 1) =? 0) then Err RuntimeError
  else if negb (Rltb 0 conf_level && Rltb conf_level 1) then Err RuntimeError
  else
    let N := length Y / (D + 1) in
    do rs <- mapM (fun j => dgsm_param nq (p_bounds p) X Y N D conf_level (resample j) j) (seq 0 D) ;;
    Ok (mkDgsm (map (fun r => fst (fst (fst r))) rs) (map (fun r => snd (fst (fst r))) rs)
          (map (fun r => snd (fst r)) rs) (map snd rs) (p_names p)).
