(** * The DGSM analyser in double precision. *)
From Coq Require Import Reals String List Arith ZArith Bool.
From Verif Require Import Base Arrays ModelGroups ModelScale Stats ModelFast ModelMorrisAnalyze ModelDgsm ModelDouble ModelDouble4 ModelDouble5.
Import ListNotations.
Local Open Scope nat_scope.

Section Dgsm.
Variable arr : nat -> tree.      (* numpy's arrangement of sums *)
Variable square : R -> R.        (* Python's x ** 2 for a float, computed by C's pow *)
Variable pi2 : R.                (* np.pi ** 2 *)
Variable nq : R -> R.

(** ((perturbed - base) / x_delta) ** 2, dgsm.py:113, 122; numpy squares an array by one multiplication. *)
Definition slope2_fl (b q d : R) : fval := option_map (fun s => fl (s * s)) (fdiv_fl (fl (q - b)) d).
Definition fsd_fl (l : list fval) : fval := option_map (std_fl arr) (all_some l).

(** The body of the loop, dgsm.py:88-97, with calc_vi_stats, calc_vi_mean and calc_dgsm, 105-141; see [dgsm_param]. *)
Definition dgsm_param_fl (bounds : list (list R)) (X : list (list R)) (Y : list R) (N D : nat) (conf_level : R) (resample : list (list nat)) (j : nat) :
  result (fval * fval * fval * fval) :=
  let step := D + 1 in
  if length X <? length Y then Err ValueError
  else
    let base := map (fun i => nth (i * step) Y 0%R) (seq 0 N) in
    let pert := map (fun i => nth (i * step + (j + 1)) Y 0%R) (seq 0 N) in
    do xb <- mapM (fun i => do r <- get X (i * step) ;; get r j) (seq 0 N) ;;
    do xp <- mapM (fun i => do r <- get X (i * step + (j + 1)) ;; get r j) (seq 0 N) ;;
    let dx := map2 (fun a b => fl (a - b)) xp xb in
    let slope := fun i => slope2_fl (nth i base 0%R) (nth i pert 0%R) (nth i dx 0%R) in
    let vi := fmean_fl arr (map slope (seq 0 N)) in
    do b <- get bounds j ;;
    do hi <- get b 1 ;;
    do lo <- get b 0 ;;
    if N =? 0 then Err ValueError
    else
      let dgsm := match vi with Some v => fdiv_fl (fl (v * square (fl (hi - lo)))) (fl (var_fl arr base * pi2)) | None => None end in
      let s := map (fun idx => fmean_fl arr (map slope idx)) resample in
      Ok (vi, fsd_fl (map slope (seq 0 N)), dgsm, fmul_fl (Some (nq (fl (/ 2 + fl (conf_level / 2))%R))) (fsd1_fl arr s)).

(** analyze, dgsm.py:9-102. *)
Definition dgsm_analyze_fl (p : problem) (X : list (list R)) (Y : list R) (conf_level : R) (resample : nat -> list (list nat)) : result dgsm_out :=
  let D := p_num_vars p in
  if negb (length Y mod (D + 1) =? 0) then Err RuntimeError
  else if negb (Rltb 0 conf_level && Rltb conf_level 1) then Err RuntimeError
  else
    let N := length Y / (D + 1) in
    do rs <- mapM (fun j => dgsm_param_fl (p_bounds p) X Y N D conf_level (resample j) j) (seq 0 D) ;;
    Ok (mkDgsm (map (fun r => fst (fst (fst r))) rs) (map (fun r => snd (fst (fst r))) rs)
          (map (fun r => snd (fst r)) rs) (map snd rs) (p_names p)).
End Dgsm.
