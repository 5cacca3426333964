(** * Model of regional sensitivity analysis (src/SALib/analyze/rsa.py). *)
From Coq Require Import Reals String List Arith ZArith Bool.
From Verif Require Import Base Arrays ModelGroups ModelScale Stats Sums ModelFast ModelMorris ModelMorrisAnalyze Quant ModelPawn.
Import ListNotations.
Local Open Scope nat_scope.

(** scipy.stats.rankdata(z, method="average"): the rank of value [v] among [z]. *)
Definition count_lt (l : list R) (t : R) : nat := length (filter (fun x => if Rlt_dec x t then true else false) l).
Definition midrank (z : list R) (v : R) : R := (INR (count_lt z v) + (INR (count_le z v - count_lt z v) + 1) / 2)%R.

(** sum((r - arange(1, n + 1))**2) *)
Definition rank_gap (z a : list R) : R :=
  Rsum (map (fun i => (midrank z (nth i a 0) - INR (i + 1)) ^ 2)%R (seq 0 (length a))).

(** scipy.stats.cramervonmises_2samp(x, y).statistic: both samples need two observations. *)
Definition cvm_2samp (x y : list R) : result R :=
  if (length x <=? 1) || (length y <=? 1) then Err ValueError
  else
    let xa := sortR x in
    let ya := sortR y in
    let z := xa ++ ya in
    let nx := INR (length x) in
    let ny := INR (length y) in
    let u := (nx * rank_gap z xa + ny * rank_gap z ya)%R in
    let k := (nx * ny)%R in
    let N := (nx + ny)%R in
    Ok (u / (k * N) - (4 * k - 1) / (6 * N))%R.

(** np.unique(l).size *)
Fixpoint distinct (l : list R) : nat :=
  match l with
  | [] => 0
  | x :: r => (if in_dec Req_EM_T x r then 0 else 1) + distinct r
  end.

(** _has_samples, rsa.py:177-189 *)
Definition has_samples (y : list R) (sel : list bool) : result bool :=
  if existsb (fun b => b) sel then
    do out <- select (map negb sel) y ;;
    if length out =? 0 then Ok false
    else do inn <- select sel y ;; Ok (1 <? distinct inn)
  else Ok false.

(** One cell, rsa.py:161-163 and 168-170. *)
Definition rsa_cell (y m : list R) (b : list bool) : result fval :=
  do ok <- has_samples y b ;;
  if ok then
    do inn <- select b m ;;
    do out <- select (map negb b) m ;;
    do t <- cvm_2samp inn out ;; Ok (Some t)
  else Ok None.

(** Membership of bin [s], rsa.py:158-167: the first bin includes its lower end. *)
Definition rsa_bin (quants : nat -> R) (t : list R) (s : nat) : list bool :=
  map (fun x => (if s =? 0 then (if Rle_dec (quants 0) x then true else false)
                 else (if Rlt_dec (quants s) x then true else false))
                && (if Rle_dec x (quants (s + 1)) then true else false)) t.

(** One parameter, rsa.py:152-170; [np.append(np.arange(0, 1, 1/bins), 1)] in exact arithmetic is k/bins;
    np.quantile of an empty array raises IndexError. *)
Definition rsa_column (Xi y : list R) (bins : nat) (target : string) : result (list fval) :=
  do tm <- (if String.eqb target "X" then Ok (Xi, y)
            else if String.eqb target "Y" then Ok (y, Xi) else Err UnboundLocalError) ;;
  let '(t, m) := tm in
  match t with
  | [] => Err IndexError
  | _ => let quants := fun k => quantile t (INR k / INR bins) in
         mapM (fun s => rsa_cell y m (rsa_bin quants t s)) (seq 0 bins)
  end.

(** rsa, rsa.py:136-174, as the list of the columns of r_s. *)
Definition rsa (X : mat R) (y : list R) (bins : nat) (target : string) : result (list (list fval)) :=
  if bins =? 0 then Err ZeroDivisionError
  else mapM (fun d => do Xi <- mapM (fun r => get r d) (rows X) ;; rsa_column Xi y bins target) (seq 0 (cols X)).

(** Entries of the result dictionary. *)
Inductive rsa_entry := Values (v : list fval) | Names (l : list string) | Bins (l : list R) | Target (t : string).
Definition rsa_dict := list (string * rsa_entry).
Fixpoint dict_set (d : rsa_dict) (k : string) (v : rsa_entry) : rsa_dict :=
  match d with
  | [] => [(k, v)]
  | (k', v') :: r => if String.eqb k' k then (k, v) :: r else (k', v') :: dict_set r k v
  end.
Fixpoint dict_get (d : rsa_dict) (k : string) : option rsa_entry :=
  match d with [] => None | (k', v) :: r => if String.eqb k' k then Some v else dict_get r k end.

(** np.nanmean over a row of the selected columns, rsa.py:120; nan when all are. *)
Definition nanmean (l : list fval) : fval := match numbers l with [] => None | v => Some (mean v) end.

(** The group aggregation, rsa.py:114-123: the mask compares the distinct labels, not the
    parameters' labels, with the group. *)
Definition rsa_groups (names : list string) (bins : nat) (results : list (list fval)) : result (list (list fval)) :=
  mapM (fun grp =>
    do sel <- select (map (fun x => String.eqb x grp) names) results ;;
    Ok (map (fun s => nanmean (map (fun c => nth s c None) sel)) (seq 0 bins))) names.

(** analyze, rsa.py:13-133. *)
Definition rsa_analyze (p : problem) (X : mat R) (Y : list R) (bins : nat) (target : string) : result rsa_dict :=
  do results <- rsa X Y bins target ;;
  let names := fst (extract_group_names p) in
  do results <- match check_groups p with Some _ => rsa_groups names bins results | None => Ok results end ;;
  do vals <- mapM (fun i => get results i) (seq 0 (length names)) ;;
  let d := fold_left (fun d kv => dict_set d (fst kv) (snd kv)) (combine names (map Values vals)) [] in
  Ok (dict_set (dict_set (dict_set d "names" (Names names)) "bins"
        (Bins (map (fun k => INR k / INR bins)%R (seq 0 bins)))) "target" (Target target)).

(** to_df, rsa.py:192-207: one column per name, in that order; pandas fills the columns it does not find with
    nan ([None]).  The keys "names", "bins" and "target" are left out. *)
Definition rsa_to_df (d : rsa_dict) : result (list (string * option (list fval))) :=
  match dict_get d "names" with
  | Some (Names names) =>
      Ok (map (fun n => (n, if existsb (String.eqb n) ["names"; "bins"; "target"]%string then None
                            else match dict_get d n with Some (Values v) => Some v | _ => None end)) names)
  | _ => Err KeyError
  end.
