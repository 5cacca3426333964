(** * Model of the Sobol'/Saltelli samplers and of the Sobol' analyser. *)
From Coq Require Import Reals String List Arith ZArith Bool.
From Verif Require Import Base Arrays ModelGroups ModelScale Stats.
Import ListNotations.
Local Open Scope nat_scope.

(** ** Sampling: src/SALib/sample/sobol.py:103-189, src/SALib/sample/saltelli.py:147-203 *)

(** The test [(not groups and j == k) or (groups and group_names[k] == groups[j])],
    sample/sobol.py:161, 173-175 = saltelli.py:176, 187-189.  Missing labels: IndexError. *)
Definition takes_other (groups : option (list string)) (group_names : list string) (k j : nat)
  : result bool :=
  match groups with
  | None => Ok (j =? k)
  | Some g => do a <- get group_names k ;; do b <- get g j ;; Ok (String.eqb a b)
  end.

(** [Dg] and the group names, sample/sobol.py:139-143 = saltelli.py:150-154. *)
Definition sampler_groups (p : problem) : result (nat * list string) :=
  match check_groups p with
  | None => Ok (p_num_vars p, [])
  | Some g => do mn <- compute_groups_matrix g ;; Ok (set_size (snd mn), snd mn)
  end.

Section Layout.
Context {A : Type}.

(** The row built by one of the inner [for j in range(D)] loops that cross-sample:
    [first] is the column offset used when the test holds, [second] otherwise
    (AB: B-columns offset D, else offset 0; BA: the converse),
    sample/sobol.py:160-164 and 172-178 = saltelli.py:175-179 and 186-192. *)
Definition cross_row (base_i : list A) (groups : option (list string)) (names : list string)
  (D k on_true on_false : nat) : result (list A) :=
  mapM (fun j => do t <- takes_other groups names k j ;;
                 get base_i (if (t : bool) then j + on_true else j + on_false)) (seq 0 D).

(** Copying columns [off .. off+D-1] of the base row, sample/sobol.py:153-154 and 183-184
    = saltelli.py:168-169 and 198-199. *)
Definition copy_row (base_i : list A) (D off : nat) : result (list A) :=
  mapM (fun j => get base_i (j + off)) (seq 0 D).

(** One iteration of the loop over base rows, sample/sobol.py:151-186 = saltelli.py:166-201. *)
Definition sample_block (base : list (list A)) (groups : option (list string))
  (names : list string) (D Dg : nat) (second : bool) (st : buffer A) (i : nat)
  : result (buffer A) :=
  do b <- get base i ;;
  do a_row <- copy_row b D 0 ;;
  do st <- write_row st a_row ;;
  do st <- foldM (fun st k => do r <- cross_row b groups names D k D 0 ;; write_row st r)
                 (seq 0 Dg) st ;;
  do st <- (if second
            then foldM (fun st k => do r <- cross_row b groups names D k 0 D ;; write_row st r)
                       (seq 0 Dg) st
            else Ok st) ;;
  do b_row <- copy_row b D D ;;
  write_row st b_row.

(** The whole array before scaling; [base_rows] is the range of base rows used
    ([range(N)] in sample/sobol.py:151, [range(skip, N + skip)] in saltelli.py:166) and [zero]
    the initial value of the preallocated array (sample/sobol.py:145-149). *)
Definition cross_sample (zero : A) (base : list (list A)) (base_rows : list nat) (p : problem)
  (second : bool) : result (list (list A)) :=
  let D := p_num_vars p in
  let groups := check_groups p in
  do dn <- sampler_groups p ;;
  let '(Dg, names) := dn in
  let N := length base_rows in
  let total := (if second then 2 * Dg + 2 else Dg + 2) * N in
  do st <- foldM (sample_block base groups names D Dg second) base_rows
                 (0, repeat (repeat zero D) total) ;;
  Ok (snd st).
End Layout.

(** sample/sobol.py:103-189 for an integer [skip_values].  [qrng skip N] stands for the
    N rows of scipy's Sobol' engine (2D columns) after fast-forwarding by [skip];
    the convergence warnings (111-129) are in ModelWarnings.  With a positive skip the logarithm of N = 0 is an infinity,
    which [int] refuses (121). *)
Definition sobol_sample (nq : R -> R) (tq : R -> R -> R -> R) (qrng : nat -> nat -> list (list R))
  (p : problem) (N : nat) (second : bool) (skip : Z) : problem * result scaled :=
  if Z.ltb skip 0 then (p, Err ValueError)
  else if Z.ltb 0 skip && (N =? 0) then (p, Err OverflowError)
  else match cross_sample 0%R (qrng (Z.to_nat skip) N) (seq 0 N) p second with
       | Err e => (p, Err e)
       | Ok rs => let '(_, p', out) := scale_samples nq tq (mkMat (p_num_vars p) rs) p in (p', out)
       end.

(** [skip_values] of saltelli.sample, saltelli.py:112-145: next power of two not below N and at
    least 16 when not given; negative integers hit the assertion.  [math.log] is taken to be
    exact (N.log2_up); N = 0 makes it raise ValueError, also with a positive skip (131). *)
Definition saltelli_skip (N : nat) (skip : option Z) : result nat :=
  match skip with
  | None => if N =? 0 then Err ValueError else Ok (Nat.max (2 ^ Nat.log2_up N) 16)
  | Some z => if Z.ltb z 0 then Err AssertionError else if Z.ltb 0 z && (N =? 0) then Err ValueError else Ok (Z.to_nat z)
  end.

(** saltelli.sample, saltelli.py:96-204; [sequence n] stands for the first [n] rows of
    sobol_sequence.sample with 2D columns (modelled in ModelSobolSeq). *)
Definition saltelli_sample (nq : R -> R) (tq : R -> R -> R -> R) (sequence : nat -> list (list R))
  (p : problem) (N : nat) (second : bool) (skip : option Z) : problem * result scaled :=
  match saltelli_skip N skip with
  | Err e => (p, Err e)
  | Ok s =>
    match cross_sample 0%R (sequence (N + s)) (seq s N) p second with
    | Err e => (p, Err e)
    | Ok rs => let '(_, p', out) := scale_samples nq tq (mkMat (p_num_vars p) rs) p in (p', out)
    end
  end.

(** ** Analysis: src/SALib/analyze/sobol.py *)

(** separate_output_values, analyze/sobol.py:267-279.  AB and BA are kept as lists of columns;
    assigning a column of the wrong length raises ValueError (numpy would broadcast a single
    value, which cannot happen when Y has N * step values). *)
Definition separate_output_values {A} (Y : list A) (D N : nat) (second : bool)
  : result (list A * list A * list (list A) * option (list (list A))) :=
  let step := if second then 2 * D + 2 else D + 2 in
  let a := slice_step Y 0 step in
  let b := slice_step Y (step - 1) step in
  let assign (col : list A) := if length col =? N then Ok col else Err ValueError in
  do ab <- mapM (fun j => assign (slice_step Y (j + 1) step)) (seq 0 D) ;;
  do ba <- (if second
            then do ba <- mapM (fun j => assign (slice_step Y (j + 1 + D) step)) (seq 0 D) ;;
                 Ok (Some ba)
            else Ok None) ;;
  Ok (a, b, ab, ba).

(** Floating subtraction/multiplication with nan. *)
Definition fsub (x y : fval) : fval :=
  match x, y with Some a, Some b => Some (a - b)%R | _, _ => None end.
Definition fmul (x y : fval) : fval :=
  match x, y with Some a, Some b => Some (a * b)%R | _, _ => None end.

(** The formulas applied to one column of outputs:
    analyze/sobol.py:219, 232 and 242-246. *)
Definition first_col (A AB B : list R) : fval :=
  fdiv (mean (map2 Rmult B (map2 Rminus AB A))) (var (A ++ B)).
Definition total_col (A AB B : list R) : fval :=
  fdiv (/ 2 * mean (map (fun d => d ^ 2)%R (map2 Rminus A AB))) (var (A ++ B)).
Definition second_col (A ABj ABk BAj B : list R) : fval :=
  fsub (fsub (fdiv (mean (map2 Rminus (map2 Rmult BAj ABk) (map2 Rmult A B))) (var (A ++ B)))
             (first_col A ABj B)) (first_col A ABk B).

(** The estimators on 1-D arrays, analyze/sobol.py:209-246: 0.0 for constant A and B. *)
Definition first_order (A AB B : list R) : fval :=
  if Reqb (ptp (A ++ B)) 0 then Some 0%R else first_col A AB B.
Definition total_order (A AB B : list R) : fval :=
  if Reqb (ptp (A ++ B)) 0 then Some 0%R else total_col A AB B.
Definition second_order (A ABj ABk BAj B : list R) : fval :=
  if Reqb (ptp (A ++ B)) 0 then Some 0%R else
  fsub (fsub (fdiv (mean (map2 Rminus (map2 Rmult BAj ABk) (map2 Rmult A B))) (var (A ++ B)))
             (first_order A ABj B)) (first_order A ABk B).

(** The same functions on 2-D arrays of resamples (axis = 0; here lists of columns): a single
    scalar for an entirely constant array (ptp is taken over the whole array), otherwise one
    value per column. *)
Inductive estimate : Type :=
| Scalar (v : fval)
| Columns (l : list fval).

Fixpoint map3 {X Y Z W} (f : X -> Y -> Z -> W) (a : list X) (b : list Y) (c : list Z) : list W :=
  match a, b, c with
  | x :: a', y :: b', z :: c' => f x y z :: map3 f a' b' c'
  | _, _, _ => []
  end.

Fixpoint map5 {X W} (f : X -> X -> X -> X -> X -> W) (a b c d e : list X) : list W :=
  match a, b, c, d, e with
  | x :: a', y :: b', z :: c', u :: d', v :: e' => f x y z u v :: map5 f a' b' c' d' e'
  | _, _, _, _, _ => []
  end.

Definition first_order2 (A AB B : list (list R)) : estimate :=
  if Reqb (ptp (concat A ++ concat B)) 0 then Scalar (Some 0%R) else Columns (map3 first_col A AB B).
Definition total_order2 (A AB B : list (list R)) : estimate :=
  if Reqb (ptp (concat A ++ concat B)) 0 then Scalar (Some 0%R) else Columns (map3 total_col A AB B).
Definition second_order2 (A ABj ABk BAj B : list (list R)) : estimate :=
  if Reqb (ptp (concat A ++ concat B)) 0 then Scalar (Some 0%R)
  else Columns (map5 second_col A ABj ABk BAj B).

(** [x[r]] for a matrix of resample indices; [r] is kept as a list of columns.  The indices come
    from rng(N, ...) and are below N. *)
Definition gather (x : list R) (r : list (list nat)) : list (list R) :=
  map (map (fun i => nth i x 0%R)) r.

(** [e.std(ddof=1)]: nan for a scalar (0 degrees of freedom), nan if any value is nan. *)
Fixpoint all_some (l : list fval) : option (list R) :=
  match l with
  | [] => Some []
  | Some x :: r => match all_some r with Some xs => Some (x :: xs) | None => None end
  | None :: _ => None
  end.
Definition est_std (e : estimate) : fval :=
  match e with
  | Scalar _ => None
  | Columns l => match all_some l with Some xs => sd1 xs | None => None end
  end.

(** The result dictionary: S1, S1_conf, ST, ST_conf, the kept resamples (as lists of columns) and
    S2, S2_conf when requested.  create_Si_dict, analyze/sobol.py:249-264. *)
Record Si : Type := mkSi {
  S1 : list fval; S1_conf : list fval; ST : list fval; ST_conf : list fval;
  S1_conf_all : option (list (list fval)); ST_conf_all : option (list (list fval));
  S2 : option (list (list fval)); S2_conf : option (list (list fval)) }.

Definition create_Si_dict (D num_resamples : nat) (keep second : bool) : Si :=
  let z := repeat (Some 0%R) D in
  let all := if keep then Some (repeat (repeat (Some 0%R) num_resamples) D) else None in
  let nans := if second then Some (repeat (repeat (@None R) D) D) else None in
  mkSi z z z z all all nans nans.

(** Keys of the result table and tasks (key, j, k or None), analyze/sobol.py:308-323. *)
Inductive key : Type := kS1 | kS1c | kST | kSTc | kS2 | kS2c.
Definition task : Type := (key * nat * option nat)%type.

(** [S[key][j] = v] and [S[key][j, k] = v] (analyze/sobol.py:147-182, 356-360): KeyError when the
    key is absent, IndexError when out of range.  Combinations that the code never produces
    (a vector key with two indices, a matrix key with one) are IndexError/TypeError. *)
Definition set1 (l : list fval) (j : nat) (v : fval) : result (list fval) :=
  if j <? length l then Ok (update l j v) else Err IndexError.
Definition set2 (m : list (list fval)) (j k : nat) (v : fval) : result (list (list fval)) :=
  match nth_error m j with
  | None => Err IndexError
  | Some row => do row' <- set1 row k v ;; Ok (update m j row')
  end.
Definition write (s : Si) (t : task) (v : fval) : result Si :=
  match t with
  | (kS1, j, None) => do l <- set1 (S1 s) j v ;;
      Ok (mkSi l (S1_conf s) (ST s) (ST_conf s) (S1_conf_all s) (ST_conf_all s) (S2 s) (S2_conf s))
  | (kS1c, j, None) => do l <- set1 (S1_conf s) j v ;;
      Ok (mkSi (S1 s) l (ST s) (ST_conf s) (S1_conf_all s) (ST_conf_all s) (S2 s) (S2_conf s))
  | (kST, j, None) => do l <- set1 (ST s) j v ;;
      Ok (mkSi (S1 s) (S1_conf s) l (ST_conf s) (S1_conf_all s) (ST_conf_all s) (S2 s) (S2_conf s))
  | (kSTc, j, None) => do l <- set1 (ST_conf s) j v ;;
      Ok (mkSi (S1 s) (S1_conf s) (ST s) l (S1_conf_all s) (ST_conf_all s) (S2 s) (S2_conf s))
  | (kS2, j, Some k) =>
      match S2 s with
      | None => Err KeyError
      | Some m => do m <- set2 m j k v ;;
        Ok (mkSi (S1 s) (S1_conf s) (ST s) (ST_conf s) (S1_conf_all s) (ST_conf_all s) (Some m) (S2_conf s))
      end
  | (kS2c, j, Some k) =>
      match S2_conf s with
      | None => Err KeyError
      | Some m => do m <- set2 m j k v ;;
        Ok (mkSi (S1 s) (S1_conf s) (ST s) (ST_conf s) (S1_conf_all s) (ST_conf_all s) (S2 s) (Some m))
      end
  | (_, _, Some _) => Err IndexError
  | (_, _, None) => Err TypeError
  end.

(** [S["S1_conf_all"][:, j] = e] and the same for ST (analyze/sobol.py:154-155, 167-168): a scalar
    is broadcast over the resamples. *)
Definition est_column (num_resamples : nat) (e : estimate) : list fval :=
  match e with Scalar v => repeat v num_resamples | Columns l => l end.
Definition keep_S1 (s : Si) (j : nat) (num_resamples : nat) (e : estimate) : Si :=
  mkSi (S1 s) (S1_conf s) (ST s) (ST_conf s)
       (option_map (fun m => update m j (est_column num_resamples e)) (S1_conf_all s))
       (ST_conf_all s) (S2 s) (S2_conf s).
Definition keep_ST (s : Si) (j : nat) (num_resamples : nat) (e : estimate) : Si :=
  mkSi (S1 s) (S1_conf s) (ST s) (ST_conf s) (S1_conf_all s)
       (option_map (fun m => update m j (est_column num_resamples e)) (ST_conf_all s))
       (S2 s) (S2_conf s).

Section Analysis.
(** Z = norm.ppf(0.5 + conf_level / 2) (analyze/sobol.py:145), the separated outputs and the
    resample indices. *)
Variable Z : R.
Variables (A B : list R) (AB : list (list R)) (BA : option (list (list R))).
Variable r : list (list nat).

Definition confidence (e : estimate) : fval := fmul (Some Z) (est_std e).

(** One round of the serial loop over groups, analyze/sobol.py:150-176. *)
Definition serial_first (num_resamples : nat) (s : Si) (j : nat) : result Si :=
  do ab <- get AB j ;;
  do s <- write s (kS1, j, None) (first_order A ab B) ;;
  let e1 := first_order2 (gather A r) (gather ab r) (gather B r) in
  let s := keep_S1 s j num_resamples e1 in
  let var_diff := ptp (concat (gather A r) ++ concat (gather B r)) in
  do s <- write s (kS1c, j, None) (if Reqb var_diff 0 then Some 0%R else confidence e1) ;;
  do s <- write s (kST, j, None) (total_order A ab B) ;;
  let e2 := total_order2 (gather A r) (gather ab r) (gather B r) in
  let s := keep_ST s j num_resamples e2 in
  write s (kSTc, j, None) (if Reqb var_diff 0 then Some 0%R else confidence e2).

(** Columns needed for a pair, [BA] being None when second order was not requested
    (Python: TypeError, cannot happen). *)
Definition pair_columns (j k : nat) : result (list R * list R * list R) :=
  match BA with
  | None => Err TypeError
  | Some ba => do abj <- get AB j ;; do abk <- get AB k ;; do baj <- get ba j ;; Ok (abj, abk, baj)
  end.

(** The serial second-order loop body, analyze/sobol.py:181-184. *)
Definition serial_second (s : Si) (j k : nat) : result Si :=
  do c <- pair_columns j k ;;
  let '(abj, abk, baj) := c in
  do s <- write s (kS2, j, Some k) (second_order A abj abk baj B) ;;
  write s (kS2c, j, Some k)
    (confidence (second_order2 (gather A r) (gather abj r) (gather abk r) (gather baj r) (gather B r))).

(** The serial branch, analyze/sobol.py:147-184. *)
Definition serial (D num_resamples : nat) (keep second : bool) : result Si :=
  do s <- foldM (serial_first num_resamples) (seq 0 D)
            (create_Si_dict D num_resamples keep second) ;;
  if second
  then foldM (fun s j => foldM (fun s k => serial_second s j k) (seq (S j) (D - S j)) s)
             (seq 0 D) s
  else Ok s.

(** One task, sobol_parallel, analyze/sobol.py:284-297. *)
Definition run_task (t : task) : result (task * fval) :=
  let ck j := get AB j in
  match t with
  | (kS1, j, _) => do ab <- ck j ;; Ok (t, first_order A ab B)
  | (kS1c, j, _) => do ab <- ck j ;;
      Ok (t, confidence (first_order2 (gather A r) (gather ab r) (gather B r)))
  | (kST, j, _) => do ab <- ck j ;; Ok (t, total_order A ab B)
  | (kSTc, j, _) => do ab <- ck j ;;
      Ok (t, confidence (total_order2 (gather A r) (gather ab r) (gather B r)))
  | (kS2, j, Some k) => do c <- pair_columns j k ;;
      let '(abj, abk, baj) := c in Ok (t, second_order A abj abk baj B)
  | (kS2c, j, Some k) => do c <- pair_columns j k ;;
      let '(abj, abk, baj) := c in
      Ok (t, confidence (second_order2 (gather A r) (gather abj r) (gather abk r)
                           (gather baj r) (gather B r)))
  | (_, _, None) => Err TypeError
  end.
Definition sobol_parallel (tasks : list task) : result (list (task * fval)) := mapM run_task tasks.

(** zip_longest, sum(..., ()), and dropping of the None fill values, analyze/sobol.py:334-340. *)
Fixpoint zip_longest {X Y} (l : list X) (l' : list Y) : list (option X * option Y) :=
  match l, l' with
  | x :: t, y :: t' => (Some x, Some y) :: zip_longest t t'
  | x :: t, [] => (Some x, None) :: zip_longest t []
  | [], _ => map (fun y => (None, Some y)) l'
  end.
Definition flatten_some {X} (l : list (option X * option X)) : list X :=
  flat_map (fun p => (match fst p with Some x => [x] | None => [] end) ++
                     (match snd p with Some x => [x] | None => [] end)) l.

(** create_task_list, analyze/sobol.py:302-343; [cpus] is cpu_count(). *)
Definition tasks_first_order (D : nat) : list task :=
  flat_map (fun j => map (fun d => (d, j, None)) [kS1; kS1c; kST; kSTc]) (seq 0 D).
Definition tasks_second_order (D : nat) : list task :=
  flat_map (fun j => flat_map (fun k => map (fun d => (d, j, Some k)) [kS2; kS2c])
                              (seq (S j) (D - S j))) (seq 0 D).
Definition create_task_list (D : nat) (second : bool) (n_processors : option nat) (cpus : nat)
  : result (list (list task)) :=
  let t1 := tasks_first_order D in
  let t2 := if second then tasks_second_order D else [] in
  let n := match n_processors with
           | Some n => n
           | None => Nat.min cpus (length t1 + length t2)
           end in
  if second then array_split (flatten_some (zip_longest (rev t1) t2)) n
  else array_split t1 n.

(** Si_list_to_dict, analyze/sobol.py:346-362. *)
Definition Si_list_to_dict (S_list : list (list (task * fval))) (D num_resamples : nat)
  (keep second : bool) : result Si :=
  foldM (fun s tv => write s (fst tv) (snd tv)) (concat S_list)
        (create_Si_dict D num_resamples keep second).

(** The parallel branch, analyze/sobol.py:185-196: [pool.map_async(...).get()] returns the
    results of the sublists in their order. *)
Definition parallel (D num_resamples : nat) (keep second : bool) (n_processors : option nat)
  (cpus : nat) : result Si :=
  do tasks <- create_task_list D second n_processors cpus ;;
  do S_list <- mapM sobol_parallel tasks ;;
  Si_list_to_dict S_list D num_resamples keep second.
End Analysis.

(** All indices nan: what both branches compute when the normalised outputs are all nan (nan
    fails every comparison, so the constant-output branches are not taken, and every mean and
    variance is nan); S2 is nan everywhere, too. *)
Definition all_nan (D num_resamples : nat) (keep second par : bool) : Si :=
  let n := repeat (@None R) D in
  let all := if keep then Some (repeat (repeat (if par then Some 0%R else None) num_resamples) D)
             else None in
  let nans := if second then Some (repeat (repeat (@None R) D) D) else None in
  mkSi n n n n all all nans nans.

(** analyze, analyze/sobol.py:23-206.  [mu], [sigma]: the values numpy computes for Y.mean() and
    Y.std() (in exact arithmetic [mean Y] and [sd Y]); [resample N] the index matrix drawn by rng
    (columns); [Zq c] = norm.ppf(0.5 + c/2); [workers]: None for the serial branch, otherwise the
    [n_processors] argument.  Drawing from or taking ptp of an empty array raises ValueError.
    printing is not modelled. *)
Definition analyze_with (mu sigma : R) (Zq : R -> R) (resample : nat -> list (list nat)) (cpus : nat)
  (p : problem) (Y : list R) (second : bool) (conf_level : R) (keep : bool)
  (workers : option (option nat)) : result Si :=
  let D := snd (extract_group_names p) in
  let step := if second then 2 * D + 2 else D + 2 in
  if negb (length Y mod step =? 0) then Err RuntimeError
  else if negb (Rltb 0 conf_level && Rltb conf_level 1) then Err RuntimeError
  else
    let N := length Y / step in
    let r := resample N in
    let R_ := length r in
    if (0 <? D) && ((N =? 0) || (R_ =? 0)) then Err ValueError
    else if Reqb sigma 0 then
      Ok (all_nan D R_ keep second (match workers with Some _ => true | None => false end))
    else
      let Yn := map (fun y => (y - mu) / sigma)%R Y in
      do s <- separate_output_values Yn D N second ;;
      let '(A, B, AB, BA) := s in
      match workers with
      | None => serial (Zq conf_level) A B AB BA r D R_ keep second
      | Some n => parallel (Zq conf_level) A B AB BA r D R_ keep second n cpus
      end.

(** In exact arithmetic. *)
Definition analyze (Zq : R -> R) (resample : nat -> list (list nat)) (cpus : nat)
  (p : problem) (Y : list R) := analyze_with (mean Y) (sd Y) Zq resample cpus p Y.

(** itertools.combinations(l, 2). *)
Fixpoint pairs2 {X} (l : list X) : list (X * X) :=
  match l with [] => [] | x :: r => map (fun y => (x, y)) r ++ pairs2 r end.

(** Si_to_pandas_dict, analyze/sobol.py:365-415: the index (pairs of names) of the second-order
    frame and its S2 and S2_conf values.  [names.index(n)] is the first position of [n].  With a
    single name the index holds a 1-element list, and [i[1]] raises IndexError; a two-name index
    is the one list of both names; numpy indexing out of range raises IndexError. *)
Fixpoint index_of (x : string) (l : list string) : result nat :=
  match l with
  | [] => Err ValueError
  | y :: r => if String.eqb x y then Ok 0 else do i <- index_of x r ;; Ok (S i)
  end.
Definition second_index (names : list string) : result (list (string * string)) :=
  if 2 <? length names then Ok (pairs2 names)
  else match names with
       | x :: y :: _ => Ok [(x, y)]
       | _ => Err IndexError
       end.
Definition lookup_pair (names : list string) (m : list (list fval)) (i : string * string)
  : result fval :=
  do a <- index_of (fst i) names ;;
  do b <- index_of (snd i) names ;;
  do row <- get m a ;; get row b.
Definition second_frame (p : problem) (s : Si)
  : result (option (list (string * string) * list fval * list fval)) :=
  match S2 s, S2_conf s with
  | Some m, Some mc =>
    let names := fst (extract_group_names p) in
    do idx <- second_index names ;;
    do v <- mapM (lookup_pair names m) idx ;;
    do vc <- mapM (lookup_pair names mc) idx ;;
    Ok (Some (idx, v, vc))
  | _, _ => Ok None
  end.
