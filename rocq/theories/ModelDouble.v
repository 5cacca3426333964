(** * Parts of the samplers in double precision.

    A double is a number of the format binary64 (53 bits, least positive number 2^-1074); every elementary operation is rounded to the nearest double,
    ties to even.  Overflow is not modelled: the format has no greatest number. *)
From Coq Require Import Reals String List Arith ZArith Bool.
From Flocq Require Import Core.
From Verif Require Import Base Arrays ModelGroups ModelMorris.
Import ListNotations.
Local Open Scope R_scope.

Definition double (x : R) : Prop := generic_format radix2 (FLT_exp (-1074) 53) x.
Definition fl (x : R) : R := round radix2 (FLT_exp (-1074) 53) ZnearestE x.

(** ** Scaling *)

(** One entry of _scale_samples, util/__init__.py:49-53. *)
Definition scale_fl (lb ub x : R) : R := fl (fl (x * fl (ub - lb)) + lb).

(** ** np.linspace *)

(** np.linspace(start, stop, n) for n >= 1 and integers below 2^53: the entries are computed from the step, the last one is replaced by [stop]. *)
Definition linspace_fl (start stop : R) (n : nat) : list R :=
  let delta := fl (stop - start) in
  let step := fl (delta / INR (n - 1)) in
  map (fun k => if (1 <? n)%nat && (k =? n - 1)%nat then stop
                else if (n =? 1)%nat then fl (fl (INR k * delta) + start)
                else if Req_bool step 0 then fl (fl (fl (INR k / INR (n - 1)) * delta) + start)
                else fl (fl (INR k * step) + start)) (seq 0 n).

(** ** Morris trajectories *)

(** _compute_delta, util/__init__.py:381-393. *)
Definition delta_fl (levels : nat) : R := fl (INR levels / fl (2 * (INR levels - 1))).

(** _compute_b_star, sample/morris/morris.py:243-276.  The products of the matrices of zeroes, ones and twos are sums of small integers, which are
    computed without rounding. *)
Definition compute_b_star_fl (g k : nat) (J : fmat) (x_star : nat -> R) (delta : R) (B G P D : fmat) : fmat :=
  let element_a := fun j => fl (J 0%nat j * x_star j) in
  let element_b := fun i j => mmul g G P j i in
  let element_c := mmul g (fun i t => 2 * B i t) element_b in
  let element_d := mmul k (fun i j => element_c i j - J i j) D in
  fun i j => fl (element_a j + fl (fl (delta / 2) * (element_d i j + J i j))).

(** _generate_trajectory, _generate_p_star and _generate_x_star, sample/morris/morris.py:194-240, 279-325. *)
Definition generate_trajectory_fl (groups : list (list nat)) (g levels : nat) (d : draw) : result (list (list R)) :=
  if (levels =? 1)%nat then Err ZeroDivisionError
  else
    let delta := delta_fl levels in
    let k := length groups in
    let grid := linspace_fl 0 (fl (1 - delta)) (levels / 2) in
    if (levels / 2 =? 0)%nat && (0 <? k)%nat then Err ValueError
    else
      do xs <- mapM (fun j => get grid (t_start d j)) (seq 0 k) ;;
      let B := fun i j => if (j <? i)%nat then 1 else 0 in
      let G := fun i j => INR (nth j (nth i groups []) 0%nat) in
      let P := fun i j => if (nth i (t_perm d) 0 =? j)%nat then 1 else 0 in
      let D := fun i j => if (i =? j)%nat then (if t_up d i then 1 else -1) else 0 in
      Ok (tab (g + 1) k (compute_b_star_fl g k (fun _ _ => 1) (fun j => nth j xs 0) delta B G P D)).

(** _sample_morris, sample/morris/morris.py:153-191. *)
Definition sample_morris_fl (groups : list string) (N levels : nat) (draws : nat -> draw) : result (list (list R)) :=
  do mn <- compute_groups_matrix groups ;;
  do ts <- mapM (fun t => generate_trajectory_fl (fst mn) (length (snd mn)) levels (draws t)) (seq 0 N) ;;
  Ok (concat ts).

(** The check of _compute_optimised_trajectories, sample/morris/morris.py:356-357. *)
Definition scaled_check (X : list (list R)) : result unit :=
  if existsb (existsb (fun x => Rlt_bool x 0 || Rlt_bool 1 x)) X then Err ValueError else Ok tt.

(** ** FAST frequencies *)

(** omega, sample/fast_sampler.py:54-69; [math.floor] and [np.floor] are exact. *)
Definition fast_frequencies_fl (N M D : nat) : result (Z * list Z) :=
  if (N <=? 4 * M ^ 2)%nat then Err ValueError
  else if (M =? 0)%nat then Err ZeroDivisionError
  else if (D =? 0)%nat then Err IndexError
  else
    let w0 := Zfloor (fl (INR (N - 1) / INR (2 * M))) in
    let m := Zfloor (fl (IZR w0 / INR (2 * M))) in
    Ok (w0, if (Z.of_nat (D - 1) <=? m)%Z then map Zfloor (linspace_fl 1 (IZR m) (D - 1))
            else map (fun t => (Z.of_nat t mod m + 1)%Z) (seq 0 (D - 1))).

(** ** Latin hypercube draws *)

(** An entry of [temp], sample/latin.py:59-66: rng.uniform(low, high) is low + (high - low) * u. *)
Definition latin_draw_fl (N s : nat) (u : R) : R :=
  let d := fl (1 / INR N) in
  let low := fl (INR s * d) in
  let high := fl (INR (s + 1) * d) in
  fl (low + fl (fl (high - low) * u)).

(** ** Sobol' points and finite differences *)

(** X / math.pow(2, scale) with scale = 31, sample/sobol_sequence.py:51, 89. *)
Definition sobol_point_fl (x : N) : R := fl (IZR (Z.of_N x) / bpow radix2 31).

(** The perturbed coordinate, sample/finite_diff.py:75-79. *)
Definition perturb_fl (lb ub delta x : R) : R := Rmax (Rmin (fl (x + fl (x * delta))) ub) lb.
