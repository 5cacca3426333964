(** * The fractional factorial analyser in double precision. *)
From Coq Require Import Reals String List Arith ZArith Bool.
From Verif Require Import Base Arrays ModelGroups ModelScale Stats ModelFF ModelDouble ModelDouble4.
Import ListNotations.
Local Open Scope nat_scope.

Section Effects.
Variable arr : nat -> tree.  (* the order in which np.dot adds up *)

(** [np.dot(Y, x)]; the products with 1 and -1 are exact, so that fused multiplications and additions make no difference. *)
Definition dot_fl (Y : list R) (x : list Z) : result R :=
  if length Y =? length x then Ok (sum_fl arr (map2 (fun y z => fl (y * IZR z)) Y x)) else Err ValueError.
(** [(1.0 / (2 * num_vars)) * v], analyze/ff.py:79, 156. *)
Definition share_fl (num_vars : nat) (v : R) : R := fl (fl (1 / INR (2 * num_vars)) * v).

(** interactions, analyze/ff.py:123-158. *)
Definition interactions_fl (names : list string) (num_vars : nat) (X : list (list Z)) (Y : list R) : result (list ((string * string) * R)) :=
  mapM (fun ab => let '(c, c2) := ab in
          do n2 <- get names c2 ;;
          do n1 <- get names c ;;
          do v <- dot_fl Y (map2 Z.mul (column X c) (column X c2)) ;;
          Ok ((n2, n1), share_fl num_vars v))
       (flat_map (fun c => map (fun c2 => (c, c2)) (seq 0 c)) (seq 0 (length (hd [] X)))).

(** analyze, analyze/ff.py:17-96; see [ff_analyze]. *)
Definition ff_analyze_fl (p : problem) (Y : list R) (second : bool) : problem * result ff_result :=
  match extend_bounds p with
  | Err e => (p, Err e)
  | Ok p1 =>
    (p1,
     do X <- generate_contrast (p_num_vars p1) ;;
     do ME <- mapM (fun j => do v <- dot_fl Y (column X j) ;; Ok (share_fl (p_num_vars p1) v)) (seq 0 (length (hd [] X))) ;;
     do IE <- (if second then do l <- interactions_fl (p_names p1) (p_num_vars p1) X Y ;; Ok (Some l) else Ok None) ;;
     Ok (mkFF (p_names p1) ME IE))
  end.
End Effects.
