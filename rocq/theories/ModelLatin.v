(** * Model of Latin hypercube sampling (src/SALib/sample/latin.py:9-80). *)
From Coq Require Import Reals String List Arith Bool.
From Verif Require Import Base Arrays ModelGroups ModelScale.
Import ListNotations.
Local Open Scope nat_scope.

(** [np.where(G[:, group] == 1)[0]], latin.py:73. *)
Definition where_one (G : list (list nat)) (group : nat) : list nat :=
  filter (fun i => match entry G i group with Some 1 => true | _ => false end) (seq 0 (length G)).

(** [num_groups] and the positions written for a group, latin.py:50-55 and 72-76. *)
Definition latin_groups (p : problem) : result (nat * (nat -> list nat)) :=
  match truthy_groups p with
  | Some g => do mn <- compute_groups_matrix g ;; Ok (set_size g, where_one (fst mn))
  | None => Ok (p_num_vars p, fun group => [group])
  end.

(** [temp[sample, group]] before shuffling, latin.py:61-66: rng.uniform(low, high) is
    low + (high - low) * u with u drawn from [0, 1); [u] are these draws. *)
Definition latin_draw (N : nat) (u : nat -> nat -> R) (s g : nat) : R :=
  let d := (1 / INR N)%R in
  (INR s * d + (INR (s + 1) * d - INR s * d) * u s g)%R.

(** latin.py:46-76: the sample on the unit cube.  [perm g] is the rearrangement made by
    rng.shuffle(temp[:, g]): row [s] receives the former entry of row [perm g][s].  [junk] is what
    np.empty contains.  [1.0 / 0] raises ZeroDivisionError. *)
Definition latin_unit (p : problem) (N : nat) (u : nat -> nat -> R) (perm : nat -> list nat) (junk : R)
  : result (list (list R)) :=
  do gm <- latin_groups p ;;
  let '(num_groups, members) := gm in
  if N =? 0 then Err ZeroDivisionError
  else
    foldM (fun m g =>
      let shuffled := map (fun i => latin_draw N u i g) (perm g) in
      foldM (fun m s => do r <- get m s ;;
                        do r' <- (do v <- get shuffled s ;; set_many r (members g) v) ;;
                        Ok (update m s r')) (seq 0 N) m)
      (seq 0 num_groups) (repeat (repeat junk (p_num_vars p)) N).

(** latin.py:9-80. *)
Definition latin_sample (nq : R -> R) (tq : R -> R -> R -> R) (p : problem) (N : nat)
  (u : nat -> nat -> R) (perm : nat -> list nat) (junk : R) : problem * result scaled :=
  match latin_unit p N u perm junk with
  | Err e => (p, Err e)
  | Ok rs => let '(_, p', out) := scale_samples nq tq (mkMat (p_num_vars p) rs) p in (p', out)
  end.
