(** * Properties of the Morris analysis in double precision. *)
From Coq Require Import Reals String List Arith ZArith Bool Lia Lra Permutation.
From Flocq Require Import Core.
From Verif Require Import Base Arrays ModelGroups ModelScale SpecGroups Stats ModelFast ModelMorris ModelMorrisAnalyze SpecMorris
  ModelDouble ModelDouble2 ModelDouble4 ModelDouble5 SpecDouble3 ProofsDouble ProofsDouble8 ProofsDouble10 ProofsDouble15 ProofsDouble16 ProofsDouble17 ProofsDouble18 ProofsDouble19 ProofsDouble20.
Import ListNotations.
Local Open Scope nat_scope.

(** C114: however numpy arranges its sums, |mu| is at most mu_star for every group (both are nan together), and sigma and the confidence interval are not negative. *)
Theorem C114_bounds : forall S nq p X Y cl scaled levels resample out, snd (morris_analyze_fl S nq p X Y cl scaled levels resample) = Ok out ->
  (0 <= nq (fl (/ 2 + fl (cl / 2))))%R ->
  (forall k, k < length (m_names out) ->
    exists a b, nth_error (m_mu out) k = Some a /\ nth_error (m_mu_star out) k = Some b /\ (a = None <-> b = None) /\ (forall x y, a = Some x -> b = Some y -> (Rabs x <= y)%R)) /\
  (forall v, In (Some v) (m_sigma out) \/ In (Some v) (m_conf out) -> (0 <= v)%R).
Proof. exact bounds. Qed.
Print Assumptions C114_bounds.

(** C114: arrays of matching shapes are analysed, for every conf_level between 0 and 1. *)
Theorem C114_total : forall S nq p ls G N X Y cl scaled levels resample, proper p ls G N X Y -> levels <> 1 -> (0 < cl < 1)%R ->
  exists out, snd (morris_analyze_fl S nq p X Y cl scaled levels resample) = Ok out /\ length (m_names out) = G.
Proof. exact total. Qed.
Print Assumptions C114_total.

(** C114: a group along whose steps the output never changes gets exactly 0 for mu, mu_star, sigma and the confidence interval, as far as they are numbers. *)
Theorem C114_flat : forall S nq p ls G N X Y cl scaled levels resample out k x, proper p ls G N X Y -> levels <> 1 -> (0 < cl < 1)%R ->
  snd (morris_analyze_fl S nq p X Y cl scaled levels resample) = Ok out -> nth_error (m_names out) k = Some x ->
  arrangement (s_einsum S) -> (forall y, In y Y -> double y) ->
  (forall j, nth_error ls j = Some x -> one_move (G + 1) (rows X) j /\ flat N (G + 1) (rows X) Y j) ->
  forall v, nth_error (m_mu out) k = Some (Some v) \/ nth_error (m_mu_star out) k = Some (Some v) \/ nth_error (m_sigma out) k = Some (Some v) \/ nth_error (m_conf out) k = Some (Some v) -> v = 0%R.
Proof. exact flat_group. Qed.
Print Assumptions C114_flat.

(** C114: for a group in which the output never decreases mu is mu_star, digit by digit … *)
Theorem C114_rising : forall S nq p ls G N X Y cl scaled levels resample out k x, proper p ls G N X Y -> levels <> 1 -> (0 < cl < 1)%R ->
  snd (morris_analyze_fl S nq p X Y cl scaled levels resample) = Ok out -> nth_error (m_names out) k = Some x ->
  arrangement (s_einsum S) -> (forall y, In y Y -> double y) ->
  (forall j, nth_error ls j = Some x -> one_move (G + 1) (rows X) j /\ rises N (G + 1) (rows X) Y j) ->
  nth_error (m_mu out) k = nth_error (m_mu_star out) k.
Proof. exact rising_group. Qed.
Print Assumptions C114_rising.

(** … and for one in which it never increases mu_star is -mu. *)
Theorem C114_falling : forall S nq p ls G N X Y cl scaled levels resample out k x, proper p ls G N X Y -> levels <> 1 -> (0 < cl < 1)%R ->
  snd (morris_analyze_fl S nq p X Y cl scaled levels resample) = Ok out -> nth_error (m_names out) k = Some x ->
  arrangement (s_einsum S) -> (forall y, In y Y -> double y) ->
  (forall j, nth_error ls j = Some x -> one_move (G + 1) (rows X) j /\ falls N (G + 1) (rows X) Y j) ->
  nth_error (m_mu_star out) k = option_map (times (-1)) (nth_error (m_mu out) k).
Proof. exact falling_group. Qed.
Print Assumptions C114_falling.

(** C114: outputs of the other sign change the sign of mu and nothing else. *)
Theorem C114_sign : forall S nq p X Y cl scaled levels resample,
  snd (morris_analyze_fl S nq p X (map Ropp Y) cl scaled levels resample) =
  match snd (morris_analyze_fl S nq p X Y cl scaled levels resample) with
  | Ok o => Ok (mkMorris (m_names o) (map (times (-1)) (m_mu o)) (m_mu_star o) (m_sigma o) (m_conf o))
  | Err e => Err e
  end.
Proof. exact sign_flip. Qed.
Print Assumptions C114_sign.

(** C114: in a unit that is a power of two times smaller or larger, every unscaled result is multiplied by exactly this power. *)
Theorem C114_unit : forall e S nq p ls G N X Y cl levels resample, proper p ls G N X Y -> (0 < cl < 1)%R ->
  2 <= levels -> (Z.of_nat levels <= 2 ^ 52)%Z -> (Z.of_nat N <= 2 ^ 53)%Z -> (Z.of_nat (p_num_vars p) <= 2 ^ 53)%Z ->
  (forall j, (Z.of_nat (length (resample j)) <= 2 ^ 53)%Z /\ forall idx, In idx (resample j) -> (Z.of_nat (length idx) <= 2 ^ 53)%Z) ->
  (let z := nq (fl (/ 2 + fl (cl / 2))) in z = 0 \/ powerRZ 2 (-100) <= Rabs z)%R ->
  let c := powerRZ 2 e in
  (forall y, In y Y -> not_tiny y /\ not_tiny (c * y)%R) ->
  snd (morris_analyze_fl S nq p X (map (Rmult c) Y) cl false levels resample) =
  match snd (morris_analyze_fl S nq p X Y cl false levels resample) with
  | Ok o => Ok (mkMorris (m_names o) (map (times c) (m_mu o)) (map (times c) (m_mu_star o)) (map (times c) (m_sigma o)) (map (times c) (m_conf o)))
  | Err e => Err e
  end.
Proof. exact unit_group. Qed.
Print Assumptions C114_unit.

(** C114: but equal effects do not give sigma 0.  One parameter goes from 0 to 1 in every trajectory, and the output from 0 to b: sigma is positive for six
    trajectories and b = 0.1. *)
Theorem C114_sigma_refuted : ~ (forall S nq p N X Y b cl resample out s,
  arrangement (s_einsum S) -> arrangement (s_along S) -> arrangement (s_over S) -> arrangement (s_within S) -> arrangement (s_again S) ->
  p_num_vars p = 1 -> cols X = 1 -> rows X = concat (repeat [[0%R]; [1%R]] N) -> Y = concat (repeat [0%R; b] N) -> not_tiny b -> (0 < cl < 1)%R ->
  snd (morris_analyze_fl S nq p X Y cl false 2 resample) = Ok out -> m_sigma out = [Some s] -> s = 0%R).
Proof. exact sigma_refuted. Qed.
Print Assumptions C114_sigma_refuted.

(** The six trajectories: the parameter moves once in each and the output rises, so mu and mu_star agree; both are 2^-56 below the common effect. *)
Example C114_example : proper six_p ["a"%string] 1 6 six_X six_Y /\ one_move 2 (rows six_X) 0 /\ rises 6 2 (rows six_X) six_Y 0 /\
  exists out s, snd (morris_analyze_fl left_sums (fun _ => 2%R) six_p six_X six_Y (/ 2) false 2 (fun _ => [])) = Ok out /\
  m_mu out = [Some (tenth - powerRZ 2 (-56))%R] /\ m_mu_star out = [Some (tenth - powerRZ 2 (-56))%R] /\ m_sigma out = [Some s] /\ (0 < s)%R.
Proof. exact example. Qed.
