(** * Specification vocabulary for scaling: supports and legal distribution parameters. *)
From Coq Require Import Reals String List.
Import ListNotations.
Local Open Scope R_scope.

(** The values a parameter with distribution [d] and bounds entry [b] may take, as documented in
    util/__init__.py:126-152. *)
Inductive in_support : string -> list R -> R -> Prop :=
| sup_unif : forall lo up r y, lo <= y <= up -> in_support "unif" (lo :: up :: r) y
| sup_logunif : forall lo up r y, lo <= y <= up -> in_support "logunif" (lo :: up :: r) y
| sup_triang3 : forall s e c y, s <= y <= e -> in_support "triang" [s; e; c] y
| sup_triang2 : forall e c y, 0 <= y <= e -> in_support "triang" [e; c] y
| sup_norm : forall mu sd r y, in_support "norm" (mu :: sd :: r) y
| sup_truncnorm : forall lo up mu sd r y,
    lo <= y <= up -> in_support "truncnorm" (lo :: up :: mu :: sd :: r) y
| sup_lognorm : forall mu sd r y, 0 < y -> in_support "lognorm" (mu :: sd :: r) y
| sup_weibull2 : forall k l y, 0 <= y -> in_support "weibull" [k; l] y
| sup_weibull3 : forall k l s y, s <= y -> in_support "weibull" [k; l; s] y.

(** Parameter lists of a distribution that the scaler must refuse with ValueError. *)
Inductive refused : string -> list R -> Prop :=
| ref_unif : forall lo up r, up <= lo -> refused "unif" (lo :: up :: r)
| ref_norm : forall mu sd r, sd <= 0 -> refused "norm" (mu :: sd :: r)
| ref_lognorm : forall mu sd r, sd <= 0 -> refused "lognorm" (mu :: sd :: r)
| ref_truncnorm : forall lo up mu sd r, sd <= 0 \/ up <= lo ->
    refused "truncnorm" (lo :: up :: mu :: sd :: r)
| ref_triang_shape : forall b, (2 < length b)%nat -> length b <> 3%nat -> refused "triang" b
| ref_triang3 : forall s e c, e < 0 \/ c < 0 \/ 1 <= c \/ e < s -> refused "triang" [s; e; c]
| ref_triang2 : forall e c, e < 0 \/ c < 0 \/ 1 <= c -> refused "triang" [e; c]
| ref_weibull_shape : forall b, (2 < length b)%nat -> length b <> 3%nat -> refused "weibull" b
| ref_weibull3 : forall k l s, k <= 0 \/ l <= 0 -> refused "weibull" [k; l; s]
| ref_weibull2 : forall k l, k <= 0 \/ l <= 0 -> refused "weibull" [k; l]
| ref_unknown : forall d b,
    ~ In d ["unif"; "triang"; "norm"; "truncnorm"; "lognorm"; "logunif"; "weibull"]%string ->
    refused d b.

(** Parameter lists for which the distribution is a genuine one (and so has finite quantiles). *)
Inductive proper : string -> list R -> Prop :=
| ok_unif : forall lo up r, lo < up -> proper "unif" (lo :: up :: r)
| ok_logunif : forall lo up r, 0 < lo < up -> proper "logunif" (lo :: up :: r)
| ok_norm : forall mu sd r, 0 < sd -> proper "norm" (mu :: sd :: r)
| ok_lognorm : forall mu sd r, 0 < sd -> proper "lognorm" (mu :: sd :: r)
| ok_truncnorm : forall lo up mu sd r, 0 < sd -> lo < up ->
    proper "truncnorm" (lo :: up :: mu :: sd :: r)
| ok_triang3 : forall s e c, s < e -> 0 <= c < 1 -> proper "triang" [s; e; c]
| ok_triang2 : forall e c, 0 < e -> 0 <= c < 1 -> proper "triang" [e; c]
| ok_weibull3 : forall k l s, 0 < k -> 0 < l -> proper "weibull" [k; l; s]
| ok_weibull2 : forall k l, 0 < k -> 0 < l -> proper "weibull" [k; l].

(** What is assumed of scipy's normal quantile functions. *)
Definition increasing_on_unit (f : R -> R) : Prop :=
  forall q q', 0 < q -> q < q' -> q' < 1 -> f q < f q'.
Definition truncated_quantile (f : R -> R -> R -> R) : Prop :=
  forall a b, a < b ->
    (forall q, 0 <= q <= 1 -> a <= f q a b <= b) /\
    (forall q q', 0 <= q -> q < q' -> q' <= 1 -> f q a b < f q' a b).
