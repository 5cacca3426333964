(** * Vocabulary for charts of results. *)
From Coq Require Import Reals String List Arith.
From Verif Require Import Base ModelScale ModelPlotting.
Import ListNotations.
Local Open Scope nat_scope.

(** The name of a column of confidence intervals. *)
Definition conf_name (k : string) : string := (k ++ "_conf")%string.
Definition mentions_conf (k : string) : Prop := exists a b, k = (a ++ "_conf" ++ b)%string.

(** Every column is either an index or the confidence interval of an index-like name, and no name occurs twice. *)
Definition regular (cs : list (string * column)) : Prop :=
  NoDup (map fst cs) /\ forall k c, In (k, c) cs -> mentions_conf k -> exists b, k = conf_name b /\ ~ mentions_conf b.

(** One bar per name and index, in the order of the columns, with the index's own confidence interval as error bar. *)
Definition drawn (f : frame) (k : string) (l : list fval) : Prop := In (k, Numbers l) (fr_columns f) /\ ~ mentions_conf k.
Definition charted (f : frame) (c : chart) : Prop :=
  ch_names c = fr_index f /\
  (forall k l, drawn f k l <-> exists e, In (mkBars k l e) (ch_bars c)) /\
  (forall b, In b (ch_bars c) -> forall e, b_errors b = Some e <-> In (conf_name (b_name b), Numbers e) (fr_columns f)).

(** Not a negative number (nan is not). *)
Definition not_negative (x : fval) : Prop := forall v, x = Some v -> (0 <= v)%R.

(** A heat map that shows, in the row labelled [k], the values stored under [k], one per name. *)
Definition shown (d : items) (names ks : list string) (h : heat) : Prop :=
  ht_xlabels h = names /\ ht_ylabels h = ks /\
  Forall2 (fun k r => item d k = Some (VArray r) /\ length r = length names) ks (ht_rows h).
Definition stored (d : items) (n : nat) (k : string) : Prop := exists l, item d k = Some (VArray l) /\ length l = n.
(** Entries that have a shape, but another one. *)
Definition stored_otherwise (d : items) (n : nat) (k : string) : Prop := exists v s, item d k = Some v /\ shape v = Ok s /\ s <> [n].
(** The entries that are neither confidence intervals nor the names. *)
Definition reported (k : string) : bool := negb (ends_in_conf k) && negb (String.eqb k "names").
