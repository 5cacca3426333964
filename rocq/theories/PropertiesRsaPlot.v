(** * Property C129 (the figure of regional sensitivity analysis). *)
From Coq Require Import Reals String List Arith ZArith Bool Lia Lra.
From Verif Require Import Base Arrays ModelGroups SpecGroups ModelScale SpecSobol ModelRsa SpecRsa ProofsRsa4 ModelRsaPlot SpecRsaPlot ProofsRsaPlot PropertiesRsa.
Import ListNotations.
Local Open Scope nat_scope.

(** C129: without groups the figure has one panel per parameter, in their order; the panel of a parameter shows its column of the table. *)
Theorem C129_panels : forall p X Y bins target ls ns r, ungrouped p -> labels_of p ls -> first_appearance ls ns -> ns <> [] -> length ns <= cols X ->
  free_of_keys ns -> rsa X Y bins target = Ok r -> exists d ps, rsa_analyze p X Y bins target = Ok d /\
    rsa_plot d None = Ok (("$" ++ target ++ "$ (Percentile)")%string, ps) /\ length ps = length ns /\
    forall i n, nth_error ns i = Some n -> exists q, nth_error ps i = Some q /\ panel_is bins r i n q.
Proof.
  intros p X Y bins target ls ns r HU HL HF NE HC HK HR.
  destruct (rsa_ungrouped p X Y bins target ls ns r HU HL HF HC HR) as (d & E & H). destruct (rsa_shape _ _ _ _ _ HR) as (L & F).
  destruct (plot_all d ns bins target r H HK F ltac:(lia) NE) as (ps & Q). exists d, ps. auto.
Qed.
Print Assumptions C129_panels.

(** C129: [factors] selects panels and their order; an unknown one is a KeyError, none at all a TypeError. *)
Theorem C129_factors : forall p X Y bins target ls ns r fs, ungrouped p -> labels_of p ls -> first_appearance ls ns -> length ns <= cols X ->
  free_of_keys ns -> rsa X Y bins target = Ok r -> exists d, rsa_analyze p X Y bins target = Ok d /\
    (fs <> [] -> (forall f, In f fs -> In f ns) -> exists ps, rsa_plot d (Some fs) = Ok (("$" ++ target ++ "$ (Percentile)")%string, ps) /\
       Forall2 (fun f q => exists i, nth_error ns i = Some f /\ panel_is bins r i f q) fs ps) /\
    ((exists f, In f fs /\ ~ In f ns) -> rsa_plot d (Some fs) = Err KeyError) /\
    (fs = [] -> rsa_plot d (Some fs) = Err TypeError).
Proof.
  intros p X Y bins target ls ns r fs HU HL HF HC HK HR.
  destruct (rsa_ungrouped p X Y bins target ls ns r HU HL HF HC HR) as (d & E & H). destruct (rsa_shape _ _ _ _ _ HR) as (L & F).
  exists d. split; auto. split; [|split].
  - intros NE HI. apply (plot_some d ns bins target r H HK F ltac:(lia)); auto. apply HF.
  - intros (f & Hf & NI). apply (plot_unknown d ns bins target r H HK fs f); auto.
  - intros ->. apply (plot_nothing d ns bins target r H HK).
Qed.
Print Assumptions C129_factors.

(** C129: a result without its names, bins or target cannot be drawn, whatever the factors. *)
Theorem C129_incomplete : forall d factors k, In k ["names"; "bins"; "target"]%string -> ~ In k (map fst d) -> rsa_plot d factors = Err KeyError.
Proof. intros d factors k HK HN. apply (plot_incomplete d factors k HK HN). Qed.
Print Assumptions C129_incomplete.

(** C129, what fails: the horizontal positions are not the percentiles the label promises.  They are fractions below 1, and those of every bin
    but the first differ from its percentile. *)
Theorem C129_percentile_refuted : forall bins r i n q, panel_is bins r i n q -> forall s, 0 < s < bins ->
  exists x v, nth_error (snd q) s = Some (x, v) /\ (0 < x < 1)%R /\ x <> (100 * INR s / INR bins)%R.
Proof.
  intros bins r i n q (_ & _ & H) s Hs. exists (INR s / INR bins)%R. eexists. split; [apply H; lia|].
  pose proof (position_range s bins ltac:(lia)) as P.
  assert (Q : (0 < INR s / INR bins)%R).
  { apply Rmult_lt_0_compat; [apply lt_0_INR; lia|apply Rinv_0_lt_compat, lt_0_INR; lia]. }
  split; [lra|]. unfold Rdiv in *. rewrite Rmult_assoc. lra.
Qed.
Print Assumptions C129_percentile_refuted.

(** The figure of the five runs of C42: one panel, two points of equal height at 0 and 1/2. *)
Example C129_example : exists d ps, rsa_analyze (mkProblem 1 ["x"%string] [[0; 1]%R] None None false) rsa_ex5 ex5 2 "Y" = Ok d /\
  rsa_plot d None = Ok ("$Y$ (Percentile)"%string, ps) /\ map fst ps = ["x"%string] /\
  map snd ps = [[((INR 0 / INR 2)%R, Some (13/30)%R); ((INR 1 / INR 2)%R, Some (13/30)%R)]] /\ rsa_plot d (Some ["z"%string]) = Err KeyError.
Proof.
  unfold rsa_analyze. rewrite C42_example. eexists. eexists. split; [reflexivity|]. split; [reflexivity|]. repeat split.
Qed.

(** A result that lost its target. *)
Example C129_incomplete_example : rsa_plot [("x", Values [Some 0%R]); ("names", Names ["x"]); ("bins", Bins [0%R])]%string None = Err KeyError.
Proof. apply (C129_incomplete _ _ "target"%string); cbn; [auto|]. intros [E|[E|[E|[]]]]; discriminate. Qed.
