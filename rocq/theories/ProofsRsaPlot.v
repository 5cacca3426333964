(** * The figure of regional sensitivity analysis. *)
From Coq Require Import Reals String List Arith ZArith Bool Lia Lra.
From Verif Require Import Base Arrays ListFacts ModelGroups SpecGroups ProofsGroups ModelScale ModelMorrisAnalyze ModelRsa SpecRsa ProofsRsa4 ModelRsaPlot SpecRsaPlot.
Import ListNotations.
Local Open Scope nat_scope.

Section Reported.
Variables (d : rsa_dict) (ns : list string) (bins : nat) (target : string) (r : list (list fval)).
Hypothesis HR : reported d ns bins target r.
Hypothesis HK : free_of_keys ns.
Hypothesis HL : Forall (fun c => length c = bins) r.
Hypothesis HN : length ns <= length r.

Definition column (c : string * option (list fval)) : rsa_panel :=
  (fst c, combine (map (fun k => INR k / INR bins)%R (seq 0 bins)) (match snd c with Some v => v | None => repeat None (length (map (fun k => INR k / INR bins)%R (seq 0 bins))) end)).

Lemma to_df_columns : exists df, rsa_to_df d = Ok df /\ map fst df = ns /\
  forall i n, nth_error ns i = Some n -> nth_error df i = Some (n, Some (nth i r [])).
Proof.
  destruct HR as (A & B & C & V). unfold rsa_to_df. rewrite A. eexists. split; [reflexivity|]. split.
  - rewrite map_map. cbn [fst]. apply map_id.
  - intros i n Hn. rewrite nth_error_map, Hn. cbn [option_map]. f_equal. f_equal.
    assert (Q : ~ In n ["names"; "bins"; "target"]%string) by (apply HK; eapply nth_error_In; eauto).
    destruct (existsb (String.eqb n) ["names"; "bins"; "target"]%string) eqn:E.
    + apply existsb_exists in E. destruct E as (x & Hx & E). apply String.eqb_eq in E. subst x. tauto.
    + rewrite (V i n Hn Q). reflexivity.
Qed.

Lemma column_panel : forall i n, nth_error ns i = Some n -> panel_is bins r i n (column (n, Some (nth i r []))).
Proof.
  intros i n Hn. assert (I : i < length ns) by (apply nth_error_Some; congruence).
  assert (L : length (nth i r []) = bins). { rewrite Forall_forall in HL. apply HL, nth_In. lia. }
  split; [reflexivity|]. unfold column. cbn [fst snd]. split.
  - rewrite combine_length, map_length, seq_length. lia.
  - intros s Hs.
    assert (Q : forall (A B : Type) (l : list A) (l' : list B) k a b, nth_error l k = Some a -> nth_error l' k = Some b -> nth_error (combine l l') k = Some (a, b)).
    { clear. induction l as [|x l IH]; intros [|y l'] [|k] a b H1 H2; simpl in *; try discriminate; [congruence|auto]. }
    apply Q.
    + rewrite nth_error_map. rewrite (nth_error_nth' _ 0) by (rewrite seq_length; auto). rewrite seq_nth by auto. reflexivity.
    + apply nth_error_nth'. lia.
Qed.

Theorem plot_all : ns <> [] -> exists ps, rsa_plot d None = Ok (("$" ++ target ++ "$ (Percentile)")%string, ps) /\
  length ps = length ns /\ forall i n, nth_error ns i = Some n -> exists p, nth_error ps i = Some p /\ panel_is bins r i n p.
Proof.
  intros NE. destruct to_df_columns as (df & E & F & H). destruct HR as (_ & B & C & _).
  unfold rsa_plot. rewrite E. cbn [bind]. rewrite B, C. cbn [rsa_select bind].
  assert (L : length df = length ns) by (rewrite <- F, map_length; auto).
  exists (map column df). split; [|split].
  - destruct df; [destruct ns; [tauto|discriminate]|reflexivity].
  - rewrite map_length. auto.
  - intros i n Hn. exists (column (n, Some (nth i r []))). split; [|apply column_panel; auto].
    rewrite nth_error_map, (H i n Hn). reflexivity.
Qed.

Lemma filter_one : forall (V : Type) (df : list (string * V)) i f v, NoDup (map fst df) -> nth_error df i = Some (f, v) ->
  filter (fun c => String.eqb (fst c) f) df = [(f, v)].
Proof.
  induction df as [|(x, w) df IH]; intros i f v ND Hi; [destruct i; discriminate|]. simpl in ND. inversion ND as [|? ? NI ND']; subst.
  destruct i as [|i]; simpl in Hi.
  - injection Hi as -> ->. cbn [filter fst]. rewrite String.eqb_refl. f_equal.
    assert (Q : forall c, In c df -> String.eqb (fst c) f = false).
    { intros c Hc. apply String.eqb_neq. intros <-. apply NI, in_map, Hc. }
    clear - Q. induction df as [|c df IH]; auto. simpl. rewrite (Q c (or_introl eq_refl)). apply IH. intros; apply Q; simpl; auto.
  - cbn [filter fst]. destruct (String.eqb x f) eqn:E.
    + apply String.eqb_eq in E. subst x. exfalso. apply NI. apply nth_error_In in Hi. apply (in_map fst) in Hi. exact Hi.
    + apply (IH i); auto.
Qed.
Lemma filter_none : forall (V : Type) (df : list (string * V)) f, ~ In f (map fst df) -> filter (fun c => String.eqb (fst c) f) df = [].
Proof.
  induction df as [|(x, w) df IH]; intros f H; auto. simpl in *. destruct (String.eqb x f) eqn:E.
  - apply String.eqb_eq in E. tauto.
  - apply IH. tauto.
Qed.

Theorem plot_some : NoDup ns -> forall fs, fs <> [] -> (forall f, In f fs -> In f ns) ->
  exists ps, rsa_plot d (Some fs) = Ok (("$" ++ target ++ "$ (Percentile)")%string, ps) /\
    Forall2 (fun f p => exists i, nth_error ns i = Some f /\ panel_is bins r i f p) fs ps.
Proof.
  intros ND fs NE HF. destruct to_df_columns as (df & E & F & H). destruct HR as (_ & B & C & _).
  unfold rsa_plot. rewrite E. cbn [bind]. rewrite B, C. cbn [rsa_select].
  assert (Q : exists cs, mapM (fun f => match filter (fun c => String.eqb (fst c) f) df with [] => Err KeyError | l => Ok l end) fs = Ok cs /\
     Forall2 (fun f c => exists i, nth_error ns i = Some f /\ c = [(f, Some (nth i r []))]) fs cs).
  { clear NE. induction fs as [|f fs IH]; [exists []; split; auto|].
    destruct IH as (cs & E1 & E2); [intros; apply HF; simpl; auto|].
    destruct (In_nth_error _ _ (HF f (or_introl eq_refl))) as (i & Hi).
    exists ([(f, Some (nth i r []))] :: cs). split; [|constructor; eauto].
    cbn [mapM]. rewrite (filter_one _ df i f (Some (nth i r []))); [|rewrite F; auto|apply H; auto]. cbn [bind]. rewrite E1. reflexivity. }
  destruct Q as (cs & -> & Q). cbn [bind]. exists (map column (concat cs)). split.
  - destruct Q as [|f c fs cs (i & _ & ->) Q]; [tauto|]. reflexivity.
  - clear NE HF. induction Q as [|f c fs cs (i & Hi & ->) Q IH]; [constructor|]. cbn [concat app map]. constructor; auto.
    exists i. split; auto. apply column_panel. auto.
Qed.

Theorem plot_unknown : forall fs f, In f fs -> ~ In f ns -> rsa_plot d (Some fs) = Err KeyError.
Proof.
  intros fs f Hf NI. destruct to_df_columns as (df & E & F & H). destruct HR as (_ & B & C & _).
  unfold rsa_plot. rewrite E. cbn [bind]. rewrite B, C. cbn [rsa_select].
  assert (Q : mapM (fun f => match filter (fun c => String.eqb (fst c) f) df with [] => Err KeyError | l => Ok l end) fs = Err KeyError).
  { induction fs as [|x fs IH]; [destruct Hf|]. cbn [mapM]. destruct Hf as [->|Hf].
    - rewrite filter_none by (rewrite F; auto). reflexivity.
    - destruct (filter _ df); [reflexivity|]. cbn [bind]. rewrite IH by auto. reflexivity. }
  rewrite Q. reflexivity.
Qed.
Theorem plot_nothing : rsa_plot d (Some []) = Err TypeError.
Proof. destruct to_df_columns as (df & E & F & H). destruct HR as (_ & B & C & _). unfold rsa_plot. rewrite E. cbn [bind]. rewrite B, C. reflexivity. Qed.
End Reported.

Lemma position_range : forall s bins, s < bins -> (0 <= INR s / INR bins < 1)%R.
Proof.
  intros s bins H. assert (P : (0 < INR bins)%R) by (apply lt_0_INR; lia). split.
  - apply Rmult_le_pos; [apply pos_INR|left; apply Rinv_0_lt_compat; auto].
  - apply (Rmult_lt_reg_r (INR bins)); auto. unfold Rdiv. rewrite Rmult_assoc, Rinv_l by lra. rewrite Rmult_1_r, Rmult_1_l. apply lt_INR. auto.
Qed.

Lemma dict_get_absent d k : ~ In k (map fst d) -> dict_get d k = None.
Proof.
  induction d as [|[k' v] d IH]; cbn; intros H; auto. destruct (String.eqb_spec k' k) as [->|]; [exfalso; auto|]. apply IH. auto.
Qed.
Lemma plot_incomplete d factors k : In k ["names"; "bins"; "target"]%string -> ~ In k (map fst d) -> rsa_plot d factors = Err KeyError.
Proof.
  intros HK HN. apply dict_get_absent in HN. unfold rsa_plot, rsa_to_df.
  destruct HK as [<-|[<-|[<-|[]]]].
  - rewrite HN. reflexivity.
  - destruct (dict_get d "names") as [[]|]; try reflexivity. cbn [bind]. rewrite HN. reflexivity.
  - destruct (dict_get d "names") as [[]|]; try reflexivity. cbn [bind]. rewrite HN. destruct (dict_get d "bins") as [[]|]; reflexivity.
Qed.
