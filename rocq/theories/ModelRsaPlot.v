(** * The figure of regional sensitivity analysis: analyze/rsa.py plot. *)
From Coq Require Import Reals String List Arith Bool.
From Verif Require Import Base ModelScale ModelMorrisAnalyze ModelRsa.
Import ListNotations.

(** A panel: its column and the points of its curve, a missing value being a gap. *)
Definition rsa_panel := (string * list (R * fval))%type.

(** [Si_df.loc[:, factors]], rsa.py:225-229: every column for [None] (slice(None)), else for each label asked for the columns of that
    name; KeyError for an unknown one.  A single label given as a text is a list of one. *)
Definition rsa_select {V} (df : list (string * V)) (factors : option (list string)) : result (list (string * V)) :=
  match factors with
  | None => Ok df
  | Some fs =>
      do cs <- mapM (fun f => match filter (fun c => String.eqb (fst c) f) df with [] => Err KeyError | l => Ok l end) fs ;;
      Ok (concat cs)
  end.

(** plot, rsa.py:210-241: the label below the panels and the panels, one per column (subplots=True), each the values over the index of the
    table.  pandas refuses a table without columns (TypeError); matplotlib leaves gaps at nan.  Colours, legend and layout are left out. *)
Definition rsa_plot (d : rsa_dict) (factors : option (list string)) : result (string * list rsa_panel) :=
  do df <- rsa_to_df d ;;
  match dict_get d "bins", dict_get d "target" with
  | Some (Bins bs), Some (Target t) =>
      do cs <- rsa_select df factors ;;
      match cs with
      | [] => Err TypeError
      | _ => Ok ("$" ++ t ++ "$ (Percentile)",
                 map (fun c => (fst c, combine bs (match snd c with Some v => v | None => repeat None (length bs) end))) cs)%string
      end
  | _, _ => Err KeyError
  end.
