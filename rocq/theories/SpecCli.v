(** * What the command line is meant to do: which parameter of the library function an option stands for. *)
From Coq Require Import ZArith String List Ascii Bool.
From Verif Require Import ModelCli.
Import ListNotations.
Local Open Scope string_scope.

(** "--max-iter" stands for max_iter … *)
Fixpoint underscores (s : string) : string :=
  match s with EmptyString => EmptyString | String c s => String (if Ascii.eqb c "-"%char then "_"%char else c) (underscores s) end.
Definition bare (flag : string) : string := match flag with String "-" (String "-" s) => underscores s | _ => flag end.

(** … except for these. *)
Definition renamed : list (string * string) :=
  [("--samples", "N"); ("--resamples", "num_resamples"); ("--levels", "num_levels"); ("--k-optimal", "optimal_trajectories");
   ("--local", "local_optimization"); ("--slices", "S"); ("--m-int", "m"); ("--K-bootstrap", "K"); ("--R-subsample", "R"); ("--m-coef", "M");
   ("--processors", "n_processors"); ("--output", "savetxt.fname"); ("--delimiter", "savetxt.delimiter"); ("--precision", "savetxt.fmt")].
Definition meant (flag : string) : string :=
  match find (fun p => fst p =? flag) renamed with Some p => snd p | None => bare flag end.

(** "--max-order 2" asks for second-order indices. *)
Definition order_parameter (method : string) : string := if method =? "ff" then "second_order" else "calc_second_order".

(** The options that do not stand for one parameter: the order of indices, files and how to read them, and delta's bins. *)
Definition special (action dest : string) : bool :=
  existsb (String.eqb dest) ["paramfile"; "model_input_file"; "model_output_file"; "column"; "bins_specs"]
  || (dest =? "delimiter") && (action =? "analyze").

(** Options without effect: (action, method, option). *)
Definition ignored : list (string * string * string) :=
  [("sample", "ff", "samples"); ("sample", "sobol", "seed"); ("sample", "sobol", "skip_values"); ("analyze", "hdmr", "seed");
   ("analyze", "enhanced_hdmr", "seed")].

Definition is_ignored (m : method) (o : opt) : Prop := In (m_action m, m_name m, o_dest o) ignored.

(** The last of an option's flags is its long name. *)
Definition long (o : opt) : string := last (o_flags o) "".

(** The option's value on a command line: that of its last occurrence, or its default. *)
Definition occurs (o : opt) (cl : list (string * string)) : Prop := exists flag text, In (flag, text) cl /\ In flag (o_flags o).
Definition has_value (convert : opt -> string -> option aval) (cl : list (string * string)) (o : opt) (v : aval) : Prop :=
  ~ occurs o cl /\ v = o_default o
  \/ exists cl1 flag text cl2, cl = (cl1 ++ (flag, text) :: cl2)%list /\ In flag (o_flags o) /\ ~ occurs o cl2 /\ convert o text = Some v.

(** The parameter that an ordinary option stands for and the argument that its value stands for. *)
Definition parameter (m : method) (o : opt) : string := match o_choices o with Some _ => order_parameter (m_name m) | None => meant (long o) end.
Definition argument (o : opt) (v : aval) : aval :=
  match o_choices o with Some _ => VBool (match v with VInt z => Z.eqb z 2 | _ => false end) | None => v end.

(** Options whose default is not the library's: method, option, parameter, what is passed when the option is left out, the library's default. *)
Definition differing : list (method * string * string * aval * aval) :=
  [(a_morris, "resamples", "num_resamples", VInt 1000, VInt 100); (a_dgsm, "resamples", "num_resamples", VInt 1000, VInt 100);
   (a_delta, "resamples", "num_resamples", VInt 10, VInt 100); (a_pawn, "slices", "S", VNone, VInt 10);
   (a_rsa, "bins", "bins", VNone, VInt 20); (a_rsa, "target", "target", VNone, VStr "Y");
   (a_ff, "max_order", "second_order", VBool true, VBool false)].
Definition differs (m : method) (o : opt) : Prop :=
  exists x, In x differing /\ m_action (fst (fst (fst (fst x)))) = m_action m /\ m_name (fst (fst (fst (fst x)))) = m_name m /\ snd (fst (fst (fst x))) = o_dest o.

(** "true", with capital or small letters. *)
Definition spells_true (text : string) : Prop :=
  exists t r u e, text = String t (String r (String u (String e EmptyString)))
    /\ In t ["t"; "T"]%char /\ In r ["r"; "R"]%char /\ In u ["u"; "U"]%char /\ In e ["e"; "E"]%char.
