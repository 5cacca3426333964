(** * Model of the command line (src/SALib/scripts/salib.py, common_args.py and the cli_parse/cli_action functions).

    A command line is the list of its options with their texts, as [(flag, text)]; how argparse splits it into these (abbreviations,
    [--flag=value], values that begin with a dash, help) is not modelled.  [int_of] and [float_of] are Python's int and float of a text. *)
From Coq Require Import Reals String List Arith ZArith Bool Ascii.
From Verif Require Import Base.
Import ListNotations.
Local Open Scope string_scope.

(** Values of options and arguments. Files are not read: a loaded table is represented by the arguments of np.loadtxt, a problem by the file
    that read_param_file was given. *)
Inductive aval :=
  | VNone | VBool (b : bool) | VInt (z : Z) | VNum (r : R) | VStr (s : string)
  | VProblem (file : aval) | VTable (file delimiter : aval) (column : option aval) (ndmin : nat)
  | VEmptyDict | VJsonText (s : string) | VJsonFile (s : string).

(** The [type] of an option: int, float, str, bool, the lambda of enhanced_hdmr.py:1653, and action="store_true". *)
Inductive otype := TInt | TFloat | TStr | TBool | TTrueText | TFlag.

Record opt := mkOpt { o_flags : list string; o_dest : string; o_type : otype; o_required : bool; o_default : aval; o_choices : option (list Z) }.

(** str.lower for ASCII. *)
Definition lower_ascii (c : ascii) : ascii :=
  let n := nat_of_ascii c in if (65 <=? n)%nat && (n <=? 90)%nat then ascii_of_nat (n + 32) else c.
Fixpoint lower (s : string) : string := match s with EmptyString => EmptyString | String c s => String (lower_ascii c) (lower s) end.

(** str.strip().startswith("{"), for spaces, tabs and line ends. *)
Fixpoint opens_brace (s : string) : bool :=
  match s with
  | EmptyString => false
  | String c s => if existsb (Ascii.eqb c) [" "; "009"; "010"; "013"]%char then opens_brace s else Ascii.eqb c "{"%char
  end.

Section Parse.
Variable int_of : string -> option Z.
Variable float_of : string -> option R.

(** The value that an option's text is converted to; [None] when argparse reports an error. *)
Definition convert (o : opt) (text : string) : option aval :=
  match o_type o with
  | TInt =>
      match int_of text with
      | Some z => match o_choices o with
                  | Some cs => if existsb (Z.eqb z) cs then Some (VInt z) else None
                  | None => Some (VInt z)
                  end
      | None => None
      end
  | TFloat => option_map VNum (float_of text)
  | TStr => Some (VStr text)
  | TBool => Some (VBool (negb (text =? "")))
  | TTrueText => Some (VBool (lower text =? "true"))
  | TFlag => if text =? "" then Some (VBool true) else None
  end.

Definition namespace := string -> aval.
Definition assign (ns : namespace) (dest : string) (v : aval) : namespace := fun d => if d =? dest then v else ns d.

Definition defaults (os : list opt) : namespace :=
  fun d => match find (fun o => o_dest o =? d) os with Some o => o_default o | None => VNone end.

(** argparse's parse_args; every error ends the program, here [Err UserError]. *)
Fixpoint parse_from (os : list opt) (ns : namespace) (cl : list (string * string)) : result namespace :=
  match cl with
  | [] => Ok ns
  | (flag, text) :: cl =>
      match find (fun o => existsb (String.eqb flag) (o_flags o)) os with
      | None => Err UserError
      | Some o => match convert o text with
                  | None => Err UserError
                  | Some v => parse_from os (assign ns (o_dest o) v) cl
                  end
      end
  end.

Definition given (cl : list (string * string)) (o : opt) : bool := existsb (fun f => existsb (String.eqb (fst f)) (o_flags o)) cl.

Definition parse_args (os : list opt) (cl : list (string * string)) : result namespace :=
  do ns <- parse_from os (defaults os) cl ;;
  if forallb (fun o => negb (o_required o) || given cl o) os then Ok ns else Err UserError.

(** ** The arguments of a call, in terms of the parsed options *)

Inductive expr :=
  | EArg (dest : string)                  (* args.dest *)
  | EIs2 (dest : string)                  (* args.dest == 2 *)
  | EConst (v : aval)
  | EProblem (dest : string)              (* read_param_file(args.dest) *)
  | ETable (file delimiter : string) (column : option string) (ndmin : nat)  (* np.loadtxt *)
  | EBins (dest : string).                (* delta.py:626-638; a file that cannot be read raises ValueError, not modelled *)

Definition eval (ns : namespace) (e : expr) : aval :=
  match e with
  | EArg d => ns d
  | EIs2 d => VBool (match ns d with VInt z => Z.eqb z 2 | _ => false end)
  | EConst v => v
  | EProblem d => VProblem (ns d)
  | ETable f d c n => VTable (ns f) (ns d) (option_map ns c) n
  | EBins d => match ns d with VStr s => if opens_brace s then VJsonText s else VJsonFile s | _ => VEmptyDict end
  end.

(** A method: its options, the arguments it passes to the library function (and to np.savetxt), and the default values of the parameters of
    that function. *)
Record method := mkMethod { m_action : string; m_name : string; m_options : list opt; m_call : list (string * expr); m_params : list (string * aval) }.

Definition call := list (string * aval).
(** common_args.run_cli. *)
Definition run (m : method) (cl : list (string * string)) : result call :=
  do ns <- parse_args (m_options m) cl ;;
  Ok (map (fun pe => (fst pe, eval ns (snd pe))) (m_call m)).
End Parse.

(** ** Tables *)

Definition req (flags : list string) (dest : string) (t : otype) : opt := mkOpt flags dest t true VNone None.
Definition may (flags : list string) (dest : string) (t : otype) (v : aval) : opt := mkOpt flags dest t false v None.
Definition order_option : opt := mkOpt ["--max-order"] "max_order" TInt false (VInt 2) (Some [1; 2]%Z).

(** sample/common_args.py:15-35. *)
Definition sample_options : list opt :=
  [req ["-n"; "--samples"] "samples" TInt; req ["-p"; "--paramfile"] "paramfile" TStr; req ["-o"; "--output"] "output" TStr;
   may ["-s"; "--seed"] "seed" TInt VNone; may ["--delimiter"] "delimiter" TStr (VStr " "); may ["--precision"] "precision" TInt (VInt 8)].
(** analyze/common_args.py:8-31. *)
Definition analyze_options : list opt :=
  [req ["-p"; "--paramfile"] "paramfile" TStr; req ["-Y"; "--model-output-file"] "model_output_file" TStr;
   may ["-c"; "--column"] "column" TInt (VInt 0); may ["--delimiter"] "delimiter" TStr (VStr " "); may ["-s"; "--seed"] "seed" TInt VNone].
Definition input_file : opt := req ["-X"; "--model-input-file"] "model_input_file" TStr.

(** The call of np.savetxt that ends every sampler's cli_action, e.g. sample/latin.py:96-101; [fmt] is given by its precision. *)
Definition savetxt : list (string * expr) :=
  [("savetxt.fname", EArg "output"); ("savetxt.delimiter", EArg "delimiter"); ("savetxt.fmt", EArg "precision")].
Definition outputs : expr := ETable "model_output_file" "delimiter" (Some "column") 0.
Definition inputs (ndmin : nat) : expr := ETable "model_input_file" "delimiter" None ndmin.

(** sample/fast_sampler.py:11, 97-138. *)
Definition s_fast : method := mkMethod "sample" "fast_sampler" (sample_options ++ [may ["-M"; "--m-coef"] "M" TInt (VInt 4)])
  ([("problem", EProblem "paramfile"); ("N", EArg "samples"); ("M", EArg "M"); ("seed", EArg "seed")] ++ savetxt)
  [("M", VInt 4); ("seed", VNone)].
(** sample/ff.py:79, 130-147. *)
Definition s_ff : method := mkMethod "sample" "ff" sample_options
  ([("problem", EProblem "paramfile"); ("seed", EArg "seed")] ++ savetxt) [("seed", VNone)].
(** sample/finite_diff.py:9-15, 86-122. *)
Definition s_fd : method := mkMethod "sample" "finite_diff" (sample_options ++ [may ["-d"; "--delta"] "delta" TFloat (VNum (1 / 100))])
  ([("problem", EProblem "paramfile"); ("N", EArg "samples"); ("delta", EArg "delta"); ("seed", EArg "seed")] ++ savetxt)
  [("delta", VNum (1 / 100)); ("seed", VNone); ("skip_values", VInt 1024)].
(** sample/latin.py:9, 84-101. *)
Definition s_latin : method := mkMethod "sample" "latin" sample_options
  ([("problem", EProblem "paramfile"); ("N", EArg "samples"); ("seed", EArg "seed")] ++ savetxt) [("seed", VNone)].
(** sample/morris/morris.py:24-31, 426-473. *)
Definition s_morris : method := mkMethod "sample" "morris"
  (sample_options ++ [may ["-l"; "--levels"] "levels" TInt (VInt 4); may ["-k"; "--k-optimal"] "k_optimal" TInt VNone; req ["-lo"; "--local"] "local" TBool])
  ([("problem", EProblem "paramfile"); ("N", EArg "samples"); ("num_levels", EArg "levels"); ("optimal_trajectories", EArg "k_optimal");
    ("local_optimization", EArg "local"); ("seed", EArg "seed")] ++ savetxt)
  [("num_levels", VInt 4); ("optimal_trajectories", VNone); ("local_optimization", VBool true); ("seed", VNone)].
(** sample/saltelli.py:12-14, 206-264: the seed option is removed. *)
Definition s_saltelli : method := mkMethod "sample" "saltelli"
  (filter (fun o => negb (o_dest o =? "seed")) sample_options ++ [order_option; may ["--skip-values"] "skip_values" TInt VNone])
  ([("problem", EProblem "paramfile"); ("N", EArg "samples"); ("calc_second_order", EIs2 "max_order"); ("skip_values", EArg "skip_values")] ++ savetxt)
  [("calc_second_order", VBool true); ("skip_values", VNone)].
(** sample/sobol.py:11-19, 192-251. *)
Definition s_sobol : method := mkMethod "sample" "sobol"
  (sample_options ++ [order_option; may ["--scramble"] "scramble" TInt (VBool true); may ["--skip-values"] "skip_values" TInt VNone])
  ([("problem", EProblem "paramfile"); ("N", EArg "samples"); ("calc_second_order", EIs2 "max_order"); ("scramble", EArg "scramble")] ++ savetxt)
  [("calc_second_order", VBool true); ("scramble", VBool true); ("skip_values", VInt 0); ("seed", VNone)].

(** analyze/delta.py:38-50, 564-651. *)
Definition a_delta : method := mkMethod "analyze" "delta"
  (analyze_options ++ [input_file; may ["-r"; "--resamples"] "resamples" TInt (VInt 10); may ["-m"; "--method"] "method" TStr (VStr "all");
     may ["--y_resamples"] "y_resamples" TInt VNone; may ["--bootstrap_savedf"] "bootstrap_savedf" TStr VNone; may ["--bins_specs"] "bins_specs" TStr VNone])
  [("problem", EProblem "paramfile"); ("X", inputs 2); ("Y", outputs); ("num_resamples", EArg "resamples"); ("print_to_console", EConst (VBool true));
   ("seed", EArg "seed"); ("method", EArg "method"); ("y_resamples", EArg "y_resamples"); ("bootstrap_savedf", EArg "bootstrap_savedf");
   ("bins_specs", EBins "bins_specs")]
  [("num_resamples", VInt 100); ("conf_level", VNum (95 / 100)); ("seed", VNone); ("y_resamples", VNone); ("method", VStr "all");
   ("bootstrap_savedf", VNone); ("bins_specs", VEmptyDict)].
(** analyze/dgsm.py:9-11, 144-182. *)
Definition a_dgsm : method := mkMethod "analyze" "dgsm"
  (analyze_options ++ [input_file; may ["-r"; "--resamples"] "resamples" TInt (VInt 1000)])
  [("problem", EProblem "paramfile"); ("X", inputs 2); ("Y", outputs); ("num_resamples", EArg "resamples"); ("print_to_console", EConst (VBool true));
   ("seed", EArg "seed")]
  [("num_resamples", VInt 100); ("conf_level", VNum (95 / 100)); ("seed", VNone)].
(** analyze/discrepancy.py:10-17, 125-145. *)
Definition a_discrepancy : method := mkMethod "analyze" "discrepancy" (analyze_options ++ [input_file])
  [("problem", EProblem "paramfile"); ("X", inputs 0); ("Y", outputs); ("print_to_console", EConst (VBool true)); ("seed", EArg "seed")]
  [("method", VStr "WD"); ("seed", VNone)].
(** analyze/enhanced_hdmr.py:20-35, 1583-1698. *)
Definition a_ehdmr : method := mkMethod "analyze" "enhanced_hdmr"
  (analyze_options ++ [input_file; req ["-mor"; "--max-order"] "max_order" TInt; req ["-por"; "--poly-order"] "poly_order" TInt;
     may ["-K"; "--bootstrap"] "bootstrap" TInt (VInt 20); may ["-R"; "--subset"] "subset" TInt VNone; may ["-mit"; "--max-iter"] "max_iter" TInt (VInt 100);
     may ["-l2"; "--l2-penalty"] "l2_penalty" TFloat (VNum (1 / 100)); may ["-a"; "--alpha"] "alpha" TFloat (VNum (95 / 100));
     req ["-ext"; "--extended-base"] "extended_base" TTrueText; may ["-print"; "--print-to-console"] "print_to_console" TTrueText (VBool false);
     may ["-emul"; "--return-emulator"] "return_emulator" TTrueText (VBool false)])
  [("problem", EProblem "paramfile"); ("X", inputs 2); ("Y", outputs); ("max_order", EArg "max_order"); ("poly_order", EArg "poly_order");
   ("bootstrap", EArg "bootstrap"); ("subset", EArg "subset"); ("max_iter", EArg "max_iter"); ("l2_penalty", EArg "l2_penalty"); ("alpha", EArg "alpha");
   ("extended_base", EArg "extended_base"); ("print_to_console", EArg "print_to_console"); ("return_emulator", EArg "return_emulator")]
  [("max_order", VInt 2); ("poly_order", VInt 3); ("bootstrap", VInt 20); ("subset", VNone); ("max_iter", VInt 100); ("l2_penalty", VNum (1 / 100));
   ("alpha", VNum (95 / 100)); ("extended_base", VBool true); ("print_to_console", VBool false); ("return_emulator", VBool false); ("seed", VNone)].
(** analyze/fast.py:9-17, 150-189. *)
Definition a_fast : method := mkMethod "analyze" "fast"
  (analyze_options ++ [may ["-M"; "--M"] "M" TInt (VInt 4); may ["-r"; "--resamples"] "resamples" TInt (VInt 100)])
  [("problem", EProblem "paramfile"); ("Y", outputs); ("M", EArg "M"); ("num_resamples", EArg "resamples"); ("print_to_console", EConst (VBool true));
   ("seed", EArg "seed")]
  [("M", VInt 4); ("num_resamples", VInt 100); ("conf_level", VNum (95 / 100)); ("seed", VNone)].
(** analyze/ff.py:17, 161-190. *)
Definition a_ff : method := mkMethod "analyze" "ff" (analyze_options ++ [input_file; order_option])
  [("problem", EProblem "paramfile"); ("X", inputs 2); ("Y", outputs); ("second_order", EIs2 "max_order"); ("print_to_console", EConst (VBool true));
   ("seed", EArg "seed")]
  [("second_order", VBool false); ("seed", VNone)].
(** analyze/hdmr.py:26-39, 1007-1097. *)
Definition a_hdmr : method := mkMethod "analyze" "hdmr"
  (analyze_options ++ [input_file; may ["-mor"; "--maxorder"] "maxorder" TInt (VInt 2); may ["-mit"; "--maxiter"] "maxiter" TInt (VInt 100);
     may ["-m"; "--m-int"] "m_int" TInt (VInt 2); may ["-K"; "--K-bootstrap"] "K_bootstrap" TInt (VInt 20); may ["-R"; "--R-subsample"] "R_subsample" TInt VNone;
     may ["-a"; "--alpha"] "alpha" TFloat (VNum (95 / 100)); may ["-lambda"; "--lambdax"] "lambdax" TFloat (VNum (1 / 100))])
  [("problem", EProblem "paramfile"); ("X", inputs 2); ("Y", outputs); ("maxorder", EArg "maxorder"); ("maxiter", EArg "maxiter"); ("m", EArg "m_int");
   ("K", EArg "K_bootstrap"); ("R", EArg "R_subsample"); ("alpha", EArg "alpha"); ("lambdax", EArg "lambdax"); ("print_to_console", EConst (VBool true))]
  [("maxorder", VInt 2); ("maxiter", VInt 100); ("m", VInt 2); ("K", VInt 20); ("R", VNone); ("alpha", VNum (95 / 100)); ("lambdax", VNum (1 / 100));
   ("seed", VNone)].
(** analyze/morris.py:16-26, 604-659. *)
Definition a_morris : method := mkMethod "analyze" "morris"
  (analyze_options ++ [input_file; may ["-r"; "--resamples"] "resamples" TInt (VInt 1000); may ["-l"; "--levels"] "levels" TInt (VInt 4);
     may ["--scaled"] "scaled" TBool (VBool false)])
  [("problem", EProblem "paramfile"); ("X", inputs 2); ("Y", outputs); ("num_resamples", EArg "resamples"); ("scaled", EArg "scaled");
   ("print_to_console", EConst (VBool true)); ("num_levels", EArg "levels"); ("seed", EArg "seed")]
  [("num_resamples", VInt 100); ("conf_level", VNum (95 / 100)); ("scaled", VBool false); ("num_levels", VInt 4); ("seed", VNone)].
(** analyze/pawn.py:10-17, 178-195. *)
Definition a_pawn : method := mkMethod "analyze" "pawn" (analyze_options ++ [input_file; may ["-S"; "--slices"] "slices" TInt VNone])
  [("problem", EProblem "paramfile"); ("X", inputs 0); ("Y", outputs); ("S", EArg "slices"); ("print_to_console", EConst (VBool true)); ("seed", EArg "seed")]
  [("S", VInt 10); ("seed", VNone)].
(** analyze/rbd_fast.py:13-22, 160-192. *)
Definition a_rbd : method := mkMethod "analyze" "rbd_fast"
  (analyze_options ++ [input_file; may ["-M"; "--M"] "M" TInt (VInt 10); may ["-r"; "--resamples"] "resamples" TInt (VInt 100)])
  [("problem", EProblem "paramfile"); ("X", inputs 0); ("Y", outputs); ("M", EArg "M"); ("num_resamples", EArg "resamples");
   ("print_to_console", EConst (VBool true)); ("seed", EArg "seed")]
  [("M", VInt 10); ("num_resamples", VInt 100); ("conf_level", VNum (95 / 100)); ("seed", VNone)].
(** analyze/rsa.py:13-21, 243-281. *)
Definition a_rsa : method := mkMethod "analyze" "rsa"
  (analyze_options ++ [input_file; may ["-b"; "--bins"] "bins" TInt VNone; may ["-t"; "--target"] "target" TStr VNone])
  [("problem", EProblem "paramfile"); ("X", inputs 0); ("Y", outputs); ("bins", EArg "bins"); ("target", EArg "target");
   ("print_to_console", EConst (VBool true)); ("seed", EArg "seed")]
  [("bins", VInt 20); ("target", VStr "Y"); ("seed", VNone)].
(** analyze/sobol.py:23-34, 442-491. *)
Definition a_sobol : method := mkMethod "analyze" "sobol"
  (analyze_options ++ [order_option; may ["-r"; "--resamples"] "resamples" TInt (VInt 100); may ["--parallel"] "parallel" TFlag (VBool false);
     may ["--processors"] "n_processors" TInt VNone])
  [("problem", EProblem "paramfile"); ("Y", outputs); ("calc_second_order", EIs2 "max_order"); ("num_resamples", EArg "resamples");
   ("print_to_console", EConst (VBool true)); ("parallel", EArg "parallel"); ("n_processors", EArg "n_processors"); ("seed", EArg "seed")]
  [("calc_second_order", VBool true); ("num_resamples", VInt 100); ("conf_level", VNum (95 / 100)); ("parallel", VBool false); ("n_processors", VNone);
   ("keep_resamples", VBool false); ("seed", VNone)].

(** avail_approaches, util/util_funcs.py:10-30, on the two packages. *)
Definition methods : list method :=
  [s_fast; s_ff; s_fd; s_latin; s_morris; s_saltelli; s_sobol;
   a_delta; a_dgsm; a_discrepancy; a_ehdmr; a_fast; a_ff; a_hdmr; a_morris; a_pawn; a_rbd; a_rsa; a_sobol].

(** main, scripts/salib.py:33-63. *)
Definition salib (int_of : string -> option Z) (float_of : string -> option R) (action name : string) (cl : list (string * string)) : result call :=
  match find (fun m => (m_action m =? action) && (m_name m =? name)) methods with
  | Some m => run int_of float_of m cl
  | None => Err UserError
  end.
