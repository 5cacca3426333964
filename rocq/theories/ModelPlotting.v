(** * Model of util/results.py, plotting/*.py and of to_df, plot and heatmap of util/problem.py:464-537.

    Drawing itself (pandas, matplotlib) is reduced to what is drawn where: bars with their error bars, rows of a heat map
    with their labels, panels of a figure with their titles. *)
From Coq Require Import Reals String List Arith ZArith Bool.
From Verif Require Import Base Arrays ModelGroups ModelScale ModelSobol ModelFast ModelMorrisAnalyze ModelRbd ModelDgsm ModelPawn ModelFF ModelDelta ModelHdmr.
Import ListNotations.
Local Open Scope nat_scope.

(** Entries of a result dictionary: numpy vectors and matrices, lists of numbers, lists of texts, scalars, anything else. *)
Inductive value := VArray (l : list fval) | VTable (l : list (list fval)) | VList (l : list fval) | VTexts (l : list string) | VScalar (x : fval) | VOther.
Definition items := list (string * value).
Fixpoint item (d : items) (k : string) : option value :=
  match d with [] => None | (k', v) :: d => if String.eqb k k' then Some v else item d k end.

(** ** Data frames *)
Inductive column := Numbers (l : list fval) | Texts (l : list string).
Definition column_length (c : column) : nat := match c with Numbers l => length l | Texts l => length l end.
Record frame := mkFrame { fr_index : list (list string); fr_columns : list (string * column) }.
(** pd.DataFrame(dict, index=...): ValueError when a column and the index differ in length. *)
Definition make_frame (index : list (list string)) (cs : list (string * column)) : result frame :=
  if forallb (fun c => column_length (snd c) =? length index) cs then Ok (mkFrame index cs) else Err ValueError.

(** ResultDict.to_df, util/results.py:15-19.  Matrices are refused by pandas; scalars and other objects do not occur in the
    dictionaries of the analysers that inherit this method (UserError stands for "not modelled"). *)
Definition result_frame (d : items) : result frame :=
  match item d "names" with
  | Some (VTexts names) =>
      do cs <- mapM (fun kv => match snd kv with
                               | VArray l | VList l => Ok (fst kv, Numbers l)
                               | VTexts l => Ok (fst kv, Texts l)
                               | VTable _ => Err ValueError
                               | _ => Err UserError end) (filter (fun kv => negb (String.eqb (fst kv) "names")) d) ;;
      make_frame (map (fun n => [n]) names) cs
  | _ => Err KeyError
  end.

(** ** Bar charts *)
(** [pat in s], and [s.replace(pat, "")] for a non-empty [pat]: occurrences are removed from left to right. *)
Fixpoint contains (pat s : string) : bool :=
  String.prefix pat s || match s with EmptyString => false | String _ r => contains pat r end.
Fixpoint skip (n : nat) (s : string) : string :=
  match n, s with S n, String _ r => skip n r | _, _ => s end.
Fixpoint erase_from (fuel : nat) (pat s : string) : string :=
  match fuel with
  | 0 => s
  | S fuel => if String.prefix pat s then erase_from fuel pat (skip (String.length pat) s)
              else match s with EmptyString => EmptyString | String c r => String c (erase_from fuel pat r) end
  end.
Definition erase (pat s : string) : string := erase_from (String.length s) pat s.

(** A group of bars: the name of the column, the heights and the error bars. *)
Record bars := mkBars { b_name : string; b_heights : list fval; b_errors : option (list fval) }.
Record chart := mkChart { ch_names : list (list string); ch_bars : list bars }.

Definition numeric (cs : list (string * column)) : list (string * list fval) :=
  flat_map (fun c => match snd c with Numbers l => [(fst c, l)] | Texts _ => [] end) cs.
Fixpoint find_column (cs : list (string * list fval)) (k : string) : option (list fval) :=
  match cs with [] => None | (k', l) :: cs => if String.eqb k k' then Some l else find_column cs k end.
Definition negative (x : fval) : bool := match x with Some x => Rltb x 0 | None => false end.

(** plot, plotting/bar.py:7-41.  pandas draws the numeric columns and takes the error bars of a column from the column of
    the same name of [yerr]; matplotlib raises ValueError for negative error bars, pandas TypeError without numeric columns. *)
Definition bar_plot (f : frame) : result chart :=
  let conf := fun c : string * column => contains "_conf" (fst c) in
  let confs := map (fun c => (erase "_conf" (fst c), snd c)) (numeric (filter conf (fr_columns f))) in
  let sis := numeric (filter (fun c => negb (conf c)) (fr_columns f)) in
  if existsb (fun c => existsb negative (snd c)) (filter (fun c => existsb (fun s => String.eqb (fst c) (fst s)) sis) confs) then Err ValueError
  else match sis with
  | [] => Err TypeError
  | _ => Ok (mkChart (fr_index f) (map (fun c => mkBars (fst c) (snd c) (find_column confs (fst c))) sis))
  end.

(** What to_df returns: one frame, or several, some of which may be None. *)
Inductive frames := One (f : frame) | Several (fs : list (option frame)).

(** Axes objects, named by their row and column in the figure: one, or an array of them. *)
Definition place := (nat * nat)%type.
Inductive axes := Axis (a : place) | AxisArray (l : list place).
(** A row of plt.subplots with [c] columns (squeeze=True). *)
Definition axes_row (r c : nat) : axes := if c =? 1 then Axis (r, 0) else AxisArray (map (fun j => (r, j)) (seq 0 c)).
(** ax[idx]: an Axes object is not subscriptable. *)
Definition axes_get (a : axes) (j : nat) : result place := match a with Axis _ => Err TypeError | AxisArray l => get l j end.

Definition drawing := list (place * chart).

(** ResultDict.plot, util/results.py:21-39.  plt.subplots(1, 0) raises ValueError; [None.columns] raises AttributeError.  Without
    an axes argument a new figure is used, whose first axes are (0, 0). *)
Definition result_plot (fs : frames) (ax : option axes) : result drawing :=
  match fs with
  | One f => do c <- bar_plot f ;;
             match ax with
             | None => Ok [((0, 0), c)]
             | Some (Axis a) => Ok [(a, c)]
             | Some (AxisArray _) => Err AttributeError
             end
  | Several l =>
      do a <- match ax with Some a => Ok a | None => if length l =? 0 then Err ValueError else Ok (axes_row 0 (length l)) end ;;
      mapM (fun idx => do f <- get l idx ;;
                       do p <- axes_get a idx ;;
                       match f with None => Err AttributeError | Some f => do c <- bar_plot f ;; Ok (p, c) end) (seq 0 (length l))
  end.

(** ** Result objects and ProblemSpec *)
(** A result: the number of keys of the dictionary, what to_df returns, and the plot method when it is replaced by one that
    takes no [ax] argument (analyze/hdmr.py:815-816, 934-939; analyze/rsa.py:131-133, 207). *)
Record result_object := mkObject { o_keys : nat; o_frames : result frames; o_own_plot : option (result drawing) }.
Definition object_plot (o : result_object) (ax : option axes) : result drawing :=
  match o_own_plot o, ax with
  | None, _ => do f <- o_frames o ;; result_plot f ax
  | Some r, None => r
  | Some _, Some _ => Err TypeError
  end.

(** The analysis of a ProblemSpec: not done, one result, or one per output. *)
Inductive analysis := NoAnalysis | OneResult (o : result_object) | PerOutput (l : list (string * result_object)).

(** ProblemSpec.to_df, util/problem.py:464-473. *)
Definition spec_to_df (a : analysis) : result (list frames) :=
  match a with
  | OneResult o => do f <- o_frames o ;; Ok [f]
  | PerOutput l => mapM (fun r => o_frames (snd r)) l
  | NoAnalysis => Err RuntimeError
  end.

(** ProblemSpec.plot, util/problem.py:475-515: per output its name, the place it is written at and the drawing.  [outputs] is the number
    of outputs; a dictionary of results has no plot method, a single result no results by output.  plt.subplots refuses
    zero columns. *)
Definition spec_plot (outputs : nat) (a : analysis) : result (list (string * place * drawing)) :=
  match a with
  | NoAnalysis => Err RuntimeError
  | OneResult o => if outputs =? 1 then do d <- object_plot o None ;; Ok [(""%string, (0, 0), d)] else Err AttributeError
  | PerOutput l =>
      if outputs =? 1 then Err AttributeError
      else match l with
      | [] => Err IndexError
      | (_, o) :: _ =>
          do f <- o_frames o ;;
          let num_cols := match f with Several _ => o_keys o / 2 | One _ => 1 end in
          if (outputs =? 0) || (num_cols =? 0) then Err ValueError
          else mapM (fun ir =>
                 let ax := axes_row (fst ir) num_cols in
                 do d <- object_plot (snd (snd ir)) (Some ax) ;;
                 do t <- match ax with Axis p => Ok p | AxisArray ps => get ps 0 end ;;
                 Ok (fst (snd ir), t, d)) (combine (seq 0 outputs) l)
      end
  end.

(** ** Heat maps *)
(** x.shape, AttributeError without one. *)
Definition shape (v : value) : result (list nat) :=
  match v with
  | VArray l => Ok [length l]
  | VTable l => Ok [length l; match l with r :: _ => length r | [] => 0 end]
  | VScalar _ => Ok []
  | _ => Err AttributeError
  end.
Definition shape_eqb (a b : list nat) : bool := if list_eq_dec Nat.eq_dec a b then true else false.
(** The rows an array contributes to np.vstack. *)
Definition stacked (v : value) : list (list fval) :=
  match v with VArray l => [l] | VTable l => l | VScalar x => [[x]] | _ => [] end.

Record heat := mkHeat { ht_rows : list (list fval); ht_xlabels : list string; ht_ylabels : list string; ht_title : string }.

(** The index argument: None (or empty), a text or a list of texts. *)
Inductive index_arg := AllIndices | OneIndex (k : string) | Indices (ks : list string).
(** The results by output. *)
Inductive heat_data := OneData (d : items) | PerOutputData (l : list (string * items)).
Definition ends_in_conf (k : string) : bool := ends_with k "_conf".

(** heatmap, plotting/heatmap.py:14-84, for a metric that is None or a text.  [names] are the distinct groups or parameters
    (extract_group_names). *)
Definition heatmap (names outputs : list string) (a : option heat_data) (metric : option string) (index : index_arg) (title : option string) : result heat :=
  do metric <- match metric with Some m => Ok m | None => get outputs 0 end ;;
  if negb (existsb (String.eqb metric) outputs) then Err AssertionError
  else
    do data <- match a, 1 <? length outputs with
               | None, _ => Err AttributeError
               | Some (OneData d), false => Ok d
               | Some (PerOutputData l), true => match find (fun r => String.eqb metric (fst r)) l with Some r => Ok (snd r) | None => Err KeyError end
               | _, _ => Err KeyError
               end ;;
    let keep := filter (fun k => negb (ends_in_conf k) && negb (String.eqb k "names")) in
    let index := match index with
                 | AllIndices | Indices [] => keep (map fst data)
                 | Indices ks => keep ks
                 | OneIndex k => if String.eqb k "" then keep (map fst data) else [k]
                 end in
    do k0 <- get index 0 ;;
    do v0 <- match item data k0 with Some v => Ok v | None => Err KeyError end ;;
    do s0 <- shape v0 ;;
    do vs <- mapM (fun k => do v <- match item data k with Some v => Ok v | None => Err KeyError end ;;
                            do s <- shape v ;;
                            Ok (if shape_eqb s s0 then stacked v else [])) index ;;
    let rows := concat vs in
    Ok (mkHeat rows names (firstn (length rows) index) (match title with Some t => t | None => metric end)).

(** ** The result dictionaries of the analysers *)
(** analyze/sobol.py:249-264; to_df: 365-439.  Kept resamples are stored by column in the model. *)
Definition sobol_items (s : Si) (resamples : nat) : items :=
  [("S1", VArray (S1 s)); ("S1_conf", VArray (S1_conf s)); ("ST", VArray (ST s)); ("ST_conf", VArray (ST_conf s))]%string
  ++ match S1_conf_all s, ST_conf_all s with
     | Some a, Some b => [("S1_conf_all", VTable (map (fun r => map (fun c => nth r c None) a) (seq 0 resamples)));
                          ("ST_conf_all", VTable (map (fun r => map (fun c => nth r c None) b) (seq 0 resamples)))]%string
     | _, _ => [] end
  ++ match S2 s, S2_conf s with Some a, Some b => [("S2", VTable a); ("S2_conf", VTable b)]%string | _, _ => [] end.
Definition sobol_frames (p : problem) (s : Si) : result frames :=
  let names := map (fun n => [n]) (fst (extract_group_names p)) in
  do second <- second_frame p s ;;
  do t <- make_frame names [("ST", Numbers (ST s)); ("ST_conf", Numbers (ST_conf s))]%string ;;
  do f <- make_frame names [("S1", Numbers (S1 s)); ("S1_conf", Numbers (S1_conf s))]%string ;;
  match second with
  | None => Ok (Several [Some t; Some f])
  | Some (idx, v, vc) =>
      do g <- make_frame (map (fun i => [fst i; snd i]) idx) [("S2", Numbers v); ("S2_conf", Numbers vc)]%string ;;
      Ok (Several [Some t; Some f; Some g])
  end.
Definition sobol_object (p : problem) (s : Si) (resamples : nat) : result_object :=
  mkObject (length (sobol_items s resamples)) (sobol_frames p s) None.

Definition inherited (d : items) : result_object := mkObject (length d) (do f <- result_frame d ;; Ok (One f)) None.

(** analyze/morris.py:205-222 *)
Definition morris_items (o : morris_out) : items :=
  [("names", VTexts (m_names o)); ("mu", VArray (m_mu o)); ("mu_star", VArray (m_mu_star o)); ("sigma", VArray (m_sigma o)); ("mu_star_conf", VArray (m_conf o))]%string.
(** analyze/fast.py:86-99: the values are lists. *)
Definition fast_items (names : list string) (l : list fast_row) : items :=
  [("S1", VList (map f_S1 l)); ("ST", VList (map f_ST l)); ("S1_conf", VList (map f_S1c l)); ("ST_conf", VList (map f_STc l)); ("names", VTexts names)]%string.
(** analyze/rbd_fast.py:92-99 *)
Definition rbd_items (o : rbd_out) : items :=
  [("S1", VList (r_S1 o)); ("S1_conf", VList (r_conf o)); ("names", VTexts (r_names o))]%string.
(** analyze/dgsm.py:83-97 *)
Definition dgsm_items (o : dgsm_out) : items :=
  [("vi", VArray (d_vi o)); ("vi_std", VArray (d_vi_std o)); ("dgsm", VArray (d_dgsm o)); ("dgsm_conf", VArray (d_conf o)); ("names", VTexts (ModelDgsm.d_names o))]%string.
(** analyze/pawn.py:160-170 *)
Definition pawn_items (o : pawn_out) : items :=
  let col := fun j => VArray (map (fun r => nth j r None) (pw_rows o)) in
  [("minimum", col 0); ("mean", col 1); ("median", col 2); ("maximum", col 3); ("CV", col 4); ("stdev", col 5); ("names", VTexts (pw_names o))]%string.
(** analyze/delta.py:197-215, 270; the texts of the notes are left out. *)
Definition delta_items (o : delta_out) : items :=
  match d_delta o, d_delta_conf o with
  | Some d, Some c => [("delta_balanced", VArray (d Balanced)); ("delta_balanced_conf", VArray (c Balanced)); ("delta_raw", VArray (d Raw)); ("delta_raw_conf", VArray (c Raw));
                       ("delta_step", VArray (d Step)); ("delta_step_conf", VArray (c Step))]%string
  | _, _ => [] end
  ++ match d_S1 o, d_S1_conf o with Some s, Some c => [("S1", VArray s); ("S1_conf", VArray c)]%string | _, _ => [] end
  ++ [("names", VTexts (ModelDelta.d_names o))]%string
  ++ match d_notes o with Some n => [("notes", VTexts (map (fun _ => ""%string) n))]%string | None => [] end.

(** analyze/ff.py:80-96, 99-121: main effects, and interactions or None. *)
Definition ff_frames (o : ff_result) : result frames :=
  do m <- make_frame (map (fun n => [n]) (ff_names o)) [("ME", Numbers (map Some (ff_ME o)))]%string ;;
  match ff_IE o with
  | None | Some [] => Ok (Several [Some m; None])
  | Some l => do g <- make_frame (map (fun e => [fst (fst e); snd (fst e)]) l) [("IE", Numbers (map (fun e => Some (snd e)) l))]%string ;;
              Ok (Several [Some m; Some g])
  end.
Definition ff_object (o : ff_result) : result_object :=
  mkObject (match ff_IE o with None => 2 | Some _ => 4 end) (ff_frames o) None.

(** analyze/hdmr.py:714-808 and to_df, 917-931: the entries in the order in which they are stored, and the frame. *)
Definition hdmr_items (o : hdmr_out) : items :=
  [("Sa", VArray (h_Sa o)); ("Sa_conf", VArray (h_Sa_conf o)); ("Sb", VArray (h_Sb o)); ("Sb_conf", VArray (h_Sb_conf o)); ("S", VArray (h_S o));
   ("S_conf", VArray (h_S_conf o)); ("select", VArray (map (fun b : bool => Some (if b then 1%R else 0%R)) (h_select o))); ("Sa_sum", VScalar (h_Sa_sum o)); ("Sa_sum_conf", VScalar (h_Sa_sum_conf o));
   ("Sb_sum", VScalar (h_Sb_sum o)); ("Sb_sum_conf", VScalar (h_Sb_sum_conf o)); ("S_sum", VScalar (h_S_sum o)); ("S_sum_conf", VScalar (h_S_sum_conf o));
   ("Term", VTexts (h_Term o)); ("ST", VList (h_ST o)); ("ST_conf", VList (h_ST_conf o)); ("names", VTexts (h_Term o)); ("Em", VOther);
   ("RT", VOther); ("Y_em", VOther); ("idx", VOther); ("X", VOther); ("Y", VOther)]%string.
Definition hdmr_frame (o : hdmr_out) : result frame :=
  make_frame (map (fun n => [n]) (h_Term o))
    [("Sa", Numbers (h_Sa o)); ("Sa_conf", Numbers (h_Sa_conf o)); ("Sb", Numbers (h_Sb o)); ("Sb_conf", Numbers (h_Sb_conf o)); ("S", Numbers (h_S o));
     ("S_conf", Numbers (h_S_conf o)); ("ST", Numbers (h_ST o)); ("ST_conf", Numbers (h_ST_conf o))]%string.

(** ** Plots of Morris results, plotting/morris.py *)
(** horizontal_bar_plot, plotting/morris.py:33-68: per bar its position, name, mu_star and error.  [argsort] is np.argsort; indices out of
    range raise IndexError. *)
Definition horizontal_bars (argsort : list fval -> list nat) (o : morris_out) (sortby : string) : result (list (nat * string * fval * fval)) :=
  do key <- (if String.eqb sortby "mu_star" then Ok (m_mu_star o) else if String.eqb sortby "mu_star_conf" then Ok (m_conf o)
             else if String.eqb sortby "sigma" then Ok (m_sigma o) else if String.eqb sortby "mu" then Ok (m_mu o) else Err AssertionError) ;;
  let sort := fun A (l : list A) => mapM (get l) (argsort key) in
  do ns <- sort string (m_names o) ;;
  do ms <- sort fval (m_mu_star o) ;;
  do cs <- sort fval (m_conf o) ;;
  if length ms =? 0 then Err ValueError
  else if existsb negative cs then Err ValueError
  else Ok (combine (combine (combine (seq 0 (length ms)) ns) ms) cs).

(** covariance_plot, plotting/morris.py:71-117: the points and the label of the vertical axis; [sigma] is the entry of the dictionary, None
    when it is Python's None. *)
Inductive vertical := Sigma | Confidence.
Definition covariance_points (sigma : option (list fval)) (mu_star conf : list fval) : list (fval * fval) * vertical :=
  match sigma with
  | Some s => (combine mu_star s, Sigma)
  | None => (combine mu_star conf, Confidence)
  end.

(** Figure.add_subplot(n) of one integer: three digits rows, columns and position, 1 <= position <= rows * columns; ValueError otherwise. *)
Definition subplot_code (n : nat) : result (nat * nat * nat) :=
  if (n <? 100) || (1000 <=? n) then Err ValueError
  else let '(r, c, i) := (n / 100, n / 10 mod 10, n mod 10) in
       if (r =? 0) || (c =? 0) || (i =? 0) || (r * c <? i) then Err ValueError else Ok (r, c, i).

(** sample_histograms, plotting/morris.py:120-158: per parameter the subplot, the values and the title.  The number of bins is taken from the
    second column. *)
Definition sample_histograms (X : mat R) (num_vars : nat) (names : list string) : result (list ((nat * nat * nat) * list R * string)) :=
  if cols X <=? 1 then Err IndexError
  else mapM (fun v => do s <- subplot_code (101 + num_vars * 10 + v) ;;
                      do xs <- (if v <? cols X then Ok (map (fun r => nth v r 0%R) (rows X)) else Err IndexError) ;;
                      do n <- get names v ;;
                      Ok (s, xs, n)) (seq 0 num_vars).

(** ** Plots of HDMR results, plotting/hdmr.py *)
(** The loop over the bootstrap trials, plotting/hdmr.py:46-67: per panel the figure, the position in its 2 x 5 grid and the trial shown.  [fig]
    and [it] are unbound before the first figure. *)
Definition trial_step (st : option (nat * nat) * list (nat * nat * nat)) (i : nat) : result (option (nat * nat) * list (nat * nat * nat)) :=
  let '(fig, out) := st in
  let fig := if (i mod 10 =? 0) || (i =? 0) then Some (match fig with Some (f, _) => S f | None => 0 end, 1) else fig in
  match fig with
  | None => Err UnboundLocalError
  | Some (f, it) => if 10 <? it then Err ValueError else Ok (Some (f, S it), out ++ [(f, it, i)])
  end.
Definition trial_panels (K : nat) : result (list (nat * nat * nat)) :=
  do st <- foldM trial_step (seq (K - 10) (K - (K - 10))) (None, []) ;;
  match fst st with None => Err UnboundLocalError | Some _ => Ok (snd st) end.

(** The loop over the parameters, plotting/hdmr.py:69-90: per panel the figure, the position in its 3 x 1 grid, the parameter and its title. *)
Definition regression_step (names : list string) (st : option (nat * nat) * list (nat * nat * nat * string)) (i : nat)
  : result (option (nat * nat) * list (nat * nat * nat * string)) :=
  let '(fig, out) := st in
  let fig := if (i mod 3 =? 0) || (i =? 0) then Some (match fig with Some (f, _) => S f | None => 0 end, 1) else fig in
  do n <- get names i ;;
  match fig with
  | None => Err UnboundLocalError
  | Some (f, it) => if 3 <? it then Err ValueError else Ok (Some (f, S it), out ++ [(f, it, i, n)])
  end.
Definition regression_panels (names : list string) (d : nat) : result (list (nat * nat * nat * string)) :=
  do st <- foldM (regression_step names) (seq 0 d) (None, []) ;; Ok (snd st).
