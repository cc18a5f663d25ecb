(** Figures, tables and the run script: what is drawn from the saved result files. *)
From Coq Require Import ZArith QArith List Bool String Ascii.
From Verif Require Import Prelude Dynamic_model.
Import ListNotations.
Local Open Scope string_scope.
Local Open Scope list_scope.

(** ** Python strings *)

Definition glue (l : list string) : string := fold_right String.append "" l.

(** [s.split(sep)] for a non-empty [sep]: occurrences from the left that do not overlap.
    [skip] counts the characters of [sep] still to be passed over. *)
Fixpoint split_from (sep : string) (skip : nat) (cur s : string) : list string :=
  match s with
  | EmptyString => [cur]
  | String c r =>
      match skip with
      | S k => split_from sep k cur r
      | 0%nat => if prefix sep s then cur :: split_from sep (String.length sep - 1) "" r
                 else split_from sep 0 (String.append cur (String c "")) r
      end
  end.
Definition split (sep s : string) : list string := split_from sep 0 "" s.

(** [sub in s]. *)
Fixpoint contains (sub s : string) : bool :=
  prefix sub s || match s with EmptyString => false | String _ r => contains sub r end.

(** [a, b = s.split(sep)]: any other number of parts raises ValueError. *)
Definition split2 (sep s : string) : res (string * string) :=
  match split sep s with [a; b] => Ok (a, b) | _ => Err ValueError end.

(** [dict] with string keys in insertion order. *)
Section StringDict.
  Context {V : Type}.
  Fixpoint sget (k : string) (d : list (string * V)) : option V :=
    match d with [] => None | (k', v) :: r => if String.eqb k k' then Some v else sget k r end.
  Fixpoint sset (k : string) (v : V) (d : list (string * V)) : list (string * V) :=
    match d with
    | [] => [(k, v)]
    | (k', v') :: r => if String.eqb k k' then (k', v) :: r else (k', v') :: sset k v r
    end.
End StringDict.

(** ** Result files *)

(** A result file: named series of numbers.  Anything else in a file is out of scope;
    [d[key]] raises KeyError. *)
Notation json := (list (string * list Q)).
Definition jseries (key : string) (j : json) : res (list Q) :=
  match sget key j with Some l => Ok l | None => Err KeyError end.

(** source/experiments/dynamical_experiment.py:77-86, 246-247: the dictionary that is dumped. *)
Definition json_of (d : dynamics Q Q) : json :=
  [("calculation_time", calculation_time d); ("hr", d_hr d); ("mrr", d_mrr d); ("wji", d_wji d);
   ("rnd_users", rnd_users d); ("rnd_items", rnd_items d); ("nd_users", nd_users d); ("nd_items", nd_items d)].

(** ** Figures *)

(** A saved figure.  Curve number [i] goes through the points (t, value t). *)
Record figure := mkFigure { f_path : string; f_ylabel : string; f_title : string; f_curves : list (string * list Q) }.

(** [np.cumsum]. *)
Fixpoint cumsum_from (acc : Q) (l : list Q) : list Q :=
  match l with [] => [] | x :: r => (acc + x)%Q :: cumsum_from (acc + x)%Q r end.
Definition cumsum (l : list Q) : list Q := cumsum_from 0%Q l.

(** [ax.plot(x, y)] with [x = np.arange(n)] raises unless [y] has [n] entries. *)
Fixpoint add_plots (n : nat) (curves : list (string * list Q)) : res (list (string * list Q)) :=
  match curves with
  | [] => Ok []
  | (label, y) :: r =>
      if (List.length y =? n)%nat then do done <- add_plots n r; Ok ((label, y) :: done) else Err ValueError
  end.

(** source/plotting.py:35-44 [plot_results] with [np.arange(len(ys[0]))] as [x]
    (source/experiments/prepare_graphs.py:40, 67, 89, 112): no series at all is an IndexError. *)
Definition plot_results (ys : list (list Q)) (labels : list string) (ylabel title path : string) : res figure :=
  match ys with
  | [] => Err IndexError
  | y0 :: _ => do curves <- add_plots (List.length y0) (combine labels ys); Ok (mkFigure path ylabel title curves)
  end.

(** Decimal digits of an integer in an f-string: an argument. *)
Section Graphs.
  Variable digits : Z -> string.

  (** The series [key] of every result, transformed. *)
  Definition collect (f : list Q -> res (list Q)) (key : string) (d : list (string * json)) : res (list (list Q)) :=
    mapM (fun p => do l <- jseries key (snd p); f l) d.

  (** source/experiments/prepare_graphs.py:24-48 in the mode 'regular'. *)
  Definition plot_computational_time (dir : string) (d : list (string * json)) (extra : string) : res figure :=
    do ys <- collect (@Ok _) "calculation_time" d;
    plot_results ys (map fst d) "Computational Time (sec)" "Computational Time Dynamics"
      (glue [dir; "/"; extra; "calc_time.pdf"]).

  (** source/experiments/prepare_graphs.py:50-75; [cum] says whether mode is 'cum'. *)
  Definition plot_stability (dir : string) (topk : Z) (d : list (string * json)) (extra : string) (cum : bool) : res figure :=
    do ys <- collect (fun l => Ok (if cum then cumsum l else l)) "wji" d;
    plot_results ys (map fst d)
      (if cum then glue ["$\Delta$"; "CUM@"; digits topk] else glue ["REGULAR@"; digits topk])
      (if cum then "Stability of Recommendations (Cumulative)" else "Stability of Recommendations")
      (glue [dir; "/"; extra; if cum then "cum_stability.pdf" else "stability.pdf"]).

  (** source/experiments/prepare_graphs.py:77-97 for modes=('hr',). *)
  Definition plot_cum_hr (dir : string) (topk : Z) (d : list (string * json)) (extra : string) : res figure :=
    do ys <- collect (fun l => Ok (cumsum l)) "hr" d;
    plot_results ys (map fst d) (glue ["$\Delta$"; "HR@"; digits topk]) "HR metric dynamics (Cumulative)"
      (glue [dir; "/"; extra; "cum_hr.pdf"]).

  (** source/experiments/prepare_graphs.py:99-120 for modes=('hr',); the window is not negative. *)
  Definition plot_window_hr (dir : string) (topk : Z) (d : list (string * json)) (swl : nat) (extra : string) : res figure :=
    do ys <- collect (fun l => sliding_window l swl WMean) "hr" d;
    plot_results ys (map fst d) (glue ["HR@"; digits topk])
      (glue ["HR metric dynamics (SW - "; digits (Z.of_nat swl); ")"])
      (glue [dir; "/"; extra; "sw_"; digits (Z.of_nat swl); "_hr.pdf"]).

  (** Statements that each save one figure: the figures saved and the exception that ended them. *)
  Definition saved := (list figure * option exn)%type.
  Fixpoint save_all (acts : list (res figure)) : saved :=
    match acts with
    | [] => ([], None)
    | Err e :: _ => ([], Some e)
    | Ok f :: r => let (fs, e) := save_all r in (f :: fs, e)
    end.

  (** prepare_graphs.py:21-33 [dynamical_experiment]. *)
  Definition experiment_plots (dir : string) (d : list (string * json)) (extra : string) (topk : Z) (swl_list : list nat) : saved :=
    save_all (plot_computational_time dir d extra :: plot_cum_hr dir topk d extra :: plot_stability dir topk d extra false ::
              map (fun swl => plot_window_hr dir topk d swl extra) swl_list).

  (** prepare_graphs.py:35-38 [ablation_study]. *)
  Definition ablation_plots (dir : string) (d : list (string * json)) (extra : string) (topk : Z) : saved :=
    save_all [plot_stability dir topk d extra true; plot_cum_hr dir topk d extra; plot_window_hr dir topk d 20 extra].

  (** prepare_graphs.py:83-90: the results named in the configuration; a name that is listed
      twice is loaded twice and drawn once.  [open_json] opens and parses a file. *)
  Definition load_models (open_json : string -> res json) (dir : string) (models : list string) : res (list (string * json)) :=
    fold_left (fun acc name => do d <- acc; do j <- open_json (glue [dir; "/"; name; ".json"]); Ok (sset name j d))
      models (Ok []).
  Definition graphs_of_models (open_json : string -> res json) (graphics_dir results_dir dataset : string) (models : list string)
      (topk : Z) (swl_list : list nat) : saved :=
    match load_models open_json results_dir models with
    | Err e => ([], Some e)
    | Ok d => experiment_plots graphics_dir d (glue [dataset; "_"]) topk swl_list
    end.

  (** prepare_graphs.py:45-55 and 61-71: the label of an ablation result. *)
  Definition study_label (model_name : string) : res string :=
    do '(left_part, int_mode) <- split2 "_int_" model_name;
    do '(name, std_mode) <- split2 "_std_" left_part;
    Ok (glue [name; if String.eqb std_mode "0" then "(0;" else glue ["("; std_mode; ";"];
              if String.eqb int_mode "True" then "0)" else "B)"]).

  (** prepare_graphs.py:40-56 [map_tensor_name]. *)
  Definition map_tensor_name (model_name : string) : res string :=
    if String.eqb model_name "TIRec" then Ok model_name
    else if String.eqb model_name "TIRecA" then Ok model_name
    else study_label model_name.

  (** prepare_graphs.py:58-72 [map_matrix_name]. *)
  Definition map_matrix_name (model_name : string) : res string :=
    if String.eqb model_name "PSIRec" then Ok model_name else study_label model_name.

  (** An entry of the results directory: its path, whether it is a file, what opening and
      parsing it gives. *)
  Record entry := mkEntry { e_path : string; e_is_file : bool; e_json : res json }.

  (** prepare_graphs.py:118: [res_path.split('/')[-1].split('.json')[0]]. *)
  Definition stem (path : string) : string :=
    hd "" (split ".json" (last (split "/" path) "")).

  (** prepare_graphs.py:111-120: the results for one target; the label is made before the
      file is parsed. *)
  Definition collect_study (target : string) (mapper : string -> res string) (listing : list entry) : res (list (string * json)) :=
    fold_left (fun acc e => do d <- acc; do label <- mapper (stem (e_path e)); do j <- e_json e; Ok (sset label j d))
      (filter (fun e => e_is_file e && contains target (e_path e)) listing) (Ok []).

  (** prepare_graphs.py:111-127: one round of the loop over [options]. *)
  Definition study_graphs (target : string) (mapper : string -> res string) (listing : list entry)
      (dir dataset : string) (topk : Z) : saved :=
    match collect_study target mapper listing with
    | Err e => ([], Some e)
    | Ok d => ablation_plots dir d (glue [target; "_"; dataset; "_"]) topk
    end.

  (** One part of the script after another; an exception ends the script. *)
  Definition after (a b : saved) : saved :=
    match snd a with Some e => a | None => (fst a ++ fst b, snd b) end.

  (** prepare_graphs.py:74-128: the script.  [middle] stands for the two graphs of the data
      (lines 91-105; see C69 and C70). *)
  Definition prepare_graphs (open_json : string -> res json) (listing : list entry) (middle : saved)
      (graphics_dir study_dir results_dir dataset : string) (models : list string) (topk : Z) (swl_list : list nat) : saved :=
    after (graphs_of_models open_json graphics_dir results_dir dataset models topk swl_list)
      (after middle
        (after (study_graphs "TIRec" map_tensor_name listing study_dir dataset topk)
               (study_graphs "PSIRec" map_matrix_name listing study_dir dataset topk))).
End Graphs.

(** dynamical_ablation_study.py:105: the name of a result of the ablation study; [std] is the
    number as Python prints it. *)
Definition study_file (model std : string) (integrator : bool) : string :=
  glue [model; "_std_"; std; "_int_"; if integrator then "True" else "False"; ".json"].

(** ** The tables of results (get_table_results_latex.py) *)

(** A cell: a mean, nan (the mean of an empty series), or a dash. *)
Inductive cell := Mean (q : Q) | Nan | Dash.

(** [np.mean] of a series. *)
Definition np_mean (l : list Q) : cell :=
  match l with [] => Nan | _ => Mean (qsum l / inject_Z (Z.of_nat (List.length l)))%Q end.

(** get_table_results_latex.py:22-30: the cells of one model on one dataset; an exception
    anywhere replaces all four cells, also those already filled. *)
Definition model_cells (metrics : list string) (file : res json) : list (string * cell) :=
  match (do j <- file;
         fold_left (fun acc m => do d <- acc; do l <- jseries m j; Ok (sset m (np_mean l) d)) metrics (Ok [])) with
  | Ok d => d
  | Err _ => fold_left (fun d m => sset m Dash d) metrics []
  end.

(** get_table_results_latex.py:19-31: per dataset, model by model, its cells. *)
Definition dataset_cells (models metrics : list string) (open_json : string -> string -> res json) (data : string)
    : list (string * list (string * cell)) :=
  fold_left (fun d model => sset model (model_cells metrics (open_json data model)) d) models [].

(** [pd.DataFrame] of a dictionary of columns with the same keys: rows by key. *)
Definition frame (metrics : list string) (columns : list (string * list (string * cell))) : list (string * list (string * option cell)) :=
  map (fun m => (m, map (fun c => (fst c, sget m (snd c))) columns)) metrics.

(** get_table_results_latex.py:33-37: the first table: dataset, metric, then the models. *)
Definition table1 (datas models metrics : list string) (open_json : string -> string -> res json)
    : list (string * string * list (string * option cell)) :=
  List.concat (map (fun data => map (fun r => (data, fst r, snd r)) (frame metrics (dataset_cells models metrics open_json data))) datas).

(** get_table_results_latex.py:39 [unstack().reorder_levels([1, 0]).sort_index()]: cells by
    metric and model; [sort_index] is an argument that sorts by the pair of names. *)
Definition long_cells (sort_index : list (string * string * option cell) -> list (string * string * option cell))
    (metrics : list string) (columns : list (string * list (string * cell))) : list (string * string * option cell) :=
  sort_index (List.concat (map (fun c => map (fun m => (m, fst c, sget m (snd c))) metrics) columns)).

(** get_table_results_latex.py:40-41: [pd.concat(..., axis=1)]: rows of the first dataset, the
    others aligned by their labels (all have the same labels). *)
Definition long_get (metric model : string) (l : list (string * string * option cell)) : option cell :=
  match find (fun r => String.eqb (fst (fst r)) metric && String.eqb (snd (fst r)) model) l with
  | Some r => snd r | None => None end.
Definition table2 (sort_index : list (string * string * option cell) -> list (string * string * option cell))
    (datas models metrics : list string) (open_json : string -> string -> res json)
    : list (string * string * list (string * option cell)) :=
  let longs := map (fun data => (data, long_cells sort_index metrics (dataset_cells models metrics open_json data))) datas in
  match longs with
  | [] => []
  | (_, first) :: _ =>
      map (fun r => (fst (fst r), snd (fst r), map (fun dl => (fst dl, long_get (fst (fst r)) (snd (fst r)) (snd dl))) longs)) first
  end.

(** get_table_results_latex.py:15-16. *)
Definition table_models : list string := ["SVD"; "PSIRec"; "TDRec"; "TDRecReinit"; "TIRec"; "TIRecA"].
Definition table_metrics : list string := ["hr"; "mrr"; "wji"; "calculation_time"].

(** ** The run script (run_experiments.py) *)

Section Run.
  (** [C]: a table of hyperparameters, [R]: a result. *)
  Context {C R : Type}.

  (** The files the scripts write. *)
  Record store := mkStore { csv_of : string -> option C; result_of : string -> option R }.
  Definition put {X} (k : string) (v : X) (f : string -> option X) : string -> option X :=
    fun k' => if String.eqb k' k then Some v else f k'.

  (** find_hyperparams.py: the search for 'svd' or 'tdrec'; the file is written at the end. *)
  Variable search : string -> res C.
  (** dynamical_experiment.py: the experiment with the hyperparameters found in the files. *)
  Variable experiment : string -> (string -> option C) -> res R.
  (** dynamical_ablation_study.py: the same model with other settings. *)
  Variable study : string -> string * bool -> (string -> option C) -> res R.

  (** find_hyperparams.py; source/experiments/hyperparameters_search.py:107 and 238. *)
  Definition run_search (s : store) (h : string) : store :=
    match search h with Ok c => mkStore (put h c (csv_of s)) (result_of s) | Err _ => s end.

  (** dynamical_experiment.py; source/experiments/dynamical_experiment.py:246-247. *)
  Definition run_experiment (s : store) (m : string) : store :=
    match experiment m (csv_of s) with
    | Ok r => mkStore (csv_of s) (put (glue [m; ".json"]) r (result_of s)) | Err _ => s end.

  (** dynamical_ablation_study.py:63-106: the settings in turn; an exception ends the script. *)
  Fixpoint run_settings (m : string) (s : store) (options : list (string * bool)) : store :=
    match options with
    | [] => s
    | o :: r =>
        match study m o (csv_of s) with
        | Ok x => run_settings m (mkStore (csv_of s) (put (study_file m (fst o) (snd o)) x (result_of s))) r
        | Err _ => s
        end
    end.

  (** run_experiments.py:12-22; [os.system] ignores how a script ended. *)
  Definition run_all (h_models models as_models : list string) (options : list (string * bool)) (s : store) : store :=
    fold_left (fun s m => run_settings m s options) as_models
      (fold_left run_experiment models (fold_left run_search h_models s)).
End Run.

(** run_experiments.py:12-14. *)
Definition run_h_models : list string := ["svd"; "tdrec"].
Definition run_models : list string := ["SVD"; "PSIRec"; "TIRec"; "TIRecA"; "TDRec"; "TDRecReinit"].
Definition run_as_models : list string := ["PSIRec"; "TIRecA"].

(** dynamical_ablation_study.py:45-49 and 53-57, the numbers as Python prints them. *)
Definition study_options : list (string * bool) :=
  [("0", true); ("1e-08", false); ("1e-05", false); ("0.001", false); ("1e-08", true); ("1e-05", true); ("0.001", true)].
