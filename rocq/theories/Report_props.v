(** C87-C89: figures and tables made from saved results, and the run script. *)
From Coq Require Import ZArith QArith List Bool String Ascii Sorting.Permutation.
From Verif Require Import Prelude Dynamic_model Report_model Report_spec.
From Verif Require Report_str Report_graph Report_names Report_main Report_tab Report_wit.
Import ListNotations.
Local Open Scope string_scope.
Local Open Scope list_scope.

(** C87.  Whatever the model, an experiment of [n] steps saves [n+1] times, [n] values of HR
    and [n-1] of stability. *)
Theorem saved_series_lengths : forall n j, from_experiment n j -> result_of_steps n j.
Proof. exact Report_graph.experiment_lengths. Qed.
Print Assumptions saved_series_lengths.

Example saved_series_lengths_case : exists j, from_experiment 2 j.
Proof. exact Report_wit.w_from. Qed.

(** C87.  Results of the same number of steps are all drawn: times, running totals of HR,
    stability, windows of HR, one curve per model of the configuration.  With different
    numbers of steps nothing at all is saved. *)
Theorem model_graphs_outcome :
  forall (digits : Z -> string) (open_json : string -> res json) (graphics_dir results_dir dataset : string) (models : list string)
    (topk : Z) (swl : list nat) (results : string -> json) (steps : string -> nat),
  NoDup models -> Forall (fun w => (0 < w)%nat) swl ->
  (forall m, In m models -> open_json (in_dir results_dir (m ++ ".json")) = Ok (results m) /\ result_of_steps (steps m) (results m)) ->
  let out := graphs_of_models digits open_json graphics_dir results_dir dataset models topk swl in
  (models = [] -> out = ([], Some IndexError)) /\
  ((exists m m', In m models /\ In m' models /\ steps m <> steps m') -> out = ([], Some ValueError)) /\
  (models <> [] -> (forall m m', In m models -> In m' models -> steps m = steps m') ->
    exists figs, out = (figs, None) /\
      experiment_figures digits graphics_dir (dataset ++ "_") swl (map (fun m => (m, results m)) models) figs).
Proof. exact Report_main.model_graphs. Qed.
Print Assumptions model_graphs_outcome.

(** C87.  A result that cannot be read: nothing is saved. *)
Theorem model_graphs_missing :
  forall digits open_json graphics_dir results_dir dataset models topk swl m e,
  In m models -> open_json (in_dir results_dir (m ++ ".json")) = Err e ->
  exists e', graphs_of_models digits open_json graphics_dir results_dir dataset models topk swl = ([], Some e').
Proof. exact Report_main.missing_result. Qed.
Print Assumptions model_graphs_missing.

(** C87.  The ablation study: in a directory whose path does not contain the target, whose
    files for the target are those of the study, every file gets its own curve under its
    own label, whatever the order of the listing. *)
Theorem study_graphs_outcome :
  forall (digits : Z -> string) (target : string) (mapper : string -> res string) (listing files : list entry)
    (results : list (string * json)) (study_dir results_dir dataset : string) (topk : Z),
  study_of target mapper -> ~ occurs target results_dir -> listed target results_dir listing files ->
  labelled target results_dir files results ->
  (forall r, In r results -> exists n, (0 < n)%nat /\ result_of_steps n (snd r)) ->
  let out := study_graphs digits target mapper listing study_dir dataset topk in
  NoDup (map fst results) /\
  (files = [] -> out = ([], Some IndexError)) /\
  ((exists r r' n n', In r results /\ In r' results /\ result_of_steps n (snd r) /\ result_of_steps n' (snd r') /\
      (0 < n)%nat /\ (0 < n')%nat /\ n <> n') -> out = ([], Some ValueError)) /\
  (forall n, files <> [] -> (forall r, In r results -> result_of_steps n (snd r)) ->
    exists figs, out = (figs, None) /\ study_figures digits study_dir (target ++ "_" ++ dataset ++ "_") results figs).
Proof. exact Report_main.study_graphs_main. Qed.
Print Assumptions study_graphs_outcome.

Example study_graphs_case :
  study_of "TIRec" map_tensor_name /\ ~ occurs "TIRec" Report_wit.w_dir /\
  listed "TIRec" Report_wit.w_dir Report_wit.w_listing Report_wit.w_tensor_files /\
  labelled "TIRec" Report_wit.w_dir Report_wit.w_tensor_files Report_wit.w_tensor /\
  (forall n v, result_of_steps n (Report_wit.w_json n v)) /\
  map f_path (fst Report_wit.w_script) =
    ["g/steam_calc_time.pdf"; "g/steam_cum_hr.pdf"; "g/steam_stability.pdf"; "g/steam_sw_20_hr.pdf";
     "a/TIRec_steam_cum_stability.pdf"; "a/TIRec_steam_cum_hr.pdf"; "a/TIRec_steam_sw_20_hr.pdf";
     "a/PSIRec_steam_cum_stability.pdf"; "a/PSIRec_steam_cum_hr.pdf"; "a/PSIRec_steam_sw_20_hr.pdf"] /\
  map (fun f => map fst (f_curves f)) (fst Report_wit.w_script) =
    repeat ["SVD"; "PSIRec"; "TIRecA"] 4 ++ repeat ["TIRecA(1e-08;B)"; "TIRec"; "TIRecA"; "TIRecA(1e-08;0)"] 3 ++
    repeat ["PSIRec(0;0)"; "PSIRec"] 3.
Proof.
  split; [constructor|]. split; [exact Report_wit.w_not_in_dir|]. split; [exact Report_wit.w_listed|].
  split; [exact Report_wit.w_labelled|]. split; [exact Report_wit.w_steps|]. split; vm_compute; reflexivity.
Qed.

(** C87.  Any other file with the target in its path stops the study before the first figure. *)
Theorem study_graphs_stray_file :
  forall digits target mapper listing study_dir dataset topk e dir x,
  study_of target mapper -> In e listing -> e_is_file e = true ->
  e_path e = in_dir dir (x ++ ".json") -> occurs target (in_dir dir x) -> free "/" x -> ~ occurs ".json" x ->
  x <> "TIRec" -> x <> "TIRecA" -> x <> "PSIRec" -> (forall m y b, x <> (m ++ "_std_" ++ y ++ "_int_" ++ b)%string) ->
  (forall e', In e' listing -> exists j, e_json e' = Ok j) ->
  study_graphs digits target mapper listing study_dir dataset topk = ([], Some ValueError).
Proof. exact Report_main.stray_file. Qed.
Print Assumptions study_graphs_stray_file.

Example stray_file_case :
  study_graphs Report_wit.w_digits "TIRec" map_tensor_name
    (Report_wit.w_listing ++ [Report_wit.w_file Report_wit.w_dir "TIRec_old.json" (Report_wit.w_json 3 (1 # 2))]) "a" "steam" 5 = ([], Some ValueError).
Proof. vm_compute. reflexivity. Qed.

(** C87.  The script is its parts in turn, and saves nothing if the first part saves nothing. *)
Theorem all_graphs :
  forall digits open_json listing middle graphics_dir study_dir results_dir dataset models topk swl f1 f3 f4,
  graphs_of_models digits open_json graphics_dir results_dir dataset models topk swl = (f1, None) ->
  snd middle = None ->
  study_graphs digits "TIRec" map_tensor_name listing study_dir dataset topk = (f3, None) ->
  study_graphs digits "PSIRec" map_matrix_name listing study_dir dataset topk = (f4, None) ->
  prepare_graphs digits open_json listing middle graphics_dir study_dir results_dir dataset models topk swl =
    (f1 ++ fst middle ++ f3 ++ f4, None).
Proof. exact Report_main.script_parts. Qed.
Print Assumptions all_graphs.

Theorem no_graphs :
  forall digits open_json listing middle graphics_dir study_dir results_dir dataset models topk swl e,
  graphs_of_models digits open_json graphics_dir results_dir dataset models topk swl = ([], Some e) ->
  prepare_graphs digits open_json listing middle graphics_dir study_dir results_dir dataset models topk swl = ([], Some e).
Proof. exact Report_main.script_stops. Qed.
Print Assumptions no_graphs.

(** C87.  Defect: a directory whose path contains the target. *)
Theorem study_graphs_any_directory_refuted :
  exists digits listing dir files results, listed "TIRec" dir listing files /\ labelled "TIRec" dir files results /\ files <> [] /\
    (forall r, In r results -> result_of_steps 3 (snd r)) /\
    study_graphs digits "TIRec" map_tensor_name listing "a" "steam" 5 = ([], Some ValueError).
Proof.
  exists Report_wit.w_digits, Report_wit.w_listing_bad, Report_wit.w_dir_bad,
    [Report_wit.w_file Report_wit.w_dir_bad "TIRec.json" (Report_wit.w_json 3 (1 # 2))], [("TIRec", Report_wit.w_json 3 (1 # 2))].
  split.
  - apply (Report_wit.w_listed_gen "TIRec" Report_wit.w_dir_bad ["TIRec.json"; "SVD.json"] (fun _ => Report_wit.w_json 3 (1 # 2))).
    + repeat constructor; cbn; intuition discriminate.
    + intros n [<-|[<-|[]]]; Report_names.not_in.
  - split; [|split; [discriminate|split; [|vm_compute; reflexivity]]].
    + constructor; [|constructor]. exists "TIRec.json". split; [reflexivity|]. split; [constructor|reflexivity].
    + intros r [<-|[]]. apply Report_wit.w_steps.
Qed.
Print Assumptions study_graphs_any_directory_refuted.

(** C87.  Defect: a backup copy takes the place of the file; which of them is drawn depends
    on the order of the listing. *)
Theorem study_curve_of_its_file_refuted :
  exists (a b : entry) (v w : json) (label : string), v <> w /\ e_path a <> e_path b /\ e_json a = Ok v /\ e_json b = Ok w /\
    study_name "TIRec" "TIRecA_std_0_int_True.json" label /\ e_path a = in_dir Report_wit.w_dir "TIRecA_std_0_int_True.json" /\
    collect_study "TIRec" map_tensor_name [a; b] = Ok [(label, w)] /\
    collect_study "TIRec" map_tensor_name [b; a] = Ok [(label, v)].
Proof.
  exists (Report_wit.w_file Report_wit.w_dir "TIRecA_std_0_int_True.json" (Report_wit.w_json 3 (1 # 2))),
    (Report_wit.w_file Report_wit.w_dir "TIRecA_std_0_int_True.json.bak" (Report_wit.w_json 3 (1 # 4))),
    (Report_wit.w_json 3 (1 # 2)), (Report_wit.w_json 3 (1 # 4)), "TIRecA(0;0)".
  split; [discriminate|]. split; [discriminate|]. split; [reflexivity|]. split; [reflexivity|].
  split; [apply (sn_tirec_setting "0" true); apply Report_wit.numeral_dec; reflexivity|].
  split; [reflexivity|]. split; vm_compute; reflexivity.
Qed.
Print Assumptions study_curve_of_its_file_refuted.

(** C87.  Defect: the axis of the stability figure names the mode, not the measure. *)
Theorem stability_axis_refuted :
  exists f, plot_stability Report_wit.w_digits "g" 5 [("SVD", Report_wit.w_json 3 (1 # 2))] "steam_" false = Ok f /\
    f_ylabel f = "REGULAR@5" /\ ~ occurs "WJI" (f_ylabel f).
Proof.
  eexists. split; [vm_compute; reflexivity|]. split; [reflexivity|]. intros H. apply Report_str.contains_iff in H. discriminate.
Qed.
Print Assumptions stability_axis_refuted.

(** C88.  Both tables show, for every dataset, model and metric, the mean of the saved series;
    a dash for all metrics if the file cannot be read or lacks one of them. *)
Theorem result_tables :
  forall (sort_index : list (string * string * option cell) -> list (string * string * option cell))
    (datas models metrics : list string) (open_json : string -> string -> res json),
  (forall l, Permutation (sort_index l) l) -> NoDup models -> NoDup metrics ->
  exists value : string -> string -> string -> option cell,
  (forall data model metric, In metric metrics -> shows metrics (open_json data model) metric (value data model metric)) /\
  table1 datas models metrics open_json =
    flat_map (fun data => map (fun metric => (data, metric, map (fun model => (model, value data model metric)) models)) metrics) datas /\
  (datas <> [] -> Permutation (table2 sort_index datas models metrics open_json)
    (flat_map (fun model => map (fun metric => (metric, model, map (fun data => (data, value data model metric)) datas)) metrics) models)).
Proof. exact Report_tab.tables_main. Qed.
Print Assumptions result_tables.

Example result_tables_case :
  NoDup table_models /\ NoDup table_metrics /\
  map (fun r => map snd (snd r)) (table1 ["steam"] ["SVD"; "TDRec"; "TIRec"] table_metrics Report_wit.w_results) =
    [[Some (Mean (12 # 24)); Some Dash; Some Dash]; [Some (Mean (12 # 24)); Some Dash; Some Dash];
     [Some (Mean (4 # 8)); Some Dash; Some Dash]; [Some (Mean (4 # 4)); Some Dash; Some Dash]].
Proof.
  split; [repeat constructor; cbn; intuition discriminate|]. split; [repeat constructor; cbn; intuition discriminate|].
  vm_compute. reflexivity.
Qed.

(** C88.  Defect: HR and MRR that were saved are not shown when another series is missing. *)
Theorem saved_metric_shown_refuted :
  exists (file : res json) (l : list Q), (exists j, file = Ok j /\ sget "hr" j = Some l) /\ l <> [] /\
    sget "hr" (model_cells table_metrics file) = Some Dash.
Proof.
  exists (Report_wit.w_results "steam" "TDRec"), [1%Q]. split; [eexists; split; reflexivity|]. split; [discriminate|]. vm_compute. reflexivity.
Qed.
Print Assumptions saved_metric_shown_refuted.

(** C89.  After a run every file is the outcome of its script, made with the hyperparameters
    then on disk, if the script got that far; otherwise it is what it was before. *)
Theorem run_outcome :
  forall (C R : Type) (search : string -> res C) (experiment : string -> (string -> option C) -> res R)
    (study : string -> string * bool -> (string -> option C) -> res R) (s : @store C R),
  let s' := run_all search experiment study run_h_models run_models run_as_models study_options s in
  (forall h, In h run_h_models -> csv_of s' h = written (search h) (csv_of s h)) /\
  (forall m, In m run_models -> let f := (m ++ ".json")%string in
     result_of s' f = written (experiment m (csv_of s')) (result_of s f)) /\
  (forall m pre o post, In m run_as_models -> study_options = pre ++ o :: post -> let f := study_file m (fst o) (snd o) in
     ((forall o', In o' pre -> exists x, study m o' (csv_of s') = Ok x) ->
        result_of s' f = written (study m o (csv_of s')) (result_of s f)) /\
     ((exists o' e, In o' pre /\ study m o' (csv_of s') = Err e) -> result_of s' f = result_of s f)).
Proof. exact @Report_tab.run_main. Qed.
Print Assumptions run_outcome.

Definition w_after := run_all Report_wit.w_search Report_wit.w_experiment Report_wit.w_study run_h_models run_models run_as_models study_options Report_wit.w_before.
Example run_outcome_case :
  result_of w_after "TIRec.json" = Some (Some 2%nat) /\ result_of w_after "TIRecA_std_1e-08_int_False.json" = Some (Some 2%nat) /\
  result_of w_after "TDRec.json" = Some (Some 1%nat) /\ result_of w_after "TIRecA_std_0.001_int_True.json" = Some (Some 1%nat).
Proof. vm_compute. repeat split; reflexivity. Qed.

(** C89.  Defect: the run goes on after a failed search or experiment; SVD is then run with the
    hyperparameters of an earlier run, and the result of TDRec is that of the earlier run. *)
Theorem run_is_fresh_refuted :
  exists (search : string -> res nat) (experiment : string -> (string -> option nat) -> res (option nat)) study (s : @store nat (option nat)) e e',
  let s' := run_all search experiment study run_h_models run_models run_as_models study_options s in
  search "svd" = Err e /\ experiment "TDRec" (csv_of s') = Err e' /\
  csv_of s' "svd" = csv_of s "svd" /\ result_of s' "SVD.json" = Some (csv_of s "svd") /\ csv_of s "svd" <> None /\
  result_of s' "TDRec.json" = result_of s "TDRec.json" /\ result_of s "TDRec.json" <> None.
Proof.
  exists Report_wit.w_search, Report_wit.w_experiment, Report_wit.w_study, Report_wit.w_before, RuntimeError, LinAlgError. cbv zeta.
  repeat split; solve [vm_compute; reflexivity|discriminate].
Qed.
Print Assumptions run_is_fresh_refuted.
