(** Model of source/experiments/prepare_model.py, of the choices in dynamical_experiment.py, and
    of RandomRec as used by the dynamic experiment. *)
From Coq Require Import ZArith List Bool String.
From Verif Require Import Prelude DataPrep_model History_model Recommend_model Chance_model Tensor_model Matrix_model LinAlg_model Dynamic_model.
Import ListNotations.
Open Scope string_scope.

Definition memS (s : string) (l : list string) : bool := existsb (String.eqb s) l.

(** ** Classes *)
Inductive cls := CSVD | CPSI | CTDRec | CTDRecRe | CTIRec | CTIRecA | CRandom.

(** source/models: the base classes (psi.py:19, tdrec_reinit.py:20, tirec.py:29,
    tirec_accelerated.py:29). *)
Definition parent (c : cls) : option cls :=
  match c with
  | CPSI => Some CSVD
  | CTDRecRe | CTIRec | CTIRecA => Some CTDRec
  | CSVD | CTDRec | CRandom => None
  end.
(** The public methods written in the class: svd.py:35-108, psi.py:57-178, tdrec.py:166-309,
    tdrec_reinit.py:100, tirec.py:130-281, tirec_accelerated.py:136-319, random_rec.py:23-74. *)
Definition own (c : cls) : list string :=
  match c with
  | CSVD => ["train"; "get_factors"; "get_u"; "get_v"; "get_n_users"; "get_n_items"; "recommend"]
  | CPSI => ["process_data_for_calculations"; "prepare_data_with_mask_by_mode"; "update_factors_by_mode"; "update"]
  | CTDRec => ["train"; "get_factors"; "get_u"; "get_v"; "get_n_users"; "get_n_items"; "recommend"]
  | CTDRecRe => ["train"]
  | CTIRec | CTIRecA => ["preprocess_raw_input_data"; "get_train_tensor"; "process_data_for_calculations"; "update_factors_by_mode"; "update"]
  | CRandom => ["train"; "get_n_users"; "get_n_items"; "recommend"]
  end.
(** Looking up a method; no base class has a base class. *)
Definition has (c : cls) (method : string) : bool :=
  memS method (own c) || match parent c with Some p => memS method (own p) | None => false end.

(** Parameters of the constructors, without and with default: svd.py:19-26, psi.py:20-27,
    tdrec.py:123-136, tdrec_reinit.py:72-85, tirec.py:85-99, tirec_accelerated.py:86-100,
    random_rec.py:17. *)
Definition required (c : cls) : list string :=
  match c with
  | CSVD => ["rank"]
  | CPSI => ["rank"; "n_power_iter"; "oversampling_factor"; "seed"]
  | CTDRec | CTDRecRe | CTIRec | CTIRecA => ["rank"; "seq_len"]
  | CRandom => []
  end.
Definition optional (c : cls) : list string :=
  match c with
  | CSVD => ["n_power_iter"; "oversampling_factor"; "seed"; "dtype"]
  | CPSI => ["dtype"]
  | CTDRec | CTDRecRe => ["att_f"; "n_iter"; "growth_tol"; "n_power_iter"; "oversampling_factor"; "seed"; "parallel"; "dtype"; "force_n_iter"]
  | CTIRec | CTIRecA => ["att_f"; "n_iter"; "growth_tol"; "n_power_iter"; "oversampling_factor"; "seed"; "parallel"; "dtype"; "att_light_mode"; "force_n_iter"]
  | CRandom => ["seed"]
  end.

Fixpoint nodupS (l : list string) : bool :=
  match l with [] => true | s :: r => negb (memS s r) && nodupS r end.

(** A call of a constructor with keywords: Python raises TypeError for a keyword given twice,
    an unknown keyword and a missing argument.  What the constructor computes from the values
    is not modelled. *)
Definition construct (c : cls) (keywords : list string) : res unit :=
  if nodupS keywords && forallb (fun s => memS s (required c ++ optional c)) keywords
     && forallb (fun s => memS s keywords) (required c)
  then Ok tt else Err TypeError.

(** ** prepare_model *)
(** The dictionary of line 98: which of the plain keys are there, and the two dictionaries of
    fixed parameters (their keys). *)
Record config := mkConfig {
  c_keys : list string;
  c_svd : option (list string);     (* 'fixed_config_svd' *)
  c_tdrec : option (list string)    (* 'fixed_config_tdrec' *)
}.
Definition key (cf : config) (s : string) : res unit := if memS s (c_keys cf) then Ok tt else Err KeyError.
Definition sub_dict (o : option (list string)) : res (list string) := match o with Some l => Ok l | None => Err KeyError end.

(** What is returned: the class of the object, the name of the method that is the update
    function, 'chunk' or not, the two flags, and whether a history length is given. *)
Record plan := mkPlan {
  p_class : cls; p_update : string; p_chunk : bool; p_reinit : bool; p_three : bool; p_max_len : bool }.

Section Prepare.
  (** Outcomes of get_optimal_svd_rank and get_optimal_tdrec_params (they read files). *)
  Variables svd_found tdrec_found : res unit.

  (** Taking a method of an object. *)
  Definition method (c : cls) (s : string) : res string := if has c s then Ok s else Err AttributeError.

  (** source/experiments/prepare_model.py:15-37. *)
  Definition prepare_2d (c : cls) (upd : string) (chunk : bool) (cf : config) : res plan :=
    do _ <- key cf "dataset"; do _ <- key cf "topk";
    do _ <- svd_found;
    do kw <- sub_dict (c_svd cf);
    do _ <- construct c ("rank" :: kw);
    do u <- method c upd;
    Ok (mkPlan c u chunk false false false).

  (** source/experiments/prepare_model.py:39-85. *)
  Definition prepare_3d (c : cls) (upd : string) (chunk reinit : bool) (cf : config) : res plan :=
    do _ <- key cf "dataset"; do _ <- key cf "topk";
    do _ <- tdrec_found;
    do kw <- sub_dict (c_tdrec cf);
    do _ <- construct c ("rank" :: "att_f" :: kw);
    do u <- method c upd;
    do _ <- key cf "max_len_user_history";
    Ok (mkPlan c u chunk reinit true true).

  (** source/experiments/prepare_model.py:87-96. *)
  Definition prepare_random (cf : config) : res plan :=
    do _ <- construct CRandom ["seed"];
    do u <- method CRandom "train";
    do _ <- key cf "max_len_user_history";
    Ok (mkPlan CRandom u false false true true).

  (** source/experiments/prepare_model.py:98-115 [prepare_model]. *)
  Definition prepare_model (name : string) (cf : config) : res plan :=
    if name =? "SVD" then prepare_2d CSVD "train" false cf
    else if name =? "PSIRec" then prepare_2d CPSI "update" true cf
    else if name =? "TDRec" then prepare_3d CTDRec "train" false false cf
    else if name =? "TDRecReinit" then prepare_3d CTDRecRe "train" false true cf
    else if name =? "TIRec" then prepare_3d CTIRec "update" true false cf
    else if name =? "TIRecA" then prepare_3d CTIRecA "update" true false cf
    else if name =? "Random" then prepare_random cf
    else Err RuntimeError.
End Prepare.

(** What source/experiments/dynamical_experiment.py uses of the object: lines 88, 98, 104-111,
    115-151, 166 (only to re-initialise) and the update function. *)
Definition used (p : plan) : list string :=
  ["train"; "recommend"; "get_n_items"; "get_u"; "get_v"; p_update p] ++ (if p_reinit p then ["get_factors"] else []).

(** source/experiments/hyperparameters_search.py:29-40 [import_config]: the modules there are. *)
Definition import_config (dataset : string) : res string :=
  if dataset =? "ml_20m" then Ok "configs.ml_20m.config"
  else if dataset =? "amz_b" then Ok "configs.amz_b.config"
  else if dataset =? "amz_g" then Ok "configs.amz_g.config"
  else if dataset =? "steam" then Ok "configs.steam.config"
  else Err RuntimeError.

(** configs/*/config.py:25-29, 41-48 (in configs/steam 42-49; the same keys in all four). *)
Definition shipped_svd : list string := ["n_power_iter"; "oversampling_factor"; "seed"].
Definition shipped_tdrec : list string := ["seq_len"; "n_power_iter"; "oversampling_factor"; "seed"; "parallel"; "force_n_iter"].

(** dynamical_experiment.py:22-41: the dimension of the data and the configuration the script
    passes on (true: 3d). *)
Definition script_choice (name : string) : res (bool * config) :=
  let keys := ["prepared_data_path"; "init_ratio"; "hm_actions_min_stream"; "how_many_iterations"; "topk";
               "metric_dynamics_dir"; "dataset"; "max_len_user_history"] in
  if memS name ["SVD"; "PSIRec"] then Ok (false, mkConfig keys (Some shipped_svd) None)
  else if memS name ["TDRec"; "TDRecReinit"; "TIRec"; "TIRecA"; "Random"] then Ok (true, mkConfig keys None (Some shipped_tdrec))
  else Err RuntimeError.

(** ** RandomRec in the dynamic experiment *)
(** The attributes (random_rec.py:17-21); [rr_items = None] for nan, which the maximum over an
    empty table gives. *)
Record rr_state := mkRR { rr_maps : mappings; rr_users : nat; rr_items : option nat; rr_history : list (Z * Z) }.

Section Random.
  Context {A : Type}.
  Variable argpart : nat -> list A -> nat -> list nat.
  Variable k : nat.
  (** The values drawn in a call of [recommend]. *)
  Variable draws : rr_state -> list Z -> bool -> list (list A).

  (** source/models/random_rec.py:23-28 [train]. *)
  Definition rr_train (_ : rr_state) (d : list prow) : res rr_state :=
    do '(rows, ms) <- get_df_with_updated_indices (map p_row d);
    let top := fun l => match maxZ l with Ok v => Some (Z.to_nat (v + 1)) | Err _ => None end in
    Ok (mkRR ms (match top (map r_user rows) with Some n => n | None => 0%nat end) (top (map r_item rows))
             (map (fun r => (r_user r, r_item r)) rows)).

  (** source/models/random_rec.py:49-74 [recommend]; [np.arange(nan)] raises ValueError. *)
  Definition rr_recommend (x : rr_state) (users : list Z) (internal : bool) : res (list (list Z)) :=
    match rr_items x with
    | None => Err ValueError
    | Some n => random_recommend argpart (@mkRec A (rr_maps x) (rr_users x) n (rr_history x) (fun _ => Err AttributeError))
                  (draws x users internal) users k true internal
    end.

  (** The class has neither [get_u] nor [get_v]. *)
  Definition rr_api : api rr_state (list prow) A :=
    mkApi _ _ _ rr_train
      (fun x d => match d with inl _ => Err KeyError | inr d => rr_train x d end)
      rr_maps rr_recommend (fun x => match rr_items x with Some n => n | None => 0%nat end)
      (fun _ => Err AttributeError) (fun _ => Err AttributeError).
End Random.
