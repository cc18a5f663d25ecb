(** C104: the model names of the dynamic experiment. *)
From Coq Require Import ZArith List Bool String.
From Verif Require Import Prelude DataPrep_model History_model Recommend_model Tables_model Stream_model Tensor_model Matrix_model LinAlg_model
  Eval_model Dynamic_model Pipe_model Choice_model Choice_spec.
From Verif Require Choice_main Choice_wit.
Import ListNotations.

(** Which configurations [prepare_model] can use, and what it makes of them; other names are
    refused by it and by the script. *)
Theorem models_prepared_iff :
  forall (svd_found tdrec_found : res unit) (name : string) (cf : config),
  ((exists p, prepare_model svd_found tdrec_found name cf = Ok p) <-> usable svd_found tdrec_found name cf) /\
  (forall p, prepare_model svd_found tdrec_found name cf = Ok p -> runs_as name p) /\
  (~ known name -> prepare_model svd_found tdrec_found name cf = Err RuntimeError /\ script_choice name = Err RuntimeError).
Proof. exact Choice_main.prepared_iff. Qed.
Print Assumptions models_prepared_iff.

(** The script knows the same names, and four datasets.  What it passes on suffices whenever the
    tuned parameters are found; the tables it prepares are of the dimension of the model; and
    of the methods the experiment uses only the random model lacks some, [get_u] and [get_v]. *)
Theorem script_models_fit :
  forall (name : string),
  ((exists x, script_choice name = Ok x) <-> known name) /\
  (forall dataset, let datasets := ["ml_20m"; "steam"; "amz_b"; "amz_g"]%string in
     (In dataset datasets -> import_config dataset = Ok ("configs." ++ dataset ++ ".config")%string) /\
     (~ In dataset datasets -> import_config dataset = Err RuntimeError)) /\
  (forall (dim : bool) (cf : config), script_choice name = Ok (dim, cf) ->
   exists p, (forall svd_found tdrec_found,
               prepare_model svd_found tdrec_found name cf = Ok p <->
               (In name matrix_names -> svd_found = Ok tt) /\ (In name tensor_names -> tdrec_found = Ok tt)) /\
    p_three p = dim /\
    (forall s, In s (used p) /\ has (p_class p) s = false <-> name = "Random"%string /\ (s = "get_u" \/ s = "get_v")%string)).
Proof. exact Choice_main.script_main. Qed.
Print Assumptions script_models_fit.

(** The random model returns nothing unless the stream is empty: on the first chunk the
    experiment raises, and AttributeError if the recommendations could be made and scored. *)
Theorem random_experiment_never_returns :
  forall (A V T : Type) (zero : A) (sub : A -> A -> A) (norm : mat A -> V) (div : V -> V -> V) (minus_one : V) (clock : nat -> T)
    (argpart : nat -> list A -> nat -> list nat) (k : nat) (draws : rr_state -> list Z -> bool -> list (list A)) (L : nat) (chunk_mode : bool),
  let m := rr_api argpart k draws in
  (forall tu hm st0 initial stream dyn,
   dynamical_experiment zero sub norm div minus_one clock m (grow_3d L) tu chunk_mode hm st0 initial stream = Ok dyn -> stream = []) /\
  (forall tu hm st0 initial c stream st rec h r test, rr_train st0 initial = Ok st ->
   let (users, items) := get_users_to_recommend_test_items c (rr_maps st) in
   rr_recommend argpart k draws st users false = Ok rec -> hr rec items = Ok h -> mrr rec items = Ok r ->
   rr_recommend argpart k draws st tu true = Ok test ->
   dynamical_experiment zero sub norm div minus_one clock m (grow_3d L) tu chunk_mode hm st0 initial (c :: stream) = Err AttributeError) /\
  (forall sort_days sort_counts data cut hm_min hm st0 dyn,
   full_dynamical_experiment zero sub norm div minus_one clock m (grow_3d L) chunk_mode (entry_3d L) users_3d sort_days sort_counts
     data cut hm_min hm st0 = Ok dyn ->
   exists initial left, prepare_data_for_experiment tb_index tb_day sort_days data cut hm_min = Ok (initial, [], left)).
Proof. exact (fun A V T zero sub norm div minus_one clock argpart k draws L chunk_mode =>
  conj (fun tu hm st0 initial stream dyn => @Choice_main.random_never A V T zero sub norm div minus_one clock argpart k draws tu L chunk_mode hm st0 initial stream dyn)
  (conj (fun tu hm st0 initial c stream st rec h r test E =>
           proj2 (@Choice_main.random_first A V T zero sub norm div minus_one clock argpart k draws tu L chunk_mode hm st0 initial c stream st E) rec h r test)
        (fun sd sc data cut hm_min hm st0 dyn => @Choice_main.random_never_full A V T zero sub norm div minus_one clock argpart k draws L chunk_mode sd sc data cut hm_min hm st0 dyn))). Qed.
Print Assumptions random_experiment_never_returns.

(** The shipped parameters go through for all seven names; a misspelt parameter, a missing
    [seq_len] and a repeated [rank] are refused; the light attention is only for the
    incremental models. *)
Example choices :
  let ok := Ok tt in
  let keys := ["dataset"; "topk"; "max_len_user_history"]%string in
  (forall name, In name ["SVD"; "PSIRec"; "TDRec"; "TDRecReinit"; "TIRec"; "TIRecA"; "Random"]%string ->
     exists dim cf p, script_choice name = Ok (dim, cf) /\ prepare_model ok ok name cf = Ok p /\ runs_as name p) /\
  prepare_model ok ok "PSIRec" (mkConfig keys (Some ["seed"]%string) None) = Err TypeError /\
  prepare_model ok ok "SVD" (mkConfig keys (Some ["seed"]%string) None) = Ok (mkPlan CSVD "train" false false false false) /\
  prepare_model ok ok "TDRec" (mkConfig keys None (Some ["seq_len"; "rank"]%string)) = Err TypeError /\
  prepare_model ok ok "TDRec" (mkConfig keys None (Some ["seq_len"; "att_light_mode"]%string)) = Err TypeError /\
  prepare_model ok ok "TIRec" (mkConfig keys None (Some ["seq_len"; "att_light_mode"]%string)) = Ok (mkPlan CTIRec "update" true false true true) /\
  prepare_model ok ok "TIRec" (mkConfig keys (Some ["seq_len"]%string) None) = Err KeyError /\
  prepare_model ok ok "tirec" (mkConfig keys None (Some ["seq_len"]%string)) = Err RuntimeError.
Proof.
  cbv zeta. split.
  - intros name H. destruct (script_choice name) as [[dim cf]|e] eqn:E.
    + destruct (proj2 (proj2 (script_models_fit name)) dim cf E) as [p [Hp _]].
      exists dim, cf, p. split; [reflexivity|]. assert (P : prepare_model (Ok tt) (Ok tt) name cf = Ok p) by (apply Hp; split; reflexivity).
      split; [exact P|]. exact (proj1 (proj2 (models_prepared_iff _ _ _ _)) p P).
    + exfalso. cbn [In] in H. destruct H as [<-|[<-|[<-|[<-|[<-|[<-|[<-|[]]]]]]]]; discriminate E.
  - repeat split.
Qed.

(** Two users who can be recommended items: AttributeError, and with an empty stream the
    training alone is reported. *)
Example random_run :
  Choice_wit.ch_run [Choice_wit.ch_chunk] = Err AttributeError /\
  (exists st rec h r, rr_train Choice_wit.ch_start Choice_wit.ch_table = Ok st /\
     rr_recommend Choice_wit.ch_argpart 2 Choice_wit.ch_draws st [10; 20]%Z false = Ok rec /\
     hr rec [7; 5]%Z = Ok h /\ mrr rec [7; 5]%Z = Ok r) /\
  Choice_wit.ch_run [] = Ok (mkDyn [0%nat] [] [] [] [] [] [] []).
Proof.
  split; [vm_compute; reflexivity|]. split; [|vm_compute; reflexivity].
  eexists _, _, _, _. split; [vm_compute; reflexivity|]. split; [vm_compute; reflexivity|]. split; vm_compute; reflexivity.
Qed.
