(** The model names of the dynamic experiment, written down independently of the model. *)
From Coq Require Import List String.
From Verif Require Import Prelude Choice_model.
Import ListNotations.
Open Scope string_scope.

Definition matrix_names := ["SVD"; "PSIRec"].
Definition tensor_names := ["TDRec"; "TDRecReinit"; "TIRec"; "TIRecA"].
Definition known (name : string) := In name matrix_names \/ In name tensor_names \/ name = "Random".

(** Fixed parameters the constructor of the named model takes besides the tuned ones. *)
Definition fits (name : string) (kw : list string) : Prop :=
  NoDup kw /\
  (In name matrix_names -> forall s, In s kw -> In s ["n_power_iter"; "oversampling_factor"; "seed"; "dtype"]) /\
  (name = "PSIRec" -> In "n_power_iter" kw /\ In "oversampling_factor" kw /\ In "seed" kw) /\
  (In name tensor_names -> In "seq_len" kw /\
     forall s, In s kw -> In s ["seq_len"; "n_iter"; "growth_tol"; "n_power_iter"; "oversampling_factor"; "seed";
                                "parallel"; "dtype"; "force_n_iter"] \/
                          (s = "att_light_mode" /\ (name = "TIRec" \/ name = "TIRecA"))).

(** A configuration [prepare_model] can use, where [sv] and [td] are the outcomes of looking up
    the tuned parameters. *)
Definition usable (sv td : res unit) (name : string) (cf : config) : Prop :=
  (In name matrix_names /\ In "dataset" (c_keys cf) /\ In "topk" (c_keys cf) /\ sv = Ok tt /\
     exists kw, c_svd cf = Some kw /\ fits name kw) \/
  (In name tensor_names /\ In "dataset" (c_keys cf) /\ In "topk" (c_keys cf) /\ In "max_len_user_history" (c_keys cf) /\ td = Ok tt /\
     exists kw, c_tdrec cf = Some kw /\ fits name kw) \/
  (name = "Random" /\ In "max_len_user_history" (c_keys cf)).

(** What the named model is run with. *)
Definition runs_as (name : string) (p : plan) : Prop :=
  (p_reinit p = true <-> name = "TDRecReinit") /\
  (p_chunk p = true <-> (name = "PSIRec" \/ name = "TIRec" \/ name = "TIRecA")) /\
  p_update p = (if p_chunk p then "update" else "train") /\
  (p_three p = true <-> ~ In name matrix_names) /\
  p_max_len p = p_three p.
