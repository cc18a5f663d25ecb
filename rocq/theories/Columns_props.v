(** C103: what the timestamps and relevances of the rows do. *)
From Coq Require Import ZArith QArith List Bool.
From Verif Require Import Prelude DataPrep_model History_model Psi_model Tensor_model Matrix_model Attention_model LinAlg_model
  Num_model Tucker_model Hooi_model Nti_model Dynamic_model Full_model Seqx_model Tdx_model Tables_model Stream_model Pipe_model
  Rename_spec Columns_spec Columns_main.
Import ListNotations.
Open Scope Z_scope.

(** C103: SVD and PSI do not look at timestamps: whatever is written there, training and
    updating leave the same attributes or raise the same exception. *)
Theorem times_unused_by_matrix_models :
  forall (t : row -> Z) (A : Type) (zero one : A) (add mul sub : A -> A -> A) (of_rel : Z -> A) qr svd rsvd exceeds_eps argsort normal svds rank cfg x data,
  num_train zero add of_rel svds rank (map (retime t) data) = num_train zero add of_rel svds rank data /\
  attributes (relog_num t x) = attributes x /\
  mapR attributes (num_update zero one add mul sub of_rel qr svd rsvd exceeds_eps argsort normal cfg (relog_num t x) (map (retime t) data)) =
  mapR attributes (num_update zero one add mul sub of_rel qr svd rsvd exceeds_eps argsort normal cfg x data).
Proof. exact (fun t A zero one add mul sub of_rel qr svd rsvd e a n svds rank cfg x data =>
  conj (num_train_T zero add of_rel svds t rank data)
   (conj (relog_attributes A t x) (num_update_attributes zero one add mul sub of_rel qr svd rsvd e a n cfg t x data))). Qed.
Print Assumptions times_unused_by_matrix_models.

(** C103: so their experiments report the same series or stop with the same exception, from
    the tables and, given the same day column, from the prepared file on. *)
Theorem times_unused_in_matrix_experiments :
  forall (A V T : Type) (zero one : A) (add mul sub : A -> A -> A) of_rel argpart k norm (div : V -> V -> V) minus_one (clock : nat -> T)
    chunk_mode (t : row -> Z) qr svd rsvd exceeds_eps argsort normal svds rank cfg m,
  m = psi_api zero one add mul sub of_rel qr svd rsvd exceeds_eps argsort normal svds argpart k rank cfg \/
  m = svd_api zero add mul of_rel svds argpart k rank ->
  (forall test_users hm st0 st0' initial stream,
   let experiment := fun st0 => dynamical_experiment zero sub norm div minus_one clock m grow_2d test_users chunk_mode hm st0 in
   experiment st0' (map (retime t) initial) (map (map (retime t)) stream) = experiment st0 initial stream) /\
  (forall sort_days sort_counts data cut hm_min hm st0 st0',
   (forall l, sort_days (map (retime_t t) l) = map (retime_t t) (sort_days l)) ->
   let full := full_dynamical_experiment zero sub norm div minus_one clock m grow_2d chunk_mode entry_2d users_2d sort_days sort_counts in
   full (map (retime_t t) data) cut hm_min hm st0' = full data cut hm_min hm st0).
Proof. exact (fun A V T => @columns_2d A V T). Qed.
Print Assumptions times_unused_in_matrix_experiments.

(** C103: for TDRec, TIRec and TIRecA only the order of the timestamps of each user counts. *)
Theorem times_order_sequential_experiments :
  forall (A V T : Type) (zero one : A) (add mul sub : A -> A -> A) of_val argpart k norm (div : V -> V -> V) minus_one (clock : nat -> T)
    chunk_mode (N : Type) (t : row -> Z)
    exceeds_eps is_one cfg L rank a ainv att sort_bool qr rand rsvd (tnorm : ten A -> N) norm0 grew n_iter force rt m,
  same_order t ->
  m = seq_api zero one add mul sub of_val exceeds_eps is_one cfg L rank a ainv att sort_bool
        qr rand rsvd tnorm norm0 grew n_iter force rt argpart k \/
  m = td_api zero add mul of_val L rank a ainv qr rand rsvd tnorm norm0 grew n_iter force argpart k ->
  (forall test_users hm st0 initial stream,
   let experiment := dynamical_experiment zero sub norm div minus_one clock m (grow_3d L) test_users chunk_mode hm st0 in
   experiment (map (fun x => (retime t (fst x), snd x)) initial) (map (map (retime t)) stream) = experiment initial stream) /\
  (forall sort_days sort_counts data cut hm_min hm st0,
   (forall l, sort_days (map (retime_t t) l) = map (retime_t t) (sort_days l)) ->
   let full := full_dynamical_experiment zero sub norm div minus_one clock m (grow_3d L) chunk_mode (entry_3d L) users_3d sort_days sort_counts in
   full (map (retime_t t) data) cut hm_min hm st0 = full data cut hm_min hm st0).
Proof. exact (fun A V T zero one add mul sub of_val argpart k norm div m1 clock cm N =>
  @columns_3d A V T zero one add mul sub of_val argpart k norm div m1 clock cm N). Qed.
Print Assumptions times_order_sequential_experiments.

(** C103: an update of TIRec or TIRecA does not look at the relevances (every new interaction
    weighs 1), so the relevances in the stream change nothing in their experiments. *)
Theorem relevances_unused_by_sequential_updates :
  forall (t w : row -> Z), same_order t ->
  forall (A V T N : Type) (zero one : A) (add mul sub : A -> A -> A) (of_val : Z -> A) argpart k norm (div : V -> V -> V) minus_one (clock : nat -> T)
    exceeds_eps is_one cfg L rank a ainv att sort_bool qr rand rsvd (tnorm : ten A -> N) norm0 grew n_iter force rt,
  (forall routines_of x data,
   nti_update zero one add mul sub of_val exceeds_eps is_one cfg L a ainv att routines_of x (map (reweigh t w) data) sort_bool =
   nti_update zero one add mul sub of_val exceeds_eps is_one cfg L a ainv att routines_of x data sort_bool) /\
  (forall test_users hm st0 initial stream,
   let experiment := dynamical_experiment zero sub norm div minus_one clock
     (seq_api zero one add mul sub of_val exceeds_eps is_one cfg L rank a ainv att sort_bool
        qr rand rsvd tnorm norm0 grew n_iter force rt argpart k) (grow_3d L) test_users true hm st0 in
   experiment initial (map (map (reweigh t w)) stream) = experiment initial stream).
Proof. exact (fun t w ord A V T N zero one add mul sub of_val argpart k norm div m1 clock e i cfg L rank a ainv att sb qr rand rsvd tnorm norm0 grew n_iter force rt =>
  conj (fun ro x data => nti_update_p zero one add mul sub of_val e i cfg t w ord L a ainv att ro x data sb)
       (fun tu hm st0 initial stream => seq_weights zero one add mul sub of_val argpart k norm div m1 clock true hm e i cfg L rank a ainv att sb
          qr rand rsvd tnorm norm0 grew n_iter force rt t w tu st0 initial stream eq_refl ord)). Qed.
Print Assumptions relevances_unused_by_sequential_updates.

(** Times in another unit with an offset per user (runs of whole experiments are in
    Columnsref_props). *)
Example columns_demo :
  same_order (fun r => 86400 * r_ts r + r_user r) /\
  get_df_with_cropped_pos_column (map (retime (fun r => 86400 * r_ts r + r_user r)) [mkRow 5 20 2 1; mkRow 6 30 1 1; mkRow 5 10 1 1]) 2 true =
  Ok [(mkRow 5 10 86405 1, 0); (mkRow 5 20 172805 1, 1); (mkRow 6 30 86406 1, 0)].
Proof. exact columns_demo_holds. Qed.
