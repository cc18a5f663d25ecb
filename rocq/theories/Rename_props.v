(** C102: the names of users and items. *)
From Coq Require Import ZArith QArith List Bool.
From Verif Require Import Prelude DataPrep_model History_model Recommend_model Psi_model Tensor_model Matrix_model Attention_model LinAlg_model
  Num_model Tucker_model Hooi_model Nti_model Dynamic_model Full_model Seqx_model Tdx_model Tables_model Stream_model Pipe_model
  Rename_spec Rename_main Rename_exp.
Import ListNotations.
Open Scope Z_scope.

(** C102: training and updating SVD and PSI on renamed rows gives the renamed object - the same
    factors, history and row numbers - or the same exception. *)
Theorem names_in_training :
  forall f g, one_to_one f -> one_to_one g ->
  forall (A : Type) (zero one : A) (add mul sub : A -> A -> A) (of_rel : Z -> A) qr svd rsvd exceeds_eps argsort normal svds rank cfg x data,
  num_train zero add of_rel svds rank (map (rn f g) data) = mapR (rn_num f g) (num_train zero add of_rel svds rank data) /\
  num_update zero one add mul sub of_rel qr svd rsvd exceeds_eps argsort normal cfg (rn_num f g x) (map (rn f g) data) =
  mapR (rn_num f g) (num_update zero one add mul sub of_rel qr svd rsvd exceeds_eps argsort normal cfg x data).
Proof. exact (fun f g hf hg A zero one add mul sub of_rel qr svd rsvd e a n svds rank cfg x data =>
  conj (num_train_R f g hf hg zero add of_rel svds rank data)
       (num_update_R f g hf hg zero one add mul sub of_rel qr svd rsvd e a n cfg x data)). Qed.
Print Assumptions names_in_training.

(** C102: the same for the sequential models; an update, which sorts by user, only if the new
    names of the users keep their order. *)
Theorem names_in_sequential_training :
  forall f g, one_to_one f -> one_to_one g ->
  forall (A N : Type) (zero one : A) (add mul sub : A -> A -> A) (of_val : Z -> A) exceeds_eps is_one cfg L rank a ainv att rt sort_bool
    qr rand rsvd (tnorm : ten A -> N) norm0 grew n_iter force x data seq table,
  nti_train zero add mul of_val qr rand rsvd tnorm norm0 grew L rank a ainv n_iter force (map (rn_p f g) table) seq =
  mapR (rn_nti f g) (nti_train zero add mul of_val qr rand rsvd tnorm norm0 grew L rank a ainv n_iter force table seq) /\
  (keeps_order f ->
   nti_update zero one add mul sub of_val exceeds_eps is_one cfg L a ainv att rt (rn_nti f g x) (map (rn f g) data) sort_bool =
   mapR (rn_nti f g) (nti_update zero one add mul sub of_val exceeds_eps is_one cfg L a ainv att rt x data sort_bool)).
Proof. exact (fun f g hf hg A N zero one add mul sub of_val e i cfg L rank a ainv att rt sb qr rand rsvd tnorm norm0 grew n_iter force x data seq table =>
  conj (nti_train_R f g hf hg zero add mul of_val L rank a ainv qr rand rsvd tnorm norm0 grew n_iter force table seq)
       (fun inc => nti_update_R f g hf hg zero one add mul sub of_val e i cfg inc L a ainv att rt x data sb)). Qed.
Print Assumptions names_in_sequential_training.

(** C102: an object under new names recommends to the renamed users the same internal items,
    and the renamed external ones. *)
Theorem names_in_recommendations :
  forall f g, one_to_one f ->
  forall (A : Type) (argpart : nat -> list A -> nat -> list nat) (x : rec_state A) users k filter_viewed,
  let y := mkRec (rn_maps f g (rs_mappings x)) (rs_n_users x) (rs_n_items x) (rs_history x) (rs_scores x) in
  Recommend_model.recommend argpart y (map f users) k filter_viewed true =
    Recommend_model.recommend argpart x users k filter_viewed true /\
  Recommend_model.recommend argpart y (map f users) k filter_viewed false =
    mapR (map (map g)) (Recommend_model.recommend argpart x users k filter_viewed false).
Proof. exact (fun f g hf A argpart x users k fv =>
  conj (recommend_R f g hf argpart x users k fv true) (recommend_R f g hf argpart x users k fv false)). Qed.
Print Assumptions names_in_recommendations.

(** C102: the dynamic experiment with PSI (SVD) reports the same series, or stops with the same
    exception, if users and items get other names. *)
Theorem names_in_psi_experiment :
  forall f g, one_to_one f -> one_to_one g ->
  forall (A V T : Type) (zero one : A) (add mul sub : A -> A -> A) of_rel norm (div : V -> V -> V) minus_one (clock : nat -> T)
    qr svd rsvd exceeds_eps argsort normal svds argpart k rank cfg test_users chunk_mode hm st0 st0' initial stream,
  let experiment := fun tu st0 => dynamical_experiment zero sub norm div minus_one clock
    (psi_api zero one add mul sub of_rel qr svd rsvd exceeds_eps argsort normal svds argpart k rank cfg) grow_2d tu chunk_mode hm st0 in
  experiment (map f test_users) st0' (map (rn f g) initial) (map (map (rn f g)) stream) = experiment test_users st0 initial stream.
Proof. exact (fun f g hf hg A V T zero one add mul sub of_rel norm div m1 clock qr svd rsvd e a n svds argpart k rank cfg tu cm hm st0 st0' initial stream =>
  experiment_R zero sub norm div m1 clock _ grow_2d cm hm f g hf hg (rn_num f g) (map (rn f g))
    (psi_renames f g hf hg zero one add mul sub of_rel argpart k qr svd rsvd e a n svds rank cfg)
    tu st0' st0 initial _ stream (num_train_R f g hf hg zero add of_rel svds rank initial) eq_refl). Qed.
Print Assumptions names_in_psi_experiment.

Theorem names_in_svd_experiment :
  forall f g, one_to_one f -> one_to_one g ->
  forall (A V T : Type) (zero : A) (add mul sub : A -> A -> A) of_rel norm (div : V -> V -> V) minus_one (clock : nat -> T)
    svds argpart k rank test_users chunk_mode hm st0 st0' initial stream,
  let experiment := fun tu st0 => dynamical_experiment zero sub norm div minus_one clock
    (svd_api zero add mul of_rel svds argpart k rank) grow_2d tu chunk_mode hm st0 in
  experiment (map f test_users) st0' (map (rn f g) initial) (map (map (rn f g)) stream) = experiment test_users st0 initial stream.
Proof. exact (fun f g hf hg A V T zero add mul sub of_rel norm div m1 clock svds argpart k rank tu cm hm st0 st0' initial stream =>
  experiment_R zero sub norm div m1 clock _ grow_2d cm hm f g hf hg (rn_num f g) (map (rn f g))
    (svd_renames f g hf hg zero add mul of_rel argpart k svds rank)
    tu st0' st0 initial _ stream (num_train_R f g hf hg zero add of_rel svds rank initial) eq_refl). Qed.
Print Assumptions names_in_svd_experiment.

(** C102: from the prepared file on.  SVD and PSI: whatever the new names, two runs that go
    through differ in the stability series only; if the users keep their order, not at all. *)
Theorem names_in_2d_files :
  forall f g, one_to_one f -> one_to_one g ->
  forall (A V T : Type) (zero one : A) (add mul sub : A -> A -> A) of_rel norm (div : V -> V -> V) minus_one (clock : nat -> T)
    qr svd rsvd exceeds_eps argsort normal svds argpart k rank cfg chunk_mode sort_days sort_counts data cut hm_min hm st0 st0' m,
  m = psi_api zero one add mul sub of_rel qr svd rsvd exceeds_eps argsort normal svds argpart k rank cfg \/
  m = svd_api zero add mul of_rel svds argpart k rank ->
  (forall l, sort_days (map (rn_t f g) l) = map (rn_t f g) (sort_days l)) ->
  let full := full_dynamical_experiment zero sub norm div minus_one clock m grow_2d chunk_mode entry_2d users_2d sort_days sort_counts in
  (forall r r', full data cut hm_min hm st0 = Ok r -> full (map (rn_t f g) data) cut hm_min hm st0' = Ok r' -> same_but_wji r r') /\
  (keeps_order f -> by_key_only f sort_counts ->
   full (map (rn_t f g) data) cut hm_min hm st0' = full data cut hm_min hm st0).
Proof. exact files_2d. Qed.
Print Assumptions names_in_2d_files.

(** C102: TDRec, TIRec and TIRecA, if the new names of the users keep their order: the same
    series or the same exception, from the tables and from the prepared file on. *)
Theorem names_in_3d_experiments :
  forall f g, keeps_order f -> one_to_one g ->
  forall (A V T N : Type) (zero one : A) (add mul sub : A -> A -> A) of_val norm (div : V -> V -> V) minus_one (clock : nat -> T)
    exceeds_eps is_one cfg L rank a ainv att sort_bool qr rand rsvd (tnorm : ten A -> N) norm0 grew n_iter force rt argpart k chunk_mode m,
  (forall x ms, rt (with_maps x ms) = rt x) ->
  m = seq_api zero one add mul sub of_val exceeds_eps is_one cfg L rank a ainv att sort_bool
        qr rand rsvd tnorm norm0 grew n_iter force rt argpart k \/
  m = td_api zero add mul of_val L rank a ainv qr rand rsvd tnorm norm0 grew n_iter force argpart k ->
  (forall test_users hm st0 initial stream,
   let experiment := fun tu st0 => dynamical_experiment zero sub norm div minus_one clock m (grow_3d L) tu chunk_mode hm st0 in
   experiment (map f test_users) (rn_nti f g st0) (map (rn_p f g) initial) (map (map (rn f g)) stream) =
   experiment test_users st0 initial stream) /\
  (forall sort_days sort_counts data cut hm_min hm st0,
   (forall l, sort_days (map (rn_t f g) l) = map (rn_t f g) (sort_days l)) -> by_key_only f sort_counts ->
   let full := full_dynamical_experiment zero sub norm div minus_one clock m (grow_3d L) chunk_mode (entry_3d L) users_3d sort_days sort_counts in
   full (map (rn_t f g) data) cut hm_min hm (rn_nti f g st0) = full data cut hm_min hm st0).
Proof. exact files_3d. Qed.
Print Assumptions names_in_3d_experiments.

(** Names meeting the hypotheses (runs of whole experiments are in Renameref_props): a renaming
    that reverses the order of the users, one that keeps it, and a table under new names. *)
Example names_demo :
  one_to_one Z.opp /\ keeps_order (fun x => 3 * x + 1) /\ by_key_only Z.opp (fun l => l) /\
  get_df_with_updated_indices (map (rn Z.opp (fun x => 3 * x + 1)) [mkRow 5 10 1 1; mkRow 6 20 2 1; mkRow 5 20 3 1]) =
  Ok ([mkRow 0 0 1 1; mkRow 1 1 2 1; mkRow 0 1 3 1],
      mkMappings (mkMapping [(-5, 0); (-6, 1)] [(0, -5); (1, -6)] 2) (mkMapping [(31, 0); (61, 1)] [(0, 31); (1, 61)] 2)).
Proof. exact names_demo_holds. Qed.
