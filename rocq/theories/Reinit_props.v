(** C102, C103: TDRecRe and RandomRec. *)
From Coq Require Import ZArith QArith List Bool.
From Verif Require Import Prelude DataPrep_model History_model Recommend_model Chance_model Tensor_model Matrix_model LinAlg_model
  Hooi_model Nti_model Dynamic_model Seqx_model Rex_model Tables_model Stream_model Pipe_model
  Rename_spec Rename_main Columns_spec Reinit_main.
Import ListNotations.
Open Scope Z_scope.

(** C102: TDRecRe, if the new names of the users keep their order: the same series or the same
    exception, from the tables and from the prepared file on. *)
Theorem names_in_tdrecre_experiments :
  forall (A N : Type) (zero : A) (add mul : A -> A -> A) (of_val : Z -> A) L rank a ainv qr rand rsvd (tnorm : ten A -> N) norm0 grew n_iter force
    argpart k (V T : Type) (sub : A -> A -> A) norm (div : V -> V -> V) minus_one (clock : nat -> T) chunk_mode f g,
  keeps_order f -> one_to_one g ->
  let m := re_api zero add mul of_val L rank a ainv qr rand rsvd tnorm norm0 grew n_iter force argpart k in
  (forall test_users hm st0 initial stream,
   let experiment := fun tu st0 => dynamical_experiment zero sub norm div minus_one clock m (grow_3d L) tu chunk_mode hm st0 in
   experiment (map f test_users) (rn_nti f g st0) (map (rn_p f g) initial) (map (map (rn f g)) stream) =
   experiment test_users st0 initial stream) /\
  (forall sort_days sort_counts data cut hm_min hm st0,
   (forall l, sort_days (map (rn_t f g) l) = map (rn_t f g) (sort_days l)) -> by_key_only f sort_counts ->
   let full := full_dynamical_experiment zero sub norm div minus_one clock m (grow_3d L) chunk_mode (entry_3d L) users_3d sort_days sort_counts in
   full (map (rn_t f g) data) cut hm_min hm (rn_nti f g st0) = full data cut hm_min hm st0).
Proof. exact (fun A N zero add mul of_val L rank a ainv qr rand rsvd tnorm norm0 grew n_iter force argpart k V T =>
  @re_names A N zero add mul of_val L rank a ainv qr rand rsvd tnorm norm0 grew n_iter force argpart k V T). Qed.
Print Assumptions names_in_tdrecre_experiments.

(** C102: retraining TDRecRe on a prepared table commutes with all one-to-one renamings. *)
Theorem names_in_tdrecre_training :
  forall (A N : Type) (zero : A) (add mul : A -> A -> A) (of_val : Z -> A) L rank a ainv qr rand rsvd (tnorm : ten A -> N) norm0 grew n_iter force f g,
  one_to_one f -> one_to_one g ->
  let retrain := re_train zero add mul of_val L rank a ainv qr rand rsvd tnorm norm0 grew n_iter force in
  forall x table, retrain (rn_nti f g x) (map (rn_p f g) table) = mapR (rn_nti f g) (retrain x table).
Proof. exact (fun A N zero add mul of_val L rank a ainv qr rand rsvd tnorm norm0 grew n_iter force =>
  @retrain_R A N zero add mul of_val L rank a ainv qr rand rsvd tnorm norm0 grew n_iter force). Qed.
Print Assumptions names_in_tdrecre_training.

(** C102: with the same draws RandomRec recommends the same internal items to renamed users,
    and the renamed external ones. *)
Theorem names_in_random_recommendations :
  forall f g, one_to_one f ->
  forall (A : Type) (argpart : nat -> list A -> nat -> list nat) (x : rec_state A) draws users k filter_viewed,
  let y := mkRec (rn_maps f g (rs_mappings x)) (rs_n_users x) (rs_n_items x) (rs_history x) (rs_scores x) in
  random_recommend argpart y draws (map f users) k filter_viewed true = random_recommend argpart x draws users k filter_viewed true /\
  random_recommend argpart y draws (map f users) k filter_viewed false =
    mapR (map (map g)) (random_recommend argpart x draws users k filter_viewed false).
Proof. exact (fun f g hf A argpart x draws users k fv =>
  conj (random_R argpart f g hf x draws users k fv true) (random_R argpart f g hf x draws users k fv false)). Qed.
Print Assumptions names_in_random_recommendations.

(** C103: for TDRecRe too only the order of the timestamps of each user counts. *)
Theorem times_order_tdrecre_experiments :
  forall (A N : Type) (zero : A) (add mul : A -> A -> A) (of_val : Z -> A) L rank a ainv qr rand rsvd (tnorm : ten A -> N) norm0 grew n_iter force
    argpart k (V T : Type) (sub : A -> A -> A) norm (div : V -> V -> V) minus_one (clock : nat -> T) chunk_mode (t : row -> Z),
  same_order t ->
  let m := re_api zero add mul of_val L rank a ainv qr rand rsvd tnorm norm0 grew n_iter force argpart k in
  (forall test_users hm st0 initial stream,
   let experiment := dynamical_experiment zero sub norm div minus_one clock m (grow_3d L) test_users chunk_mode hm st0 in
   experiment (map (fun x => (retime t (fst x), snd x)) initial) (map (map (retime t)) stream) = experiment initial stream) /\
  (forall sort_days sort_counts data cut hm_min hm st0,
   (forall l, sort_days (map (retime_t t) l) = map (retime_t t) (sort_days l)) ->
   let full := full_dynamical_experiment zero sub norm div minus_one clock m (grow_3d L) chunk_mode (entry_3d L) users_3d sort_days sort_counts in
   full (map (retime_t t) data) cut hm_min hm st0 = full data cut hm_min hm st0).
Proof. exact (fun A N zero add mul of_val L rank a ainv qr rand rsvd tnorm norm0 grew n_iter force argpart k V T =>
  @re_times A N zero add mul of_val L rank a ainv qr rand rsvd tnorm norm0 grew n_iter force argpart k V T). Qed.
Print Assumptions times_order_tdrecre_experiments.

(** A draw for each of two users with the names 7, 8 and with the names -7, -8. *)
Example random_names_demo :
  let maps := mkMappings (mkMapping [(7, 0); (8, 1)] [(0, 7); (1, 8)] 2) (mkMapping [(10, 0); (20, 1); (30, 2)] [(0, 10); (1, 20); (2, 30)] 3) in
  let x := mkRec maps 2 3 [(0, 0)] (fun _ : Z => Ok [0; 0; 0]) in
  let y := mkRec (rn_maps Z.opp Z.opp maps) 2 3 [(0, 0)] (fun _ : Z => Ok [0; 0; 0]) in
  let sorted := fun (_ : nat) (l : list Z) (_ : nat) => sort_stable (fun i j => nth i l 0 <=? nth j l 0) (seq 0 (length l)) in
  random_recommend sorted x [[5; 3; 4]; [1; 2; 3]] [7; 8] 1 true false = Ok [[30]; [30]] /\
  random_recommend sorted y [[5; 3; 4]; [1; 2; 3]] [-7; -8] 1 true false = Ok [[-30]; [-30]].
Proof. split; vm_compute; reflexivity. Qed.
