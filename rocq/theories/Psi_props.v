(** Properties C18-C20: bookkeeping of SVD and PSI. *)
From Coq Require Import ZArith List Bool Lia Permutation.
From Verif Require Import Prelude DataPrep_model DataPrep_spec Recommend_model Recommend_spec
  Psi_model Psi_spec.
From Verif Require Recommend_main Psi_main.
Import ListNotations.
Open Scope Z_scope.

(** C18.  The steps that ran, their tables, and where their values land; every
    row's value is used by exactly one step. *)
Theorem psi_update_consumes_once :
  forall cfg st data st',
    aligned st -> psi_update cfg st data = Ok st' ->
    exists l, ps_log st' = ps_log st ++ l
      /\ map (fun s => (sl_mode s, sl_data s)) l = expected_steps cfg st data
      /\ Permutation (concat (map sl_data (filter (fun s => uses_values cfg (sl_mode s)) l))) data
      /\ Forall (step_lands st') l.
Proof. exact Psi_main.psi_update_partition_main. Qed.
Print Assumptions psi_update_consumes_once.

(** C18.  When an update fails: never with a KeyError, only on the size condition
    of the incremental SVD or the unsupported configuration. *)
Theorem psi_update_outcome :
  forall cfg st data,
    aligned st ->
    (cf_init cfg = INone -> cf_integrator cfg = true -> psi_update cfg st data = Err RuntimeError)
    /\ ((cf_init cfg = INone -> cf_integrator cfg = false) ->
          ((exists st', psi_update cfg st data = Ok st') <-> (cf_init cfg = INone -> brand_ok st data))
          /\ (forall e, psi_update cfg st data = Err e -> e = ValueError)).
Proof. exact Psi_main.psi_update_outcome_main. Qed.
Print Assumptions psi_update_outcome.

(** Three users, three items; the chunk mixes all four kinds of rows, and user 8
    is new with a new item (9) and a known one (20). *)
Definition demo_table : list row :=
  [mkRow 5 10 1 1; mkRow 6 20 1 2; mkRow 7 30 1 3; mkRow 5 30 1 4].
Definition demo_chunk : list row :=
  [mkRow 8 20 1 5; mkRow 5 90 1 6; mkRow 8 90 1 7; mkRow 4 10 1 8; mkRow 6 80 1 9; mkRow 6 10 1 10].
Definition demo_st : psi_state :=
  match svd_train 2 demo_table with Ok s => s | Err _ => mkPsi (mkMappings (get_cont_mapping_struct [] 0) (get_cont_mapping_struct [] 0)) 0 0 [] [] end.

Example psi_demo_trained : svd_train 2 demo_table = Ok demo_st.
Proof. vm_compute; reflexivity. Qed.

Example psi_update_consumes_once_example :
  aligned demo_st
  /\ brand_ok demo_st demo_chunk
  /\ expected_steps (mkCfg INone false) demo_st demo_chunk
     = [ (MNew, [mkRow 8 90 1 7]); (MNewUsers, [mkRow 4 10 1 8]); (MNewItems, [mkRow 6 80 1 9]);
         (MOld, [mkRow 8 20 1 5; mkRow 5 90 1 6; mkRow 6 10 1 10]) ]
  /\ (exists st', psi_update (mkCfg INone false) demo_st demo_chunk = Ok st'
        /\ ps_n_users st' = 5 /\ ps_n_items st' = 5
        /\ map sl_mode (ps_log st') = [MNew; MNewUsers; MNewItems; MOld])
  /\ psi_update (mkCfg INone true) demo_st demo_chunk = Err RuntimeError.
Proof.
  split; [|split; [|split; [|split]]].
  - exact (Psi_main.inv_aligned demo_st demo_table (Psi_main.train_inv 2 _ _ psi_demo_trained)).
  - split; vm_compute; discriminate.
  - vm_compute; reflexivity.
  - eexists; split; [vm_compute; reflexivity|]. repeat split.
  - vm_compute; reflexivity.
Qed.

(** More new users than items: the default configuration raises ValueError, the
    one with zero embeddings does not. *)
Example psi_update_outcome_example :
  let chunk := [mkRow 1 10 1 5; mkRow 2 10 1 5; mkRow 3 20 1 5; mkRow 4 20 1 5] in
  ~ brand_ok demo_st chunk
  /\ psi_update (mkCfg INone false) demo_st chunk = Err ValueError
  /\ exists st', psi_update (mkCfg IZero false) demo_st chunk = Ok st' /\ ps_n_users st' = 7.
Proof.
  split; [intros [H _]; vm_compute in H; apply H; reflexivity|].
  split; [vm_compute; reflexivity|]. eexists. split; [vm_compute; reflexivity|reflexivity].
Qed.

(** C19 *)
Theorem psi_embeddings_aligned :
  forall rank data cfg chunks st0 st,
    svd_train rank data = Ok st0 -> psi_stream cfg st0 chunks = Ok st ->
    aligned st
    /\ (forall k, fu st k <> None <-> In k (map r_user (data ++ concat chunks)))
    /\ (forall k, fi st k <> None <-> In k (map r_item (data ++ concat chunks)))
    /\ Forall (step_lands st) (ps_log st)
    /\ (forall k v, fu st0 k = Some v -> fu st k = Some v)
    /\ (forall k v, fi st0 k = Some v -> fi st k = Some v).
Proof. exact Psi_main.psi_stream_aligned_main. Qed.
Print Assumptions psi_embeddings_aligned.

Example psi_embeddings_aligned_example :
  exists st, psi_stream (mkCfg IRandom true) demo_st [demo_chunk; [mkRow 1 70 1 3; mkRow 8 10 1 4]] = Ok st
    /\ ps_n_users st = 6 /\ ps_n_items st = 6 /\ fu st 8 = Some 3 /\ fu st 4 = Some 4 /\ fi st 70 = Some 5.
Proof. eexists. split; [vm_compute; reflexivity|]. repeat split. Qed.

(** C20 *)
Theorem psi_never_recommends_seen :
  forall {A} (leb : A -> A -> bool),
    (forall x y z, leb x y = true -> leb y z = true -> leb x z = true) ->
  forall argpart, argpartition_contract leb argpart ->
  forall rank data cfg chunks st0 st (scores : Z -> list A) users k rows,
    svd_train rank data = Ok st0 -> psi_stream cfg st0 chunks = Ok st ->
    (forall u, Z.of_nat (length (scores u)) = ps_n_items st) -> (1 <= k)%nat ->
    recommend argpart (psi_rec st scores) users k true false = Ok rows ->
    Forall2 (fun uid row => length row = Nat.min k (Z.to_nat (ps_n_items st))
      /\ forall r, In r (data ++ concat chunks) -> r_user r = uid -> ~ In (r_item r) row) users rows.
Proof. exact @Psi_main.psi_never_seen_main. Qed.
Print Assumptions psi_never_recommends_seen.

(** Items 10, 20, 30, 90, 80 (indices 0-4); user 6 has 20, 80, 10 left with 30, 90. *)
Example psi_never_recommends_seen_example :
  exists st, psi_stream (mkCfg INone false) demo_st [demo_chunk] = Ok st
    /\ recommend Recommend_main.argpart_sorted (psi_rec st (fun _ => [50; 40; 30; 20; 10])) [6; 4] 2 true false
       = Ok [[30; 90]; [20; 30]].
Proof. eexists. split; [vm_compute; reflexivity|vm_compute; reflexivity]. Qed.
