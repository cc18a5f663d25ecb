(** C111: what the users of the stability test decide. *)
From Coq Require Import ZArith QArith List Bool Permutation.
From Verif Require Import Prelude DataPrep_model Eval_spec Tensor_model Recommend_model Recommend_spec Psi_model Num_model Dynamic_model Dynamic_spec
  Full_model Seqx_model Tdx_model Panel_spec.
From Verif Require Panel_main Panel_wit.
Import ListNotations.
Open Scope Z_scope.

(** C111.  An experiment with given test users gets through exactly if it does with each of them
    as the only one. *)
Theorem panel_succeeds :
  forall (S D A V T : Type) (zero : A) (sub : A -> A -> A) (norm : mat A -> V) (div : V -> V -> V) (minus_one : V) (clock : nat -> T)
    (m : api S D A) (grow : D -> list DataPrep_model.row -> res D) (chunk_mode : bool), by_user m -> equal_lengths m ->
  forall (how_many : Z) (st0 : S) (initial : D) (stream : list (list DataPrep_model.row)) (test_users : list Z), test_users <> [] ->
  let run us := dynamical_experiment zero sub norm div minus_one clock m grow us chunk_mode how_many st0 initial stream in
  (exists dyn, run test_users = Ok dyn) <-> (forall u, In u test_users -> exists dyn, run [u] = Ok dyn).
Proof. exact @Panel_main.panel_succeeds_main. Qed.
Print Assumptions panel_succeeds.

(** C111.  The reported stability is the mean of those reported for the single users, a user
    named twice counting twice; nothing else in the results depends on the test users. *)
Theorem panel_stability_is_mean :
  forall (S D A V T : Type) (zero : A) (sub : A -> A -> A) (norm : mat A -> V) (div : V -> V -> V) (minus_one : V) (clock : nat -> T)
    (m : api S D A) (grow : D -> list DataPrep_model.row -> res D) (chunk_mode : bool), by_user m -> equal_lengths m ->
  forall (how_many : Z) (st0 : S) (initial : D) (stream : list (list DataPrep_model.row)) (test_users : list Z)
    (dyn : dynamics T V) (single : Z -> dynamics T V), test_users <> [] ->
  let run us := dynamical_experiment zero sub norm div minus_one clock m grow us chunk_mode how_many st0 initial stream in
  run test_users = Ok dyn -> (forall u, In u test_users -> run [u] = Ok (single u)) ->
  (forall u, In u test_users -> same_but_stability dyn (single u) /\ length (d_wji (single u)) = length (d_wji dyn)) /\
  (forall t w, nth_error (d_wji dyn) t = Some w -> mean_over test_users (fun u => nth t (d_wji (single u)) 0%Q) w).
Proof. exact @Panel_main.panel_mean_main. Qed.
Print Assumptions panel_stability_is_mean.

(** C111.  The order of the test users does not matter. *)
Theorem panel_order_irrelevant :
  forall (S D A V T : Type) (zero : A) (sub : A -> A -> A) (norm : mat A -> V) (div : V -> V -> V) (minus_one : V) (clock : nat -> T)
    (m : api S D A) (grow : D -> list DataPrep_model.row -> res D) (chunk_mode : bool), by_user m -> equal_lengths m ->
  forall (how_many : Z) (st0 : S) (initial : D) (stream : list (list DataPrep_model.row)) (test_users test_users' : list Z) (dyn : dynamics T V),
  test_users <> [] -> Permutation test_users test_users' ->
  let run us := dynamical_experiment zero sub norm div minus_one clock m grow us chunk_mode how_many st0 initial stream in
  run test_users = Ok dyn ->
  exists dyn', run test_users' = Ok dyn' /\ same_but_stability dyn dyn' /\ Forall2 Qeq (d_wji dyn) (d_wji dyn').
Proof. exact @Panel_main.panel_order_main. Qed.
Print Assumptions panel_order_irrelevant.

(** C111.  Every model with the recommend of the repository is of this kind, as long as
    argpartition answers by the array alone; SVD and PSI among them. *)
Theorem recommenders_serve_users_alone :
  forall (A : Type) (leb : A -> A -> bool) (argpart : nat -> list A -> nat -> list nat) (k : nat) (filter_viewed : bool),
  argpartition_contract leb argpart -> (forall i a kth, argpart i a kth = argpart 0%nat a kth) ->
  forall (S D B : Type) (m : api S D B) (state : S -> rec_state A),
  (forall s us internal, recommend m s us internal = Recommend_model.recommend argpart (state s) us k filter_viewed internal) ->
  by_user m /\ equal_lengths m.
Proof. exact @Panel_main.recommenders_main. Qed.
Print Assumptions recommenders_serve_users_alone.

Theorem matrix_models_serve_users_alone :
  forall (A : Type) (leb : A -> A -> bool) (zero one : A) (add mul sub : A -> A -> A) (of_rel : Z -> A) qr svd rsvd exceeds_eps argsort normal svds
    (argpart : nat -> list A -> nat -> list nat) (k : nat) (rank : Z) (cfg : psi_cfg),
  argpartition_contract leb argpart -> (forall i a kth, argpart i a kth = argpart 0%nat a kth) ->
  let psi := psi_api zero one add mul sub of_rel qr svd rsvd exceeds_eps argsort normal svds argpart k rank cfg in
  let svd' := svd_api zero add mul of_rel svds argpart k rank in
  (by_user psi /\ equal_lengths psi) /\ (by_user svd' /\ equal_lengths svd').
Proof.
  intros A leb zero one add mul sub of_rel qr svd rsvd exceeds_eps argsort normal svds argpart k rank cfg C Same psi svd'.
  split; [exact (Panel_main.recommenders_main leb argpart k true C Same psi (num_rec zero add mul) (fun s us internal => eq_refl))|].
  exact (Panel_main.recommenders_main leb argpart k true C Same svd' (num_rec zero add mul) (fun s us internal => eq_refl)).
Qed.
Print Assumptions matrix_models_serve_users_alone.

(** C111.  So are TIRec, TIRecA and TDRec. *)
Theorem sequential_models_serve_users_alone :
  forall (A N : Type) (leb : A -> A -> bool) (zero one : A) (add mul sub : A -> A -> A) (of_val : Z -> A) exceeds_eps is_one cfg L rank a ainv att
    sort_bool qr rand rsvd (tnorm : ten A -> N) norm0 grew n_iter force rt (argpart : nat -> list A -> nat -> list nat) (k : nat),
  argpartition_contract leb argpart -> (forall i x kth, argpart i x kth = argpart 0%nat x kth) ->
  let ti := seq_api zero one add mul sub of_val exceeds_eps is_one cfg L rank a ainv att sort_bool qr rand rsvd tnorm norm0 grew n_iter force rt argpart k in
  let td := td_api zero add mul of_val L rank a ainv qr rand rsvd tnorm norm0 grew n_iter force argpart k in
  (by_user ti /\ equal_lengths ti) /\ (by_user td /\ equal_lengths td).
Proof.
  intros A N leb zero one add mul sub of_val exceeds_eps is_one cfg L rank a ainv att sort_bool qr rand rsvd tnorm norm0 grew n_iter force rt argpart k C Same ti td.
  split; [exact (Panel_main.recommenders_main leb argpart k true C Same ti (nti_rec zero add mul) (fun s us internal => eq_refl))|].
  exact (Panel_main.recommenders_main leb argpart k true C Same td (nti_rec zero add mul) (fun s us internal => eq_refl)).
Qed.
Print Assumptions sequential_models_serve_users_alone.

Example panel_case :
  by_user Panel_wit.turning /\ equal_lengths Panel_wit.turning /\
  exists both first second, Panel_wit.turning_run [1; 2] = Ok both /\ Panel_wit.turning_run [1] = Ok first /\ Panel_wit.turning_run [2] = Ok second /\
    map Qred (d_wji both) = [3 # 4]%Q /\ map Qred (d_wji first) = [1]%Q /\ map Qred (d_wji second) = [1 # 2]%Q.
Proof.
  split; [exact (proj1 Panel_wit.turning_by_user)|]. split; [exact (proj2 Panel_wit.turning_by_user)|].
  eexists. eexists. eexists. split; [vm_compute; reflexivity|]. split; [vm_compute; reflexivity|]. split; [vm_compute; reflexivity|].
  split; [|split]; vm_compute; reflexivity.
Qed.
