(** C108: what repeated interactions do. *)
From Coq Require Import ZArith List Bool.
From Verif Require Import Prelude DataPrep_model Recommend_model History_model Psi_model Tensor_model Matrix_model Attention_model LinAlg_model
  Num_model Dynamic_model Full_model Pipe_model Dup_spec Dup_main Dup_exp Dup_wit.
Import ListNotations.
Open Scope Z_scope.

(** C108: for SVD and PSI several rows of one user and one item count as one row with the sum of
    their relevances: tables with the same pairs, first seen in the same order, and with the same
    totals lead to objects with the same mappings, the same factors and the same excluded
    items, through training and any stream of updates, or to the same exception; and to the
    same recommendations. *)
Theorem matrix_models_see_totals :
  forall (A : Type) (zero one : A) (add mul sub : A -> A -> A) (of_rel : Z -> A), adds_up zero add ->
  forall qr svd rsvd exceeds_eps argsort normal svds rank cfg d1 d2 c1 c2,
  let train := num_train zero add of_rel svds rank in
  let stream := num_stream zero one add mul sub of_rel qr svd rsvd exceeds_eps argsort normal cfg in
  same_view zero add of_rel d1 d2 -> Forall2 (same_view zero add of_rel) c1 c2 ->
  agree alike (do x <- train d1; stream x c1) (do x <- train d2; stream x c2) /\
  forall argpart users k filter_viewed internal,
  let recommend := fun y => Recommend_model.recommend argpart (num_rec zero add mul y) users k filter_viewed internal in
  (do x <- train d1; do y <- stream x c1; recommend y) = (do x <- train d2; do y <- stream x c2; recommend y).
Proof. exact (fun A zero one add mul sub of_rel M qr svd rsvd e a n svds rank cfg d1 d2 c1 c2 V F =>
  conj (life_agree zero one add mul sub of_rel M qr svd rsvd e a n svds rank cfg d1 d2 c1 c2 V F)
   (fun argpart users k fv i => life_recommends zero one add mul sub of_rel M qr svd rsvd e a n svds rank cfg argpart d1 d2 c1 c2 users k fv i V F)). Qed.
Print Assumptions matrix_models_see_totals.

(** C108: and the whole dynamic experiment of SVD or PSI reports the same on both, tested rows
    included: of each user the first known pair of a group is tested. *)
Theorem experiments_see_totals :
  forall (A V T : Type) (zero one : A) (add mul sub : A -> A -> A) (of_rel : Z -> A), adds_up zero add ->
  forall qr svd rsvd exceeds_eps argsort normal svds argpart k rank cfg m (norm : mat A -> V) (div : V -> V -> V) minus_one (clock : nat -> T)
    chunk_mode hm test_users st0 st0' d1 d2 s1 s2,
  m = psi_api zero one add mul sub of_rel qr svd rsvd exceeds_eps argsort normal svds argpart k rank cfg \/
  m = svd_api zero add mul of_rel svds argpart k rank ->
  same_view zero add of_rel d1 d2 -> Forall2 (same_view zero add of_rel) s1 s2 ->
  let experiment := dynamical_experiment zero sub norm div minus_one clock m grow_2d test_users chunk_mode hm in
  experiment st0 d1 s1 = experiment st0' d2 s2.
Proof. exact (fun A V T zero one add mul sub of_rel M => @experiments_view A V T zero one add mul sub of_rel M). Qed.
Print Assumptions experiments_see_totals.

(** C108: in particular the table with one row for every pair, holding the sum of the
    relevances, can stand for the table itself; and a row that repeats an earlier pair can stand
    anywhere after it. *)
Theorem repetitions_can_be_summed :
  forall (A : Type) (zero : A) (add : A -> A -> A) (of_rel : Z -> A), adds_up zero add ->
  (of_rel 0 = zero -> (forall a b, of_rel (a + b) = add (of_rel a) (of_rel b)) -> forall d, same_view zero add of_rel (summed d) d) /\
  (forall d d' d'' s, In (who s) (map who d) -> same_view zero add of_rel (d ++ s :: d' ++ d'') (d ++ d' ++ s :: d'')).
Proof. exact (fun A zero add of_rel M => conj (fun H0 HD => summed_view zero add of_rel M H0 HD) (moved_view zero add of_rel M)). Qed.
Print Assumptions repetitions_can_be_summed.

(** C108: training alone only needs the users and the items to be first seen in the same order. *)
Theorem training_sees_totals :
  forall (A : Type) (zero : A) (add : A -> A -> A) (of_rel : Z -> A), adds_up zero add ->
  forall svds rank d1 d2, same_totals zero add of_rel d1 d2 ->
  agree alike (num_train zero add of_rel svds rank d1) (num_train zero add of_rel svds rank d2).
Proof. exact (fun A zero add of_rel M => train_agree zero add of_rel M). Qed.
Print Assumptions training_sees_totals.

(** C108: for an update this is not enough: the internal numbers of the new users depend on
    which of their pairs came first. *)
Theorem updates_see_totals_refuted :
  exists d1 d2 initial rank cfg, same_totals 0 Z.add (fun z => z) d1 d2 /\
  exists st s s', svd_train rank initial = Ok st /\ psi_update cfg st d1 = Ok s /\ psi_update cfg st d2 = Ok s' /\
  exists u, dget u (old2new (m_users (ps_maps s))) <> dget u (old2new (m_users (ps_maps s'))).
Proof. exact d_updates. Qed.
Print Assumptions updates_see_totals_refuted.

(** C108: sequential models do not see repetitions this way: each takes a place in the window,
    so a repeated row can drive another item of the user out of what is learnt. *)
Theorem sequential_models_see_totals_refuted :
  exists L d1 d2, same_view 0 Z.add (fun z => z) d1 d2 /\
  exists t t', (do p <- entry_3d L d1; tdrec_prepare p [] L) = Ok t /\ (do p <- entry_3d L d2; tdrec_prepare p [] L) = Ok t' /\
  exists i, dget i (old2new (m_items (td_mappings t))) = None /\ dget i (old2new (m_items (td_mappings t'))) <> None.
Proof. exact d_windows. Qed.
Print Assumptions sequential_models_see_totals_refuted.

(** The integers add up; user 5 with item 20 twice is summed into one row. *)
Example summed_twice : adds_up 0 Z.add /\ summed d_twice = [mkRow 5 10 0 1; mkRow 5 20 0 2; mkRow 6 30 0 1] /\
  In (who (mkRow 5 20 3 1)) (map who (firstn 2 d_twice)).
Proof. split; [exact z_adds_up|split; [reflexivity|right; left; reflexivity]]. Qed.
