(** Property C107: the length of the lists. *)
From Coq Require Import ZArith QArith List Bool.
From Verif Require Import Prelude DataPrep_model DataPrep_spec Recommend_model Recommend_spec Eval_model Tensor_model Matrix_model LinAlg_model
  Num_model Tucker_model Hooi_model Nti_model Dynamic_model Dynamic_spec Full_model Seqx_model Tdx_model Rex_model Topk_spec.
From Verif Require Recommend_main Topk_main Topk_wit Topk_nwit Full_wit.
Import ListNotations.
Open Scope Z_scope.

(** C107.  Where longer lists can be given, shorter ones can. *)
Theorem shorter_lists_possible :
  forall {A} (leb : A -> A -> bool),
    (forall x y z, leb x y = true -> leb y z = true -> leb x z = true) ->
  forall argpart, argpartition_contract leb argpart ->
  forall st users k k' fv internal rows,
    wf_state st -> (1 <= k <= k')%nat -> (2 <= rs_n_items st)%nat ->
    Recommend_model.recommend argpart st users k' fv internal = Ok rows ->
    exists rows0, Recommend_model.recommend argpart st users k fv internal = Ok rows0.
Proof. exact @Topk_main.possible_main. Qed.
Print Assumptions shorter_lists_possible.

(** C107.  Without ties every list is part of the longer one, so the hit rate does not fall. *)
Theorem longer_lists_hit_more :
  forall {A} (leb : A -> A -> bool),
    (forall x y z, leb x y = true -> leb y z = true -> leb x z = true) ->
    (forall x y, leb x y = true -> leb y x = true -> x = y) ->
  forall ap1 ap2, argpartition_contract leb ap1 -> argpartition_contract leb ap2 ->
  forall st users k k' fv internal rows1 rows2,
    wf_state st -> (1 <= k <= k')%nat -> (1 <= rs_n_items st)%nat ->
    (fv = true -> internal = false -> (2 <= rs_n_items st)%nat) ->
    no_ties st ->
    Recommend_model.recommend ap1 st users k fv internal = Ok rows1 ->
    Recommend_model.recommend ap2 st users k' fv internal = Ok rows2 ->
    Forall2 (fun r r' => incl r r') rows1 rows2 /\
    (forall test h h', length test = length users -> hr rows1 test = Ok h -> hr rows2 test = Ok h' -> (h <= h')%Q).
Proof. exact @Topk_main.nested_main. Qed.
Print Assumptions longer_lists_hit_more.

(** User 300 has seen item 44: the best one, and the best two. *)
Example longer_lists_case :
  wf_state Recommend_main.demo_state /\ no_ties Recommend_main.demo_state /\
  argpartition_contract Z.leb Recommend_main.argpart_tail_reversed /\
  Recommend_model.recommend Recommend_main.argpart_tail_reversed Recommend_main.demo_state [100; 300] 1 true false = Ok [[22]; [33]] /\
  Recommend_model.recommend Recommend_main.argpart_tail_reversed Recommend_main.demo_state [100; 300] 3 true false = Ok [[11; 22; 44]; [22; 33; 11]] /\
  hr [[22]; [33]] [11; 33] = Ok (1 / 2)%Q /\ hr [[11; 22; 44]; [22; 33; 11]] [11; 33] = Ok (2 / 2)%Q.
Proof.
  split; [exact Recommend_main.demo_state_wf|]. split; [exact Recommend_main.demo_scores_NoDup|].
  split; [exact Recommend_main.argpart_tail_reversed_contract|]. repeat split; reflexivity.
Qed.

(** C107, the bad side.  With ties a longer list may lose a hit ... *)
Theorem longer_lists_hit_more_refuted :
  exists (argpart : nat -> list Z -> nat -> list nat) st users test k k' rows rows' h h',
    argpartition_contract Z.leb argpart /\ wf_state st /\ (1 <= k <= k')%nat /\
    Recommend_model.recommend argpart st users k true false = Ok rows /\ Recommend_model.recommend argpart st users k' true false = Ok rows' /\
    hr rows test = Ok h /\ hr rows' test = Ok h' /\ (h' < h)%Q.
Proof. exact Topk_wit.ties_refuted. Qed.
Print Assumptions longer_lists_hit_more_refuted.

(** ... and even without ties the MRR of the longer lists may be lower. *)
Theorem longer_lists_rank_refuted :
  exists (argpart : nat -> list Z -> nat -> list nat) st users test k k' rows rows' q q',
    argpartition_contract Z.leb argpart /\ wf_state st /\ no_ties st /\ (1 <= k <= k')%nat /\
    Recommend_model.recommend argpart st users k true false = Ok rows /\ Recommend_model.recommend argpart st users k' true false = Ok rows' /\
    mrr rows test = Ok q /\ mrr rows' test = Ok q' /\ (q' < q)%Q.
Proof. exact Topk_wit.mrr_refuted. Qed.
Print Assumptions longer_lists_rank_refuted.

(** C107.  With a full sort in place of the partition neither happens, ties or not: the shorter
    lists are the beginnings of the longer ones. *)
Theorem sorted_lists_are_beginnings :
  forall {A} (argpart : nat -> list A -> nat -> list nat) st users k k' fv internal rows,
  same_for_all_k argpart -> (k <= k')%nat -> Recommend_model.recommend argpart st users k' fv internal = Ok rows ->
  exists rows0, Recommend_model.recommend argpart st users k fv internal = Ok rows0 /\
    rows0 = map (firstn (Nat.min k (rs_n_items st))) rows /\
    (forall test h h', length test = length rows -> hr rows0 test = Ok h -> hr rows test = Ok h' -> (h <= h')%Q) /\
    (forall test q q', mrr rows0 test = Ok q -> mrr rows test = Ok q' -> (q <= q')%Q).
Proof. exact @Topk_main.sorted_main. Qed.
Print Assumptions sorted_lists_are_beginnings.

Example sorted_lists_case :
  same_for_all_k Recommend_main.argpart_sorted /\ argpartition_contract Z.leb Recommend_main.argpart_sorted /\
  Recommend_model.recommend Recommend_main.argpart_sorted Recommend_main.demo_state [100; 300] 3 true false = Ok [[22; 11; 44]; [33; 22; 11]] /\
  Recommend_model.recommend Recommend_main.argpart_sorted Recommend_main.demo_state [100; 300] 2 true false = Ok [[22; 11]; [33; 22]].
Proof.
  split; [exact Topk_wit.sorted_same|]. split; [exact Recommend_main.argpart_sorted_contract|]. split; reflexivity.
Qed.

(** C107.  In a dynamic experiment the lists change nothing but HR, MRR and stability: with
    another length of the lists the model passes through the same states and the readings of
    the clock, the norms and the changes of the embeddings are the same; HR and MRR of a group
    are those of lists of both lengths from one state. *)
Theorem experiments_with_other_lists :
  forall (S D A X V T : Type) (zero : A) (sub : A -> A -> A) (norm : mat A -> V) (div : V -> V -> V) (minus_one : V) (clock : nat -> T)
    (m m' : api S D A) (grow : D -> list row -> res D) (test_users : list Z) (chunk_mode : bool)
    (view : S -> rec_state X) (argpart : nat -> list X -> nat -> list nat) (k k' : nat),
  only_lists_differ view argpart k k' m m' ->
  forall (hm : Z) (st0 : S) (initial : D) (stream : list (list row)) (dyn dyn' : dynamics T V),
  dynamical_experiment zero sub norm div minus_one clock m grow test_users chunk_mode hm st0 initial stream = Ok dyn ->
  dynamical_experiment zero sub norm div minus_one clock m' grow test_users chunk_mode hm st0 initial stream = Ok dyn' ->
  let n := n_steps hm (length stream) in
  calculation_time dyn = calculation_time dyn' /\ rnd_users dyn = rnd_users dyn' /\ rnd_items dyn = rnd_items dyn' /\
  nd_users dyn = nd_users dyn' /\ nd_items dyn = nd_items dyn' /\
  exists (model : nat -> S) (table : nat -> D), train m st0 initial = Ok (model 0%nat) /\ table 0%nat = initial /\
  forall t c, (t < n)%nat -> nth_error stream t = Some c ->
    updates m grow chunk_mode (model t) (table t) c (model (Datatypes.S t)) (table (Datatypes.S t)) /\ exists rows rows' h h' q q',
    Recommend_model.recommend argpart (view (model t)) (fst (tests m c (model t))) k true false = Ok rows /\
    Recommend_model.recommend argpart (view (model t)) (fst (tests m c (model t))) k' true false = Ok rows' /\
    hr rows (snd (tests m c (model t))) = Ok h /\ hr rows' (snd (tests m c (model t))) = Ok h' /\
    mrr rows (snd (tests m c (model t))) = Ok q /\ mrr rows' (snd (tests m c (model t))) = Ok q' /\
    nth_error (d_hr dyn) t = Some h /\ nth_error (d_hr dyn') t = Some h' /\ nth_error (d_mrr dyn) t = Some q /\ nth_error (d_mrr dyn') t = Some q'.
Proof. exact @Topk_main.experiments_main. Qed.
Print Assumptions experiments_with_other_lists.

(** C107.  With a full sort the HR and the MRR of every group grow with the lists. *)
Theorem experiments_with_sorted_lists :
  forall (S D A X V T : Type) (zero : A) (sub : A -> A -> A) (norm : mat A -> V) (div : V -> V -> V) (minus_one : V) (clock : nat -> T)
    (m m' : api S D A) (grow : D -> list row -> res D) (test_users : list Z) (chunk_mode : bool)
    (view : S -> rec_state X) (argpart : nat -> list X -> nat -> list nat) (k k' : nat),
  only_lists_differ view argpart k k' m m' ->
  forall (hm : Z) (st0 : S) (initial : D) (stream : list (list row)) (dyn dyn' : dynamics T V),
  same_for_all_k argpart -> (k <= k')%nat ->
  dynamical_experiment zero sub norm div minus_one clock m grow test_users chunk_mode hm st0 initial stream = Ok dyn ->
  dynamical_experiment zero sub norm div minus_one clock m' grow test_users chunk_mode hm st0 initial stream = Ok dyn' ->
  Forall2 Qle (d_hr dyn) (d_hr dyn') /\ Forall2 Qle (d_mrr dyn) (d_mrr dyn').
Proof. exact @Topk_main.experiments_sorted. Qed.
Print Assumptions experiments_with_sorted_lists.

(** Every model of the experiment fits; and a PSI experiment with lists of one and of two. *)
Example experiments_lists_case :
  (forall A (zero : A) add mul of_rel svds argpart rank k k',
     only_lists_differ (num_rec zero add mul) argpart k k' (svd_api zero add mul of_rel svds argpart k rank) (svd_api zero add mul of_rel svds argpart k' rank)) /\
  (forall A (zero one : A) add mul sub of_rel qr svd rsvd eps argsort normal svds argpart rank cfg k k',
     only_lists_differ (num_rec zero add mul) argpart k k'
       (psi_api zero one add mul sub of_rel qr svd rsvd eps argsort normal svds argpart k rank cfg)
       (psi_api zero one add mul sub of_rel qr svd rsvd eps argsort normal svds argpart k' rank cfg)) /\
  (forall A N (zero one : A) add mul sub of_val eps is1 cfg L rank a ainv att sb qr rand rsvd tnorm norm0 grew n_iter force rt argpart k k',
     only_lists_differ (nti_rec zero add mul) argpart k k'
       (@seq_api A N zero one add mul sub of_val eps is1 cfg L rank a ainv att sb qr rand rsvd tnorm norm0 grew n_iter force rt argpart k)
       (@seq_api A N zero one add mul sub of_val eps is1 cfg L rank a ainv att sb qr rand rsvd tnorm norm0 grew n_iter force rt argpart k')) /\
  (forall A N (zero : A) add mul of_val L rank a ainv qr rand rsvd tnorm norm0 grew n_iter force argpart k k',
     only_lists_differ (nti_rec zero add mul) argpart k k'
       (@td_api A N zero add mul of_val L rank a ainv qr rand rsvd tnorm norm0 grew n_iter force argpart k)
       (@td_api A N zero add mul of_val L rank a ainv qr rand rsvd tnorm norm0 grew n_iter force argpart k') /\
     only_lists_differ (nti_rec zero add mul) argpart k k'
       (@re_api A N zero add mul of_val L rank a ainv qr rand rsvd tnorm norm0 grew n_iter force argpart k)
       (@re_api A N zero add mul of_val L rank a ainv qr rand rsvd tnorm norm0 grew n_iter force argpart k')) /\
  same_for_all_k Full_wit.f_argpart /\
  (exists dyn, Full_wit.f_run 1 Full_wit.f_data [Full_wit.f_c1; Full_wit.f_c2] = Ok dyn /\
     d_hr dyn = [Full_wit.q0; Full_wit.q0] /\ d_mrr dyn = [Full_wit.q0; Full_wit.q0] /\ d_wji dyn = [Qmake 1 1]) /\
  (exists dyn, Full_wit.f_run 2 Full_wit.f_data [Full_wit.f_c1; Full_wit.f_c2] = Ok dyn /\
     d_hr dyn = [Full_wit.q0; Full_wit.q1] /\ d_mrr dyn = [Full_wit.q0; Full_wit.qhalf] /\ d_wji dyn = [Qmake 6 6]).
Proof.
  split; [exact Topk_nwit.svd_lists_differ|]. split; [exact Topk_nwit.psi_lists_differ|]. split; [exact Topk_nwit.seq_lists_differ|].
  split; [intros; split; [apply Topk_nwit.td_lists_differ|apply Topk_nwit.re_lists_differ]|].
  split; [exact Topk_nwit.f_same|]. split; [exact Topk_nwit.f_one|exact Full_wit.f_result].
Qed.
