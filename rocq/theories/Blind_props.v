(** Properties C90 and C91: the recommendations possible for one and the same model. *)
From Coq Require Import ZArith QArith.
From Coq Require List.
From Verif Require Import Prelude DataPrep_model DataPrep_spec Recommend_model Recommend_spec Eval_model Eval_spec Psi_model Tensor_model LinAlg_model Num_model Full_spec Full_model Blind_spec.
From Verif Require Recommend_main Blind_rec Blind_main.
Set Warnings "-notation-overridden".
From mathcomp Require Import all_ssreflect all_algebra.
From Verif Require Import LinAlg_spec Upd_spec Exact_spec Num_spec Blind_nspec.
From Verif Require Blind_num Num_wit Blind_wit.
Set Implicit Arguments.
Unset Strict Implicit.
Unset Printing Implicit Defensive.
Import GRing.Theory Num.Theory.

(** C90.  The tables [recommend] can return are exactly those whose rows are a best k of the
    user's candidates with the lowest of them at the end. *)
Theorem recommend_possible_iff :
  forall (A : Type) (leb : A -> A -> bool),
    (forall x y, leb x y = true \/ leb y x = true) ->
    (forall x y z, leb x y = true -> leb y z = true -> leb x z = true) ->
  forall (st : rec_state A) users k fv internal rows,
    wf_state st -> Peano.le 1 k -> Peano.le 1 (rs_n_items st) -> (fv = true -> internal = false -> Peano.le 2 (rs_n_items st)) ->
    (exists argpart, argpartition_contract leb argpart /\ recommend argpart st users k fv internal = Ok rows) <->
    List.Forall2 (fun uid row => exists u, f_of (m_users (rs_mappings st)) uid = Some u
       /\ row_for leb st fv internal (Nat.min k (rs_n_items st)) u row) users rows.
Proof. exact (@Blind_rec.possible_iff). Qed.
Print Assumptions recommend_possible_iff.

(** C90.  The items before the last of a row may come in any order. *)
Theorem recommend_reordered :
  forall (A : Type) (leb : A -> A -> bool),
    (forall x y, leb x y = true \/ leb y x = true) ->
    (forall x y z, leb x y = true -> leb y z = true -> leb x z = true) ->
  forall argpart (st : rec_state A) users k fv internal rows rows', argpartition_contract leb argpart ->
    wf_state st -> Peano.le 1 k -> Peano.le 1 (rs_n_items st) -> (fv = true -> internal = false -> Peano.le 2 (rs_n_items st)) ->
    recommend argpart st users k fv internal = Ok rows -> List.Forall2 same_but_order rows rows' ->
    exists argpart', argpartition_contract leb argpart' /\ recommend argpart' st users k fv internal = Ok rows'.
Proof. exact (@Blind_main.reordered). Qed.
Print Assumptions recommend_reordered.

(** C90.  With pairwise different scores the MRR a model can be given lies between two means,
    and both are attained: a tested item that is in the list, but not last, counts between
    1/(k-1) and 1. *)
Theorem recommend_mrr_range :
  forall (A : Type) (leb : A -> A -> bool),
    (forall x y, leb x y = true \/ leb y x = true) ->
    (forall x y z, leb x y = true -> leb y z = true -> leb x z = true) ->
    (forall x y, leb x y = true -> leb y x = true -> x = y) ->
  forall st : rec_state A, wf_state st -> (forall u s, rs_scores st u = Ok s -> List.NoDup s) ->
    (forall j j' x, g_of (m_items (rs_mappings st)) j = Some x -> g_of (m_items (rs_mappings st)) j' = Some x -> j = j') ->
  forall users k fv internal, Peano.le 1 k -> Peano.le 1 (rs_n_items st) -> (fv = true -> internal = false -> Peano.le 2 (rs_n_items st)) ->
  forall argpart rows test, argpartition_contract leb argpart -> recommend argpart st users k fv internal = Ok rows ->
    length test = length users -> users <> nil ->
    (forall ap rows' m, argpartition_contract leb ap -> recommend ap st users k fv internal = Ok rows' -> mrr rows' test = Ok m ->
       Qle (mean_of rr_low rows test) m /\ Qle m (mean_of rr_high rows test)) /\
    (exists ap rows' m, argpartition_contract leb ap /\ recommend ap st users k fv internal = Ok rows' /\ mrr rows' test = Ok m /\
       Qeq m (mean_of rr_low rows test)) /\
    (exists ap rows' m, argpartition_contract leb ap /\ recommend ap st users k fv internal = Ok rows' /\ mrr rows' test = Ok m /\
       Qeq m (mean_of rr_high rows test)).
Proof. exact (@Blind_main.mrr_range). Qed.
Print Assumptions recommend_mrr_range.

(** Three of the four items, item 33 tested: second or first of the list, 1/2 or 1. *)
Example recommend_mrr_range_example :
  wf_state Recommend_main.demo_state /\ argpartition_contract Z.leb Recommend_main.argpart_sorted
  /\ recommend Recommend_main.argpart_sorted Recommend_main.demo_state [:: Zpos 300] 3 true false = Ok [:: [:: Zpos 33; Zpos 22; Zpos 11]]
  /\ Qeq (mean_of rr_low [:: [:: Zpos 33; Zpos 22; Zpos 11]] [:: Zpos 33]) (Qmake (Zpos 1) 2)
  /\ Qeq (mean_of rr_high [:: [:: Zpos 33; Zpos 22; Zpos 11]] [:: Zpos 33]) (Qmake (Zpos 1) 1)
  /\ Qeq (mean_of rr_low [:: [:: Zpos 33; Zpos 22; Zpos 11]] [:: Zpos 11]) (Qmake (Zpos 1) 3).
Proof. do 2 (split; [exact: Recommend_main.demo_state_wf || exact: Recommend_main.argpart_sorted_contract|]). do 3 (split; [reflexivity|]). reflexivity. Qed.

(** C91.  A model whose rank holds all interactions, after training and every update, gives
    a known user and item the total relevance of their interactions, so 0 to every unseen
    item: any [k] unseen items are possible recommendations, and any of the tested users may
    be hits, whatever the data. *)
Theorem lossless_psi_recommends_anything :
  forall (R : realFieldType) (of_rel : Z -> R) (svds : mat R -> nat -> res (mat R * list R * mat R))
         (qr : mat R -> res (mat R * mat R)) (svd : mat R -> res (mat R * list R * mat R))
         (rsvd : mat R -> nat -> res (mat R * list R * mat R)) (exceeds_eps : R -> bool)
         (argsort : list R -> list nat) (normal : nat -> nat -> mat R),
  qr_ok qr -> svd_ok svd -> nonneg_svd svd -> truncated_ok rsvd -> lossless rsvd ->
  argsort_ok (fun x y => x <= y)%R argsort -> randn_ok normal ->
  forall cfg rank data chunks x,
  svds_mat_ok svds -> nonneg_svd (fun y => svds y (Z.to_nat rank)) -> lossless svds ->
  num_train 0%R +%R of_rel svds rank data = Ok x ->
  (\rank (fmx (users_of (nm_book x)) (items_of (nm_book x)) (total of_rel (nm_book x) data)) <= Z.to_nat rank)%N ->
  lossless_stream of_rel cfg (Z.to_nat rank) (num_update 0%R 1%R +%R *%R (fun x y => x - y)%R of_rel qr svd rsvd exceeds_eps argsort normal cfg) x chunks ->
  exists x', [/\ num_stream 0%R 1%R +%R *%R (fun x y => x - y)%R of_rel qr svd rsvd exceeds_eps argsort normal cfg x chunks = Ok x',
    (forall u i, List.In u (List.map r_user (data ++ List.concat chunks)) -> List.In i (List.map r_item (data ++ List.concat chunks)) ->
       score_of (num_rec 0%R +%R *%R x') u i = Some (given of_rel (data ++ List.concat chunks) u i)),
    (forall k users rows, Peano.le 1 k ->
       (exists ap, argpartition_contract (fun x y => x <= y)%R ap /\ svd_recommend 0%R +%R *%R ap k x' users false = Ok rows) <->
       List.Forall2 (fun u row => List.In u (List.map r_user (data ++ List.concat chunks)) /\ offer k (data ++ List.concat chunks) u row) users rows)
    & (forall k users test want, Peano.le 1 k -> users <> nil ->
       List.Forall2 (fun u t => List.In u (List.map r_user (data ++ List.concat chunks)) /\ List.In t (unseen (data ++ List.concat chunks) u)
                                /\ Peano.lt k (length (unseen (data ++ List.concat chunks) u))) users test ->
       length want = length users ->
       exists ap rows h, [/\ argpartition_contract (fun x y => x <= y)%R ap, svd_recommend 0%R +%R *%R ap k x' users false = Ok rows, hr rows test = Ok h,
         List.Forall2 (fun rt b => List.In rt.2 rt.1 <-> b = true) (List.combine rows test) want
         & Qeq h (Qdiv (inject_Z (Z.of_nat (length (List.filter id want)))) (inject_Z (Z.of_nat (length users))))])].
Proof. exact: Blind_num.stream_blind. Qed.
Print Assumptions lossless_psi_recommends_anything.

(** C91.  The same for SVD training alone, hence for SVD retrained on all rows so far. *)
Theorem lossless_svd_recommends_anything :
  forall (R : realFieldType) (of_rel : Z -> R) (svds : mat R -> nat -> res (mat R * list R * mat R)) rank data x,
  svds_mat_ok svds -> lossless svds ->
  num_train 0%R +%R of_rel svds rank data = Ok x ->
  (\rank (fmx (users_of (nm_book x)) (items_of (nm_book x)) (total of_rel (nm_book x) data)) <= Z.to_nat rank)%N ->
  (forall u i, List.In u (List.map r_user data) -> List.In i (List.map r_item data) ->
     score_of (num_rec 0%R +%R *%R x) u i = Some (given of_rel data u i)) /\
  (forall k users rows, Peano.le 1 k ->
     (exists ap, argpartition_contract (fun x y => x <= y)%R ap /\ svd_recommend 0%R +%R *%R ap k x users false = Ok rows) <->
     List.Forall2 (fun u row => List.In u (List.map r_user data) /\ offer k data u row) users rows).
Proof. exact: Blind_num.train_blind. Qed.
Print Assumptions lossless_svd_recommends_anything.

(** Rank two, one chunk of known users and items; user 20 has three unseen items. *)
Example lossless_recommends_example :
  Num_wit.w_train (Zpos 2) Num_wit.e3_data = Ok Num_wit.e3_x0
  /\ (\rank (fmx (users_of (nm_book Num_wit.e3_x0)) (items_of (nm_book Num_wit.e3_x0)) (total Num_wit.o_rel (nm_book Num_wit.e3_x0) Num_wit.e3_data)) <= 2)%N
  /\ lossless_stream Num_wit.o_rel Num_wit.plain 2 (Num_wit.w_update Num_wit.plain) Num_wit.e3_x0 [:: Num_wit.e3_c1]
  /\ unseen Blind_wit.e3_rows (Z.of_nat 20) = [:: Z.of_nat 50; Z.of_nat 60; Z.of_nat 30].
Proof. exact (conj Num_wit.e3_r0 (conj Blind_wit.e3_loss0 (conj Blind_wit.e3_stream Blind_wit.e3_unseen))). Qed.
