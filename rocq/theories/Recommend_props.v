(** Properties C15-C17: recommendations. *)
From Coq Require Import ZArith QArith List Bool Lia Permutation.
From Verif Require Import Prelude DataPrep_model Recommend_model Recommend_spec Eval_model.
From Verif Require Recommend_main.
Import ListNotations.
Open Scope Z_scope.

(** C15.  Whatever index array [argpartition] returns within its contract. *)
Theorem recommend_returns_top_k :
  forall {A} (leb : A -> A -> bool),
    (forall x y z, leb x y = true -> leb y z = true -> leb x z = true) ->
  forall argpart, argpartition_contract leb argpart ->
  forall st users k fv internal rows,
    wf_state st -> (1 <= k)%nat -> (1 <= rs_n_items st)%nat ->
    (fv = true -> internal = false -> (2 <= rs_n_items st)%nat) ->
    recommend argpart st users k fv internal = Ok rows ->
    Forall2 (fun uid row => exists u scores irow,
        f_of (m_users (rs_mappings st)) uid = Some u
        /\ rs_scores st u = Ok scores
        /\ is_top_k leb st fv u scores (Nat.min k (rs_n_items st)) irow
        /\ (if internal then row = irow else translated st irow row)) users rows.
Proof. exact @Recommend_main.recommend_top_k_main. Qed.
Print Assumptions recommend_returns_top_k.

(** User 100 saw item 33: the best two unseen items are 22 and 11. *)
Example recommend_returns_top_k_example :
  wf_state Recommend_main.demo_state
  /\ argpartition_contract Z.leb Recommend_main.argpart_sorted
  /\ recommend Recommend_main.argpart_sorted Recommend_main.demo_state [100; 300] 2 true false
     = Ok [[22; 11]; [33; 22]].
Proof.
  split; [exact Recommend_main.demo_state_wf|].
  split; [exact Recommend_main.argpart_sorted_contract|reflexivity].
Qed.

(** C16 *)
Theorem recommend_fails_iff :
  forall {A} (leb : A -> A -> bool),
    (forall x y z, leb x y = true -> leb y z = true -> leb x z = true) ->
  forall argpart, argpartition_contract leb argpart ->
  forall st users k fv internal,
    wf_state st -> (1 <= k)%nat -> (2 <= rs_n_items st)%nat ->
    let K := Nat.min k (rs_n_items st) in
    ((exists rows, recommend argpart st users k fv internal = Ok rows)
     <-> forall uid, In uid users -> exists u, f_of (m_users (rs_mappings st)) uid = Some u
           /\ (fv = true -> (K <= n_unseen (rs_history st) (rs_n_items st) u)%nat))
    /\ (recommend argpart st users k fv internal = Err KeyError
        <-> exists uid, In uid users /\ f_of (m_users (rs_mappings st)) uid = None)
    /\ (forall e, recommend argpart st users k fv internal = Err e -> e = KeyError \/ e = ValueError).
Proof. exact @Recommend_main.recommend_outcome_main. Qed.
Print Assumptions recommend_fails_iff.

(** User 200 has a single unseen item: asking for two fails, and one such user
    makes the request of everybody else fail as well. *)
Example recommend_fails_example :
  n_unseen (rs_history Recommend_main.demo_state) 4 1 = 1%nat
  /\ recommend Recommend_main.argpart_sorted Recommend_main.demo_state [100; 200] 2 true false
     = Err ValueError
  /\ recommend Recommend_main.argpart_sorted Recommend_main.demo_state [100; 200] 2 false false
     = Ok [[33; 22]; [11; 22]]
  /\ recommend Recommend_main.argpart_sorted Recommend_main.demo_state [100; 400] 2 false false
     = Err KeyError.
Proof. repeat split; reflexivity. Qed.

(** Catalogue of one item: filtered external recommendations never succeed. *)
Theorem recommend_single_item_never :
  forall {A} (argpart : nat -> list A -> nat -> list nat) st users k,
    wf_state st -> (1 <= k)%nat -> rs_n_items st = 1%nat -> users <> [] ->
    (forall uid, In uid users -> exists u, f_of (m_users (rs_mappings st)) uid = Some u) ->
    forall rows, recommend argpart st users k true false <> Ok rows.
Proof. exact @Recommend_main.recommend_single_item_main. Qed.
Print Assumptions recommend_single_item_never.

(** C17 *)
Theorem recommend_last_is_lowest :
  forall {A} (leb : A -> A -> bool),
    (forall x y z, leb x y = true -> leb y z = true -> leb x z = true) ->
  forall argpart, argpartition_contract leb argpart ->
  forall st users k fv rows,
    wf_state st -> (1 <= k)%nat -> (1 <= rs_n_items st)%nat ->
    recommend argpart st users k fv true = Ok rows ->
    Forall2 (fun uid row => exists u scores,
        f_of (m_users (rs_mappings st)) uid = Some u
        /\ rs_scores st u = Ok scores /\ last_is_lowest leb scores row) users rows.
Proof. exact @Recommend_main.recommend_last_lowest_main. Qed.
Print Assumptions recommend_last_is_lowest.

(** The set of recommended items, hence the hit rate, is determined by the scores
    when they are pairwise different. *)
Theorem recommend_items_determined :
  forall {A} (leb : A -> A -> bool),
    (forall x y z, leb x y = true -> leb y z = true -> leb x z = true) ->
    (forall x y, leb x y = true -> leb y x = true -> x = y) ->
  forall ap1 ap2, argpartition_contract leb ap1 -> argpartition_contract leb ap2 ->
  forall st users k fv internal rows1 rows2,
    wf_state st -> (1 <= k)%nat -> (1 <= rs_n_items st)%nat ->
    (fv = true -> internal = false -> (2 <= rs_n_items st)%nat) ->
    (forall u s, rs_scores st u = Ok s -> NoDup s) ->
    recommend ap1 st users k fv internal = Ok rows1 ->
    recommend ap2 st users k fv internal = Ok rows2 ->
    Forall2 (@Permutation Z) rows1 rows2.
Proof. exact @Recommend_main.rows_same_items_main. Qed.
Print Assumptions recommend_items_determined.

Theorem recommend_hr_determined :
  forall {A} (leb : A -> A -> bool),
    (forall x y z, leb x y = true -> leb y z = true -> leb x z = true) ->
    (forall x y, leb x y = true -> leb y x = true -> x = y) ->
  forall ap1 ap2, argpartition_contract leb ap1 -> argpartition_contract leb ap2 ->
  forall st users k fv internal rows1 rows2 test h1 h2,
    wf_state st -> (1 <= k)%nat -> (1 <= rs_n_items st)%nat ->
    (fv = true -> internal = false -> (2 <= rs_n_items st)%nat) ->
    (forall u s, rs_scores st u = Ok s -> NoDup s) ->
    recommend ap1 st users k fv internal = Ok rows1 ->
    recommend ap2 st users k fv internal = Ok rows2 ->
    length test = length users ->
    hr rows1 test = Ok h1 -> hr rows2 test = Ok h2 -> Qeq h1 h2.
Proof. exact @Recommend_main.hr_same_main. Qed.
Print Assumptions recommend_hr_determined.

(** Rows need not start with the best item ... *)
Theorem recommend_sorted_refuted :
  exists (argpart : nat -> list Z -> nat -> list nat) st users k row0 rest scores,
    argpartition_contract Z.leb argpart /\ wf_state st
    /\ rs_scores st 0 = Ok scores
    /\ f_of (m_users (rs_mappings st)) (hd 0 users) = Some 0
    /\ recommend argpart st users k false true = Ok ((row0 :: rest) :: [])
    /\ exists best, In best rest
       /\ Recommend_main.score_at scores (Z.to_nat row0) < Recommend_main.score_at scores (Z.to_nat best).
Proof. exact Recommend_main.rows_not_sorted_main. Qed.
Print Assumptions recommend_sorted_refuted.

(** ... so the MRR is not determined by the model, even without ties. *)
Theorem recommend_mrr_determined_refuted :
  exists (ap1 ap2 : nat -> list Z -> nat -> list nat) st users test k rows1 rows2 m1 m2 h,
    argpartition_contract Z.leb ap1 /\ argpartition_contract Z.leb ap2 /\ wf_state st
    /\ (forall u s, rs_scores st u = Ok s -> NoDup s)
    /\ recommend ap1 st users k true false = Ok rows1
    /\ recommend ap2 st users k true false = Ok rows2
    /\ mrr rows1 test = Ok m1 /\ mrr rows2 test = Ok m2 /\ ~ Qeq m1 m2
    /\ hr rows1 test = Ok h /\ hr rows2 test = Ok h.
Proof. exact Recommend_main.mrr_depends_main. Qed.
Print Assumptions recommend_mrr_determined_refuted.
