(** Property C96: sequential models without approximation error. *)
From Coq Require Import ZArith QArith.
From Coq Require List.
From Verif Require Import Prelude DataPrep_model DataPrep_spec History_model History_spec Recommend_model Recommend_spec Eval_model Psi_model Tirec_model Tirec_spec
  Tensor_model Matrix_model Attention_model Attention_spec LinAlg_model Tucker_model Hooi_model Upd_model Nti_model Full_spec Seqx_spec Seqx_model.
Set Warnings "-notation-overridden".
From mathcomp Require Import all_ssreflect all_algebra.
From Verif Require Import LinAlg_spec LinAlg_tables Tucker_spec Hooi_spec Upd_spec Exact_spec Nti_spec Sblind_spec.
From Verif Require Sblind_main Sblind_wit Nti_wit Hooi_wit.
Set Implicit Arguments.
Unset Strict Implicit.
Unset Printing Implicit Defensive.
Import Order.TTheory GRing.Theory Num.Theory.
Local Open Scope ring_scope.

(** C96.  TDRec, TIRec and TIRecA after training and any updates, with or without attention: if
    the tensor of the model is the data, its places weighted by an invertible matrix, then a
    user's score of every item outside their last [L] is 0, any [k] unseen items are possible
    recommendations and any of the tested users may be hits. *)
Theorem exact_sequential_recommends_anything :
  forall (R : realFieldType) (of_val : Z -> R) (exceeds_eps is_one : R -> bool), (forall y, is_one y = true -> y = 1) ->
  forall cfg L r0 r1 r2 (a ainv : mat R) att, Peano.le 2 L -> att_shape L att -> shape L L a -> shape L L ainv ->
  forall s keep, crops L s keep ->
  forall (qr : mat R -> res (mat R * mat R)) rand (rsvd : nat -> mat R -> nat -> res (mat R * list R * mat R))
    (N : Type) (norm : ten R -> N) norm0 grew n_iter force table data,
  qr_ok qr -> (forall m, randn_ok (rand m)) -> inner_ok rsvd ->
  (0 < r0)%N -> (0 < r1)%N -> (0 < r2)%N -> (0 < n_iter)%N ->
  get_df_with_cropped_pos_column table L s = Ok data -> Peano.le 2 (length (catalogue (keep table))) ->
  forall rt chunks x, (forall t md, rt_ok (rt t md)) ->
  (do x0 <- nti_train 0 +%R *%R of_val qr rand rsvd norm norm0 grew L (r0, r1, r2) a ainv n_iter force data nil;
   nti_stream 0 1 +%R *%R (fun y z => y - z) of_val exceeds_eps is_one cfg L a ainv att rt s x0 chunks) = Ok x ->
  forall (X : cell -> R) (M : 'M[R]_L), reproduces x X M ->
  let P := List.app (keep table) (List.concat (List.map keep chunks)) in
  [/\ (forall u i, List.In u (List.map r_user P) -> List.In i (List.map r_item P) -> ~ List.In i (recent L P u) ->
         score_of (nti_rec 0 +%R *%R x) u i = Some 0),
      (forall k users rows, Peano.le 1 k ->
         (exists ap, argpartition_contract (fun y z : R => y <= z) ap /\ nti_recommend 0 +%R *%R ap k x users false = Ok rows) <->
         List.Forall2 (fun u row => List.In u (List.map r_user P) /\ offer k P u row) users rows)
    & (forall k users test want, Peano.le 1 k -> users <> nil ->
         List.Forall2 (fun u t => List.In u (List.map r_user P) /\ List.In t (unseen P u) /\ Peano.lt k (length (unseen P u))) users test ->
         length want = length users ->
         exists ap rows h, [/\ argpartition_contract (fun y z : R => y <= z) ap, nti_recommend 0 +%R *%R ap k x users false = Ok rows, hr rows test = Ok h,
           List.Forall2 (fun rt b => List.In rt.2 rt.1 <-> b = true) (List.combine rows test) want
           & Qeq h (Qdiv (inject_Z (Z.of_nat (length (List.filter id want)))) (inject_Z (Z.of_nat (length users))))])].
Proof. exact: Sblind_main.anything. Qed.
Print Assumptions exact_sequential_recommends_anything.

(** C96.  It is enough that the tensor is the position tensor of the histories with its places
    weighted, for example by an invertible attention matrix. *)
Theorem weighted_histories_reproduce :
  forall (R : realFieldType) (of_val : Z -> R), of_val Z0 = 0 -> of_val (Zpos xH) != 0 ->
  forall L (x : @nti_state R) st, ti_wf L st -> follows x st ->
  forall M : 'M[R]_L, M \in unitmx ->
  (forall u i (q : 'I_L), (u < n_rows x 0)%N -> (i < n_rows x 1)%N ->
     value L x (u, i, q : nat) = \sum_(p < L) history_value of_val (nt_seq x) (u, i, p : nat) * M p q) ->
  reproduces x (history_value of_val (nt_seq x)) M.
Proof. exact: Sblind_main.history_reproduces. Qed.
Print Assumptions weighted_histories_reproduce.

(** C96.  TIRec, and TIRecA with integrator processing, without attention: if training leaves
    no error and no update loses anything. *)
Theorem lossless_sequential_recommends_anything :
  forall (R : realFieldType) (of_val : Z -> R), of_val Z0 = 0 -> (forall y z, of_val (Z.add y z) = of_val y + of_val z) -> of_val (Zpos xH) != 0 ->
  forall (exceeds_eps is_one : R -> bool), (forall y, is_one y = true -> y = 1) ->
  forall cfg L r0 r1 r2 (a ainv : mat R), nc_variant cfg <> VTIRecA -> Peano.le 2 L -> shape L L a -> shape L L ainv ->
  forall s keep, crops L s keep ->
  forall (qr : mat R -> res (mat R * mat R)) rand (rsvd : nat -> mat R -> nat -> res (mat R * list R * mat R))
    (N : Type) (norm : ten R -> N) norm0 grew n_iter force table data,
  qr_ok qr -> (forall m, randn_ok (rand m)) -> inner_ok rsvd ->
  (0 < r0)%N -> (0 < r1)%N -> (0 < r2)%N -> (0 < n_iter)%N ->
  get_df_with_cropped_pos_column table L s = Ok data -> Peano.le 2 (length (catalogue (keep table))) ->
  forall rt chunks x0 x st0, (forall t md, rt_ok (rt t md)) -> (forall t md, rt_lossless (rt t md)) ->
  nti_train 0 +%R *%R of_val qr rand rsvd norm norm0 grew L (r0, r1, r2) a ainv n_iter force data nil = Ok x0 ->
  (forall c, inside (n_rows x0 0) (n_rows x0 1) L c -> value L x0 c = history_value of_val (nt_seq x0) c) ->
  tdrec_train L (Z.of_nat r0, Z.of_nat r1, Z.of_nat r2) data nil = Ok st0 ->
  lossless_stream of_val exceeds_eps is_one cfg r0 r1 r2 L a ainv rt s x0 st0 chunks ->
  nti_stream 0 1 +%R *%R (fun y z => y - z) of_val exceeds_eps is_one cfg L a ainv None rt s x0 chunks = Ok x ->
  let P := List.app (keep table) (List.concat (List.map keep chunks)) in
  [/\ (forall u i, List.In u (List.map r_user P) -> List.In i (List.map r_item P) -> ~ List.In i (recent L P u) ->
         score_of (nti_rec 0 +%R *%R x) u i = Some 0),
      (forall k users rows, Peano.le 1 k ->
         (exists ap, argpartition_contract (fun y z : R => y <= z) ap /\ nti_recommend 0 +%R *%R ap k x users false = Ok rows) <->
         List.Forall2 (fun u row => List.In u (List.map r_user P) /\ offer k P u row) users rows)
    & (forall k users test want, Peano.le 1 k -> users <> nil ->
         List.Forall2 (fun u t => List.In u (List.map r_user P) /\ List.In t (unseen P u) /\ Peano.lt k (length (unseen P u))) users test ->
         length want = length users ->
         exists ap rows h, [/\ argpartition_contract (fun y z : R => y <= z) ap, nti_recommend 0 +%R *%R ap k x users false = Ok rows, hr rows test = Ok h,
           List.Forall2 (fun rt b => List.In rt.2 rt.1 <-> b = true) (List.combine rows test) want
           & Qeq h (Qdiv (inject_Z (Z.of_nat (length (List.filter id want)))) (inject_Z (Z.of_nat (length users))))])].
Proof. exact: Sblind_main.lossless_anything. Qed.
Print Assumptions lossless_sequential_recommends_anything.

(** Three users of one item each and rank (3, 3, 1), with an attention matrix: training leaves
    no error; the score of a user's own item is 3/4. *)
Example exact_sequential_example :
  [/\ crops 4 true Sblind_wit.b_keep, Sblind_wit.b_train Sblind_wit.b_att Sblind_wit.b_inv = Ok Sblind_wit.b_xa,
      qr_ok Sblind_wit.b_qr /\ inner_ok Sblind_wit.b_rsvd,
      reproduces Sblind_wit.b_xa (history_value Nti_wit.f_of (nt_seq Sblind_wit.b_xa)) (mx 4 4 Sblind_wit.b_att)
    & score_of (nti_rec 0 +%R *%R Sblind_wit.b_xa) (Z.of_nat 5) (Z.of_nat 10) = Some (frac 3 4)].
Proof.
  split; [exact: Sblind_wit.b_crops|exact: Sblind_wit.b_trained_att| |exact: Sblind_wit.b_att_reproduces|exact: Sblind_wit.b_own_att].
  split; [exact: Sblind_wit.b_qr_ok|exact: Sblind_wit.b_inner].
Qed.

(** The same without attention, and a chunk of three further users of the first item: user 8
    has two unseen items, so every one of their hits is up to chance. *)
Example lossless_sequential_example :
  [/\ Sblind_wit.b_train Nti_wit.f_id Nti_wit.f_id = Ok Sblind_wit.b_x0,
      (forall c, inside (n_rows Sblind_wit.b_x0 0) (n_rows Sblind_wit.b_x0 1) 4 c -> value 4 Sblind_wit.b_x0 c = history_value Nti_wit.f_of (nt_seq Sblind_wit.b_x0) c),
      tdrec_train 4 Sblind_wit.b_rank Sblind_wit.b_data nil = Ok Sblind_wit.b_st0,
      lossless_stream Nti_wit.f_of Nti_wit.f_eps Nti_wit.f_one Nti_wit.f_cfg 3 3 1 4 Nti_wit.f_id Nti_wit.f_id (fun _ => Sblind_wit.b_rt) true
        Sblind_wit.b_x0 Sblind_wit.b_st0 [:: Sblind_wit.b_chunk]
    & [/\ nti_update 0 1 +%R *%R (fun y z => y - z) Nti_wit.f_of Nti_wit.f_eps Nti_wit.f_one Nti_wit.f_cfg 4 Nti_wit.f_id Nti_wit.f_id None
            Sblind_wit.b_rt Sblind_wit.b_x0 Sblind_wit.b_chunk true = Ok Sblind_wit.b_x1,
          (forall md, rt_ok (Sblind_wit.b_rt md) /\ rt_lossless (Sblind_wit.b_rt md)),
          unseen Sblind_wit.b_past (Z.of_nat 8) = [:: Z.of_nat 20; Z.of_nat 30]
        & score_of (nti_rec 0 +%R *%R Sblind_wit.b_x1) (Z.of_nat 8) (Z.of_nat 10) = Some (frac 3 4)]].
Proof.
  split; [exact: Sblind_wit.b_trained|exact: Sblind_wit.b_holds|exact: Sblind_wit.b_st0_trained|exact: Sblind_wit.b_stream_lossless|].
  split; [exact: Sblind_wit.b_updated|exact: Sblind_wit.b_rt_ok|exact: (proj1 Sblind_wit.b_unseen)|exact: Sblind_wit.b_own].
Qed.
