(** Property theorems for a training run of the hyper-parameter search (ga_satf with the
    exit callback): C48. *)
From Coq Require Import QArith.
From Verif Require Import Prelude Tensor_model Tensor_spec Matrix_model Attention_model LinAlg_model Hooi_model
  Search_model Search_spec Training_model.
Set Warnings "-notation-overridden".
From mathcomp Require Import all_ssreflect all_algebra.
From Verif Require Import LinAlg_spec LinAlg_tables Tucker_spec Hooi_spec.
From Verif Require Search_bridge Hooi_wit.
Set Implicit Arguments.
Unset Strict Implicit.
Unset Printing Implicit Defensive.
Local Close Scope Z_scope.
Local Close Scope Q_scope.
Local Open Scope nat_scope.

(** C48.  A training run with the exit callback performs [k] sweeps and scores each of
    them; either it performs all of them and never had to give up, or it ends with the
    first sweep at which [p] earlier scores in a row and its own were no improvement.  The
    factors left in the model are those of the last sweep. *)
Theorem training_stops_early :
  forall (R : comRingType) (qr : mat R -> res (mat R * mat R)) rand
    (rsvd : nat -> mat R -> nat -> res (mat R * list R * mat R)),
  qr_ok qr -> (forall m, randn_ok (rand m)) -> inner_ok rsvd ->
  forall (N : Type) (norm : ten R -> N) norm0 grew n0 r0 n1 r1 n2 r2 inds vals att n_iter score p fs core st,
  hooi_args n0 r0 n1 r1 n2 r2 inds vals -> shape n2 n2 att ->
  ga_satf (0 : R)%R +%R *%R qr rand rsvd norm norm0 grew inds vals (n0, n1, n2) (r0, r1, r2) att n_iter
    (Some (exit_callback score (Z.of_nat p))) None false cb_init = Ok (fs, core, st) ->
  exists k F G scores,
    [/\ start qr rand n0 r0 n1 r1 n2 r2 None (F 0%N),
        forall t, (t < k)%N -> sweep n0 r0 n1 r1 r2 (dense (List.combine inds vals)) (mx n2 n2 att) rsvd t (F t) (F t.+1) (G t.+1),
        length scores = k /\ (forall t, (t < k)%N -> exists2 s, List.nth_error scores t = Some s & score (F t.+1) (G t.+1) = Ok s),
        fs = F k /\ core = (if k is 0 then None else Some (G k))
      & (k = n_iter /\ (forall i, ~ gives_up p scores i) /\ metric_list st = scores) \/
        ((0 < k <= n_iter)%N /\ gives_up p scores (k - 1) /\ (forall i, (i < k - 1)%N -> ~ gives_up p scores i) /\
         metric_list st = List.firstn (k - 1) scores)].
Proof. exact: Search_bridge.early_stopping_main. Qed.
Print Assumptions training_stops_early.

(** C48.  So the factors of an early stopped run are not the best ones: a run whose
    returned factors score less than the maximum it recorded. *)
Theorem training_keeps_best_refuted :
  exists score fs core st s,
    [/\ ga_satf (0 : rat)%R +%R *%R Hooi_wit.h_qr Hooi_wit.h_rand Hooi_wit.h_rsvd Hooi_wit.h_norm 0%R Hooi_wit.h_grew
          Hooi_wit.h_inds Hooi_wit.h_vals (2, 2, 2) (1, 1, 1) Hooi_wit.h_att 3
          (Some (exit_callback score Z0)) None false cb_init = Ok (fs, Some core, st),
        score fs core = Ok s & Qlt s (max_metric st)].
Proof. exact: Search_bridge.training_witness. Qed.
Print Assumptions training_keeps_best_refuted.

(** The contracts and arguments of this run meet the hypotheses above. *)
Example training_demo :
  [/\ qr_ok Hooi_wit.h_qr, forall m, randn_ok (Hooi_wit.h_rand m), inner_ok Hooi_wit.h_rsvd
    & hooi_args 2 1 2 1 2 1 Hooi_wit.h_inds Hooi_wit.h_vals].
Proof. split; [exact: Hooi_wit.h_qr_ok|exact: Hooi_wit.h_rand_ok|exact: (proj1 Hooi_wit.h_inner)|exact: Hooi_wit.h_args]. Qed.
