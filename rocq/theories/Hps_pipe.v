(** The experiment with the rank found by the search. *)
From Coq Require Import ZArith QArith Permutation.
From Coq Require List.
From Verif Require Import Prelude DataPrep_model DataPrep_spec Recommend_model Recommend_spec Psi_model Psi_spec Tables_model Stream_model Stream_spec Search_model Search_spec
  Tensor_model Matrix_model Attention_model LinAlg_model Num_model Dynamic_model Dynamic_spec Full_spec Full_model Pipe_model Pipe_spec Hps_model Hps_spec.
From Verif Require Stream_main Pipe_num Hps_svd.
Set Warnings "-notation-overridden".
From mathcomp Require Import all_ssreflect all_algebra.
From Verif Require Import LinAlg_spec Upd_spec Exact_spec Num_spec.
Set Implicit Arguments.
Unset Strict Implicit.
Unset Printing Implicit Defensive.
Import Order.TTheory GRing.Theory Num.Theory.
Local Open Scope ring_scope.

Section Tuned.
Variable R : realFieldType.
Variable of_rel : Z -> R.
Variable svds : mat R -> nat -> res (mat R * list R * mat R).
Variable argpart : nat -> list R -> nat -> list nat.
Let le (x y : R) : bool := x <= y.
Hypothesis SO : svds_mat_ok svds.
Hypothesis AP : argpartition_contract le argpart.
Variable k : nat.
Hypothesis k1 : Peano.le 1 k.
Variables (sort_days : list trow -> list trow) (sort_counts : list (Z * Z) -> list (Z * Z)) (order : list config -> list config).
Hypotheses (SD : sorts_by tb_day sort_days) (SC : sorts_by snd sort_counts).
Hypothesis Or : forall l, Permutation (order l) l.
Variables (data : list trow) (cut : Z) (q : Q) (ranks : list Z) (table : list (Z * Q)) (ds : dataset) (rank : Z).
Hypothesis found : hyperparameters_search_svd 0 +%R *%R of_rel svds argpart k sort_days order data cut q ranks = Ok table.
Hypothesis other : ds <> OTHER.
Hypothesis chosen : get_optimal_svd_rank ds table = Ok rank.
Variables (V T : Type) (norm : mat R -> V) (div : V -> V -> V) (minus_one : V) (clock : nat -> T) (st0 : @num_state R).
Variables (hm_min : option Z) (how_many : Z).
Hypothesis hm1 : Z.lt 0 how_many.
Notation run m mode := (full_dynamical_experiment 0 (fun x y => x - y) norm div minus_one clock m grow_2d mode entry_2d users_2d sort_days sort_counts data cut hm_min how_many st0).

Lemma rank_trainable : trainable rank (List.map content (given_rows data cut)).
Proof. have [_ H] := Hps_svd.chosen_main SO AP k1 Or found other. by have [_ [Ht _]] := H _ chosen. Qed.

Lemma prepared initial stream left : prepare_data_for_experiment tb_index tb_day sort_days data cut hm_min = Ok (initial, stream, left) -> initial = given_rows data cut.
Proof.
  have [i [s [l [E [Ei _]]]]] := Stream_main.prepare_main tb_index tb_day sort_days data cut hm_min SD. rewrite E => -[<- _ _]. exact: Ei.
Qed.

Section Any.
Variables (m : api (@num_state R) (list irow) R) (mode : bool) (fits : list irow -> list irow -> Prop) (excuse : exn -> Prop).
Hypothesis out : forall test ini stream,
  match dynamical_experiment 0 (fun x y => x - y) norm div minus_one clock m grow_2d test mode how_many st0 ini stream with
  | Ok _ => trainable rank ini /\ feasible k fits (fun c => c) test ini stream (n_steps how_many (length stream))
  | Err e => trainable rank ini /\ feasible k fits (fun c => c) test ini stream (n_steps how_many (length stream)) -> excuse e end.
Lemma tuned : exists stream left, prepare_data_for_experiment tb_index tb_day sort_days data cut hm_min = Ok (given_rows data cut, stream, left) /\
  let rows := List.map content (given_rows data cut) in
  let test := stability_users users_2d sort_counts rows left how_many in
  let chunks := List.map (fun g => List.map content g.2) stream in
  let possible := served k fits (fun c => c) test rows chunks (n_steps how_many (length stream)) in
  match run m mode with Ok _ => possible | Err e => possible -> excuse e end.
Proof.
  have [initial [stream [left [E H]]]] := @Pipe_num.outcome_2d sort_days sort_counts SD SC data cut hm_min how_many hm1 (@num_state R) V T R norm div minus_one clock m st0 mode
    k fits (trainable rank) excuse out.
  have Ei := prepared E. subst initial. exists stream, left. split; first exact: E. cbv zeta in H |- *. have Tr := rank_trainable.
  move: H. case: (run m mode) => [dyn [_ H]|e H P]; first exact: H. exact: H (conj Tr P).
Qed.
End Any.
End Tuned.
