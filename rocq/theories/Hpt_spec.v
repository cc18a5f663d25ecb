(** Vocabulary for the search for the parameters of TDRec. *)
From Coq Require Import ZArith QArith.
From Coq Require List.
From Verif Require Import Prelude DataPrep_model DataPrep_spec History_model History_spec Recommend_model Psi_model Psi_spec Search_spec Search_model Tensor_model Tensor_spec Matrix_model Attention_model LinAlg_model Hooi_model
  Nti_model Seqx_spec Seqx_model Full_spec Hps_spec Tables_model.
Set Warnings "-notation-overridden".
From mathcomp Require Import all_ssreflect all_algebra.
From Verif Require Import LinAlg_spec Tucker_spec Hooi_spec.
Set Implicit Arguments.
Unset Strict Implicit.
Unset Printing Implicit Defensive.
Import GRing.Theory Num.Theory.
Local Close Scope Z_scope.
Local Close Scope Q_scope.
Local Open Scope ring_scope.

(** The day of a row of the cropped table. *)
Definition day_of (x : prow) : Z := round_day (r_ts (p_row x)).

(** A run of at most [n] sweeps, with the scores of those it made: it stops after the first
    score to give up (which is not recorded) or after [n] sweeps. *)
Definition stops (n p : nat) (scores kept : list Q) : Prop :=
  (length scores = n /\ (forall i, ~ gives_up p scores i) /\ kept = scores) \/
  (exists m, Peano.lt m n /\ length scores = m.+1 /\ gives_up p scores m /\ (forall i, Peano.lt i m -> ~ gives_up p scores i) /\ kept = List.firstn m scores).

(** [inv] returns a matrix of the shape of its argument. *)
Definition inv_ok {R : Type} (inv : mat R -> res (mat R)) : Prop :=
  forall x y, inv x = Ok y -> mr y = mr x /\ mc y = mc x.

Section Run.
Variable R : realFieldType.
Variable of_val : Z -> R.
Variables (L : nat) (decay : Q -> nat -> R) (inv : mat R -> res (mat R)).
Variables (qr : mat R -> res (mat R * mat R)) (rand : nat -> nat -> nat -> mat R) (rsvd : nat -> mat R -> nat -> res (mat R * list R * mat R)).
Variables (n_iter k : nat).

(** The entries of the tensor of a table. *)
Definition tensor_of (td : train_data) : cell -> R :=
  dense (List.combine (List.map (fun c => (Z.to_nat (t_user c), Z.to_nat (t_item c), Z.to_nat (t_pos c))) (td_inds td)) (List.map of_val (td_vals td))).

(** The run of one configuration: sweeps from the random start over the tensor of the training
    rows; after each sweep the model with its factors is tried on the validation rows. *)
Definition tried (cfg : Tensor_model.coord * Q) (train : list prow) (valid : list DataPrep_model.row) (kept : list Q) : Prop :=
  let: ((r0, r1, r2), f) := cfg in
  let P := List.map p_row train in
  let n0 := ndistinct (List.map r_user P) in
  let n1 := ndistinct (List.map r_item P) in
  exists (a ainv : mat R) (td : train_data) (F : nat -> @factors R) (model : nat -> @nti_state R) (scores : list Q),
  [/\ get_global_attention 0 (decay f) L = Ok a /\ inv a = Ok ainv,
      tdrec_prepare train nil L = Ok td,
      start qr rand n0 r0 n1 r1 L r2 None (F 0%N),
      (forall t s, List.nth_error scores t = Some s ->
         [/\ sweep n0 r0 n1 r1 r2 (tensor_of td) (mx L L a) rsvd t (F t) (F t.+1) (nt_core (model t)),
             nt_fs (model t) = F t.+1,
             [/\ nt_maps (model t) = td_mappings td, nt_history (model t) = td_history td & nt_seq (model t) = td_seq td],
             position_embeddings 0 +%R *%R a ainv (factor (F t.+1) 2) = Ok (nt_aw (model t), nt_last (model t))
           & hit_report k (best (fun x y : R => x <= y) (nti_rec 0 +%R *%R (model t)) P) P valid s])
    & stops n_iter 3 scores kept].
End Run.

(** The saved rows: for every configuration in turn its recorded scores, numbered from 1. *)
Definition rows_of_config (cfg : Tensor_model.coord * Q) (kept : list Q) : list trial :=
  let: ((r0, r1, r2), f) := cfg in
  List.map (fun j => mkTrial (Z.of_nat r0, Z.of_nat r1, Z.of_nat r2) f (Z.of_nat j.+1) (List.nth j kept (Qmake Z0 1))) (List.seq 0 (length kept)).

(** The earlier part of the initial rows has two items or more. *)
Definition two_items (L : nat) (q : Q) (rows : list DataPrep_model.row) : Prop :=
  forall d train valid, get_df_with_cropped_pos_column rows L true = Ok d -> parted day_of q d train valid -> Z.le 2 (n_items_in (List.map p_row train)).

(** The ranks of a configuration are positive; they fit the table. *)
Definition positive (cfg : Tensor_model.coord * Q) : Prop := let: ((r0, r1, r2), _) := cfg in (0 < r0)%N /\ (0 < r1)%N /\ (0 < r2)%N.
Definition fit (L : nat) (cfg : Tensor_model.coord * Q) (P : list DataPrep_model.row) : Prop := let: ((r0, r1, r2), _) := cfg in seq_trainable r0 r1 r2 L P.
