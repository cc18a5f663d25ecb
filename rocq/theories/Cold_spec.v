(** Specification vocabulary for newcomers under integrator processing. *)
From Coq Require Import ZArith.
From Verif Require Import Prelude DataPrep_model DataPrep_spec History_model History_spec Psi_model Tirec_model Tirec_spec
  Tensor_model Tensor_spec Matrix_model Attention_model LinAlg_model Tucker_model Hooi_model Upd_model Nti_model.
Set Warnings "-notation-overridden".
From mathcomp Require Import all_ssreflect all_algebra.
From Verif Require Import LinAlg_spec Tucker_spec Hooi_spec Upd_spec Exact_spec Nti_spec.
Set Implicit Arguments.
Unset Strict Implicit.
Unset Printing Implicit Defensive.
Import GRing.Theory.
Local Open Scope ring_scope.

Section Cold.
Variable R : realFieldType.

(** User [i] of the history [q] has item [j] in some position. *)
Definition has_item (q : seq_history) (i j : nat) : Prop := exists k, hist_cell (Z.of_nat i, Z.of_nat j, Z.of_nat k) (hist_lists q) <> Z0.

(** Between [x] and its update [x']: a new user without known items; a new item that no other
    user has. *)
Definition cold_user (x x' : @nti_state R) (i : nat) : Prop :=
  (n_rows x 0 <= i)%N /\ forall j, has_item (nt_seq x') i j -> (n_rows x 1 <= j)%N.
Definition cold_item (x x' : @nti_state R) (j : nat) : Prop :=
  (n_rows x 1 <= j)%N /\ forall i, has_item (nt_seq x') i j -> cold_user x x' i.

(** The old tensor and the new data, with the attention applied once for the users and twice
    for the items, see the old tensor with the ranks of the model; for the items through the
    new user factor. *)
Definition sees_users (of_val : Z -> R) (r0 L : nat) (att : option (mat R)) (x x' : @nti_state R) : Prop :=
  let n0 := n_rows x' 0 in let n1 := n_rows x' 1 in
  let change c := history_value of_val (nt_seq x') c - history_value of_val (nt_seq x) c in
  let old := unf 0 1 n0 n1 L (value L x) in
  \rank ((old + unf 0 1 n0 n1 L change *m krn 1%:M (attm L att)) *m old^T) = r0.
Definition sees_items (of_val : Z -> R) (r0 r1 L : nat) (att : option (mat R)) (x x' : @nti_state R) : Prop :=
  let n0 := n_rows x' 0 in let n1 := n_rows x' 1 in
  let change c := history_value of_val (nt_seq x') c - history_value of_val (nt_seq x) c in
  let old := unf 1 0 n1 n0 L (value L x) in
  \rank ((old + unf 1 0 n1 n0 L change *m krn 1%:M (attm L att *m attm L att))
         *m krn (proj n0 r0 (factor (nt_fs x') 0)) 1%:M *m old^T) = r1.
End Cold.
