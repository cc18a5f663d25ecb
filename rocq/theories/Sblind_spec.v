(** Vocabulary for sequential models without approximation error. *)
From Coq Require Import ZArith.
From Verif Require Import Prelude DataPrep_model History_model History_spec Attention_spec
  Tensor_model Tensor_spec Matrix_model Attention_model LinAlg_model Hooi_model Nti_model.
Set Warnings "-notation-overridden".
From mathcomp Require Import all_ssreflect all_algebra.
From Verif Require Import LinAlg_spec Tucker_spec Nti_spec.
Set Implicit Arguments.
Unset Strict Implicit.
Unset Printing Implicit Defensive.
Local Open Scope ring_scope.

Section Spec.
Variable R : realFieldType.

(** At most one item at a place of a user. *)
Definition one_item (X : cell -> R) : Prop :=
  forall u i j p, X (u, i, p) != 0 -> X (u, j, p) != 0 -> i = j.

(** The model's tensor is [X], with at most one item at each place, its places weighted by an
    invertible matrix; every item among somebody's last [L] has a place in [X]. *)
Definition reproduces (L : nat) (x : @nti_state R) (X : cell -> R) (M : 'M[R]_L) : Prop :=
  [/\ M \in unitmx, one_item X,
      (forall u i (q : 'I_L), (u < n_rows x 0)%N -> (i < n_rows x 1)%N -> value L x (u, i, q : nat) = \sum_(p < L) X (u, i, p : nat) * M p q)
    & forall u d j, dget u (nt_seq x) = Some d -> List.In j (dq_items d) -> j <> PAD_VALUE ->
        exists u' (p : 'I_L), (u' < n_rows x 0)%N /\ X (u', Z.to_nat j, p : nat) != 0].
End Spec.
