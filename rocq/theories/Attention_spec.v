(** Specification vocabulary for the attention matrix and sequential scores. *)
From Coq Require Import ZArith List Bool Lia Reals.
From Verif Require Import Prelude DataPrep_model History_model Tensor_model Tensor_spec.
Import ListNotations.
Open Scope nat_scope.

(** The decay profile of the code: 1 / i**f. *)
Definition power_decay (f : R) (i : nat) : R := (1 / Rpower (INR i) f)%R.

Section Spec.
  Context {A : Type} (zero one : A) (add mul : A -> A -> A).

  (** [b] is the n x n matrix with a . b = identity. *)
  Definition right_inverse (n : nat) (a b : mat A) : Prop :=
    mr b = n /\ mc b = n /\
    forall i j, i < n -> j < n ->
      sumn zero add n (fun k => mul (mget zero a i k) (mget zero b k j)) = if i =? j then one else zero.

  (** Inner product of two functions on 0 .. n-1. *)
  Definition inner (n : nat) (f g : nat -> A) : A := sumn zero add n (fun k => mul (f k) (g k)).

  (** Row [i] of a . w. *)
  Definition attended (a w : mat A) (i k : nat) : A :=
    sumn zero add (mc a) (fun t => mul (mget zero a i t) (mget zero w t k)).
End Spec.

(** The items of a history that are not padding, latest first. *)
Definition latest_first (d : deque) : list Z :=
  rev (filter (fun x => negb (x =? PAD_VALUE)%Z) (dq_items d)).
