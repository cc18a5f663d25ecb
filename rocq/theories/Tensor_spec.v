(** Specification vocabulary for the tensor routines. *)
From Coq Require Import ZArith List Bool Lia Permutation.
From Verif Require Import Prelude Tensor_model.
Import ListNotations.
Open Scope nat_scope.

(** Buffers have the size of the shape. *)
Definition mwf {A} (m : mat A) : Prop := length (mdat m) = mr m * mc m.
Definition twf {A} (t : ten A) : Prop := length (tdat t) = c0 (tshape t) * c1 (tshape t) * c2 (tshape t).

Definition in_range (shape c : coord) : Prop :=
  c0 c < c0 shape /\ c1 c < c1 shape /\ c2 c < c2 shape.

(** Mode [n] of a 3-way tensor and the two other modes in increasing order. *)
Inductive modes : Z -> nat -> nat -> nat -> Prop :=
| mode_0 : modes 0 0 1 2
| mode_1 : modes 1 1 0 2
| mode_2 : modes 2 2 0 1.

(** Finite sums. *)
Definition sum {A} (zero : A) (add : A -> A -> A) (l : list A) : A := fold_right add zero l.
(** Sum over 0 .. n-1. *)
Definition sumn {A} (zero : A) (add : A -> A -> A) (n : nat) (f : nat -> A) : A :=
  sum zero add (map f (seq 0 n)).

Definition coord_eqb (c d : coord) : bool :=
  (c0 c =? c0 d) && (c1 c =? c1 d) && (c2 c =? c2 d).

(** Values of the entries at a cell, in order of the list. *)
Definition values_at {A} (c : coord) (es : list (coord * A)) : list A :=
  map snd (filter (fun e => coord_eqb (fst e) c) es).

(** Value of a sparse matrix at a cell: duplicates add up ([toarray]). *)
Definition coo_cell {A} (zero : A) (add : A -> A -> A) (m : coo (A := A)) (i j : nat) : A :=
  sum zero add (map snd (filter (fun e => (fst (fst e) =? i) && (snd (fst e) =? j)) (coo_entries m))).

(** Number of steps of thread [i] in a schedule. *)
Definition steps_of (i : nat) (schedule : list nat) : nat := length (filter (Nat.eqb i) schedule).

(** The cell with [x] at mode [m0], [y] at mode [m1] and [z] at mode [m2]. *)
Definition place (m0 m1 : nat) (x y z : nat) : coord :=
  let at_ m := if m =? m0 then x else if m =? m1 then y else z in (at_ 0, at_ 1, at_ 2).

(** Number of entries that sparse_tensor_double_tensor processes. *)
Definition processed (cap n : nat) : nat := if n <=? cap then n else cap * (n / cap).

(** Modes accepted by double_tensordot and tensordot2. *)
Definition valid2 (m : Z) : Prop := (m = 0 \/ m = 1 \/ m = 2)%Z.

Section Formulas.
  Context {A : Type} (zero : A) (add mul : A -> A -> A).

  (** Column [j] of the row vector (u2[i2] (x) u1[i1]) . q. *)
  Definition kron_q (q u1 u2 : mat A) (i1 i2 j : nat) : A :=
    sumn zero add (mc u2) (fun k2 => sumn zero add (mc u1) (fun k1 =>
      mul (mul (mget zero u2 i2 k2) (mget zero u1 i1 k1)) (mget zero q (k2 * mc u1 + k1) j))).

  (** Element of the tensor with Tucker factors u1, u2, u3 and a core. *)
  Definition tucker (u1 u2 u3 : mat A) (core : ten A) (i j k : nat) : A :=
    sumn zero add (mc u1) (fun x => sumn zero add (mc u2) (fun y => sumn zero add (mc u3) (fun z =>
      mul (mul (mul (tget zero core (x, y, z)) (mget zero u1 i x)) (mget zero u2 j y)) (mget zero u3 k z)))).
End Formulas.

(** [v] is the transpose of [u]. *)
Definition is_transpose {A} (zero : A) (v u : mat A) : Prop :=
  mr v = mc u /\ mc v = mr u
  /\ forall x y, x < mr v -> y < mc v -> mget zero v x y = mget zero u y x.
