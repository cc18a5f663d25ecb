(** Vocabulary for the recommendations that are possible for one and the same model. *)
From Coq Require Import ZArith QArith List Bool Permutation.
From Verif Require Import Prelude Recommend_model Recommend_spec Eval_spec.
Import ListNotations.
Open Scope Z_scope.

(** Two lists with the same last element and the same elements before it, in some order. *)
Definition same_but_order (row row' : list Z) : Prop :=
  exists pre pre' l, row = pre ++ [l] /\ row' = pre' ++ [l] /\ Permutation pre pre'.

(** The reciprocal ranks an item can have in a list whose last element is fixed and whose
    other elements may come in any order: the highest and the lowest. *)
Definition share (n : nat) : Q := (1 # Pos.of_nat n)%Q.
Definition rr_high (row : list Z) (t : Z) : Q :=
  if in_dec Z.eq_dec t row then if Z.eq_dec t (last row 0) then share (length row) else 1%Q else 0%Q.
Definition rr_low (row : list Z) (t : Z) : Q :=
  if in_dec Z.eq_dec t row then if Z.eq_dec t (last row 0) then share (length row) else share (length row - 1) else 0%Q.

(** Means over the users. *)
Definition mean_of (f : list Z -> Z -> Q) (rows : list (list Z)) (test : list Z) : Q :=
  (Qsum (map (fun rt => f (fst rt) (snd rt)) (combine rows test)) / inject_Z (Z.of_nat (length test)))%Q.

Section Tied.
  Context {A : Type} (leb : A -> A -> bool).
  (** A user's candidates have scores that no comparison distinguishes. *)
  Definition tied (st : rec_state A) (filter_viewed : bool) (u : Z) : Prop :=
    exists scores, rs_scores st u = Ok scores /\
    forall i j x y, candidate st filter_viewed u i -> candidate st filter_viewed u j ->
      nth_error scores (Z.to_nat i) = Some x -> nth_error scores (Z.to_nat j) = Some y -> leb x y = true.
End Tied.
