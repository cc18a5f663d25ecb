(** Specification vocabulary for histories and position tensors. *)
From Coq Require Import ZArith List Bool Permutation Sorted.
From Verif Require Import Prelude DataPrep_model History_model.
Import ListNotations.
Open Scope Z_scope.

(** Items of user [u] in arrival order. *)
Definition items_of (u : Z) (stream : list triple) : list Z :=
  map t_item (filter (fun t => t_user t =? u) stream).

(** Value of a COO tensor at a cell: duplicates add up. *)
Fixpoint cell (c : triple) (es : list entry) : Z :=
  match es with
  | [] => 0
  | (c', v) :: r =>
      (if (t_user c =? t_user c') && (t_item c =? t_item c') && (t_pos c =? t_pos c')
       then v else 0) + cell c r
  end.

(** Tensor of a sequential history: 1 at (user, item, position) when the history
    of the user holds the item at the position, pads excluded. *)
Definition hist_cell (c : triple) (h : dict (list Z)) : Z :=
  match dget (t_user c) h with
  | None => 0
  | Some l =>
      if (t_pos c <? 0) then 0 else
      match nth_error l (Z.to_nat (t_pos c)) with
      | Some i => if (i =? t_item c) && negb (i =? PAD_VALUE) then 1 else 0
      | None => 0
      end
  end.

(** [l'] is [l] sorted by [key], equal keys in their original order. *)
Definition StableSorted {A} (key : A -> Z) (l l' : list A) : Prop :=
  StronglySorted (fun a b => key a <= key b) l'
  /\ Permutation l l'
  /\ forall k, filter (fun a => key a =? k) l' = filter (fun a => key a =? k) l.

(** Rows of one user, in table order. *)
Definition rows_of (u : Z) (df : list row) : list row :=
  filter (fun r => r_user r =? u) df.
