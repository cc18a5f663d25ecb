(** Vocabulary of C108: what a matrix model can see of a table of interactions. *)
From Coq Require Import ZArith List Bool.
From Verif Require Import Prelude DataPrep_model Psi_model Num_model.
Import ListNotations.
Open Scope Z_scope.

(** The user and the item of a row. *)
Definition who (r : row) : Z * Z := (r_user r, r_item r).
Definition same_pair (p q : Z * Z) : bool := (fst p =? fst q) && (snd p =? snd q).

(** The different pairs in the order in which they first appear. *)
Fixpoint firsts (l : list (Z * Z)) : list (Z * Z) :=
  match l with
  | [] => []
  | x :: r => x :: filter (fun y => negb (same_pair y x)) (firsts r)
  end.

(** The same for ids. *)
Fixpoint id_firsts (l : list Z) : list Z :=
  match l with
  | [] => []
  | x :: r => x :: filter (fun y => negb (y =? x)) (id_firsts r)
  end.

Section Views.
  Context {A : Type} (zero : A) (add : A -> A -> A) (of_rel : Z -> A).

  (** The relevances of the rows of a pair, added up. *)
  Definition total (d : list row) (p : Z * Z) : A :=
    fold_right add zero (map (fun r => of_rel (r_rel r)) (filter (fun r => same_pair (who r) p) d)).

  (** Two tables with the same pairs, first seen in the same order, with the same totals. *)
  Definition same_view (d1 d2 : list row) : Prop :=
    firsts (map who d1) = firsts (map who d2) /\ forall p, total d1 p = total d2 p.

  (** The same with users and items each first seen in the same order. *)
  Definition same_totals (d1 d2 : list row) : Prop :=
    id_firsts (map r_user d1) = id_firsts (map r_user d2) /\
    id_firsts (map r_item d1) = id_firsts (map r_item d2) /\
    (forall p, In p (map who d1) <-> In p (map who d2)) /\
    forall p, total d1 p = total d2 p.

  (** Addition as in exact arithmetic. *)
  Definition adds_up : Prop :=
    (forall a b c, add a (add b c) = add (add a b) c) /\ (forall a b, add a b = add b a) /\ (forall a, add zero a = a).
End Views.

(** One row for every pair, with the sum of its relevances. *)
Definition summed (d : list row) : list row :=
  map (fun p => mkRow (fst p) (snd p) 0
                  (fold_right Z.add 0 (map r_rel (filter (fun r => same_pair (who r) p) d)))) (firsts (map who d)).

(** Both raise the same exception, or both return with related results. *)
Definition agree {X} (R : X -> X -> Prop) (a b : res X) : Prop :=
  match a, b with
  | Ok x, Ok y => R x y
  | Err e, Err e' => e = e'
  | _, _ => False
  end.

(** Objects with the same mappings and factors that exclude the same items for everyone. *)
Definition alike {A} (x y : @num_state A) : Prop :=
  ps_maps (nm_book x) = ps_maps (nm_book y) /\
  ps_n_users (nm_book x) = ps_n_users (nm_book y) /\
  ps_n_items (nm_book x) = ps_n_items (nm_book y) /\
  nm_f x = nm_f y /\
  forall p, In p (ps_history (nm_book x)) <-> In p (ps_history (nm_book y)).
