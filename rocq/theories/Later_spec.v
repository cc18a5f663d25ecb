(** Vocabulary of C109: experiments that start later in the data. *)
From Coq Require Import ZArith List Bool.
From Verif Require Import Prelude DataPrep_model Tensor_model Matrix_model LinAlg_model Dynamic_model.
Import ListNotations.
Open Scope Z_scope.

Section Later.
  Context {S D A : Type} (m : api S D A) (grow : D -> list row -> res D).

  (** The update function is a training on the concatenated table, whatever the state. *)
  Definition forgets : Prop := forall s s' d, update m s (inr d) = train m s' d.

  (** Items do not leave the table. *)
  Definition keeps_items : Prop := forall d c d' s0 s0' s s' v v', grow d c = Ok d' ->
    train m s0 d = Ok s -> train m s0' d' = Ok s' -> get_v m s = Ok v -> get_v m s' = Ok v' -> (mr v <= mr v')%nat.

  (** The table after some groups. *)
  Fixpoint grown (d : D) (groups : list (list row)) : res D :=
    match groups with
    | [] => Ok d
    | c :: r => do d' <- grow d c; grown d' r
    end.
End Later.

(** The iterations left after [j] of them, none being counted if the number is not positive. *)
Definition left_over (how_many : Z) (j : nat) : Z := if 0 <? how_many then how_many - Z.of_nat j else how_many.

(** [dyn'] is [dyn] without its first [j] steps; the times are not compared. *)
Definition tail_of {T V} (j : nat) (dyn dyn' : dynamics T V) : Prop :=
  d_hr dyn' = skipn j (d_hr dyn) /\ d_mrr dyn' = skipn j (d_mrr dyn) /\ d_wji dyn' = skipn j (d_wji dyn) /\
  rnd_users dyn' = skipn j (rnd_users dyn) /\ rnd_items dyn' = skipn j (rnd_items dyn) /\
  nd_users dyn' = skipn j (nd_users dyn) /\ nd_items dyn' = skipn j (nd_items dyn).
