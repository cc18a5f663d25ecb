(** What the length of the lists should mean. *)
From Coq Require Import ZArith QArith List Bool.
From Verif Require Import Prelude DataPrep_model Tensor_model Matrix_model LinAlg_model Recommend_model Dynamic_model.
Import ListNotations.
Open Scope Z_scope.

(** Every item scores differently, for every user. *)
Definition no_ties {A} (st : rec_state A) : Prop := forall u s, rs_scores st u = Ok s -> NoDup s.

(** The index array does not depend on the position asked for, as a full sort's would not. *)
Definition same_for_all_k {A} (argpart : nat -> list A -> nat -> list nat) : Prop :=
  forall i a kth kth', argpart i a kth = argpart i a kth'.

(** Two models that differ at most in what they recommend; both recommend from what [view] sees
    of the state, lists of [k] and of [k'] items. *)
Definition only_lists_differ {S D A X} (view : S -> rec_state X) (argpart : nat -> list X -> nat -> list nat) (k k' : nat) (m m' : api S D A) : Prop :=
  (forall s d, train m s d = train m' s d) /\ (forall s c, update m s c = update m' s c) /\ (forall s, maps m s = maps m' s) /\
  (forall s, n_items m s = n_items m' s) /\ (forall s, get_u m s = get_u m' s) /\ (forall s, get_v m s = get_v m' s) /\
  (forall s users b, Dynamic_model.recommend m s users b = Recommend_model.recommend argpart (view s) users k true b) /\
  (forall s users b, Dynamic_model.recommend m' s users b = Recommend_model.recommend argpart (view s) users k' true b).
