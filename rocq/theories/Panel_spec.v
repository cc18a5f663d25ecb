(** Vocabulary of C111: the users of the stability test. *)
From Coq Require Import ZArith QArith List Bool.
From Verif Require Import Prelude DataPrep_model Eval_spec Tensor_model Dynamic_model.
Import ListNotations.
Open Scope Z_scope.

Section Panel.
  Context {S D A : Type} (m : api S D A).

  (** The lists of several users are those each of them would get alone. *)
  Definition by_user : Prop := forall s us rows, us <> [] ->
    (recommend m s us true = Ok rows <-> Forall2 (fun u r => recommend m s [u] true = Ok [r]) us rows).

  (** In a given state all lists are equally long. *)
  Definition equal_lengths : Prop := forall s u v a b,
    recommend m s [u] true = Ok [a] -> recommend m s [v] true = Ok [b] -> length a = length b.
End Panel.

(** All series but the stability are the same. *)
Definition same_but_stability {T V} (dyn dyn' : dynamics T V) : Prop :=
  calculation_time dyn' = calculation_time dyn /\ d_hr dyn' = d_hr dyn /\ d_mrr dyn' = d_mrr dyn /\
  rnd_users dyn' = rnd_users dyn /\ rnd_items dyn' = rnd_items dyn /\ nd_users dyn' = nd_users dyn /\ nd_items dyn' = nd_items dyn.

(** [w] is the mean of the values that [f] gives for the users [us]. *)
Definition mean_over (us : list Z) (f : Z -> Q) (w : Q) : Prop :=
  (w * inject_Z (Z.of_nat (length us)) == Qsum (map f us))%Q.
