(** Model of the exit callback of source/experiments/hyperparameters_search.py as it is
    handed to ga_satf. *)
From Coq Require Import ZArith QArith List Bool.
From Verif Require Import Prelude Tensor_model Matrix_model Hooi_model Search_model.
Import ListNotations.

(** source/experiments/hyperparameters_search.py:143-159 [exit_callback]; [score] stands for
    lines 144-149 (setting the model's factors, recommending and evaluating), which depend
    only on the factors, the core and fixed data. *)
Definition exit_callback {A : Type} (score : factors -> ten A -> res Q) (max_n_iter_relax : Z)
  : @callback A cb_state :=
  fun st fs core => do s <- score fs core; Ok (cb_step max_n_iter_relax st s).
