(** The columns of the prepared table the models read. *)
From Coq Require Import ZArith List.
From Verif Require Import Prelude DataPrep_model Tables_model.
Import ListNotations.
Open Scope Z_scope.

(** [r] is the interaction of the line [t]: its user and item, its time as the timestamp and its
    relevance. *)
Definition model_row (t : trow) (r : row) : Prop :=
  r_user r = tb_user t /\ r_item r = tb_item t /\ r_ts r = tb_time t /\ r_rel r = tb_rel t.
