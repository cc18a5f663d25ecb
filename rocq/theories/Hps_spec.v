(** Vocabulary for the searches of hyperparameters. *)
From Coq Require Import ZArith QArith List Bool.
From Verif Require Import Prelude DataPrep_model Eval_spec Tables_model Stream_spec Full_spec.
Import ListNotations.
Open Scope Z_scope.

(** The rows the search is given: those numbered below [cut]. *)
Definition given_rows (data : list trow) (cut : Z) : list trow := filter (fun r => tb_index r <? cut) data.

(** [train] are the rows of the days before some day, [valid] the others; that day is the one
    at the position nearest to the share [q] of the sorted days. *)
Definition parted {A} (day : A -> Z) (q : Q) (rows train valid : list A) : Prop :=
  match rows with
  | [] => train = [] /\ valid = []
  | _ => exists k pivot, order_statistic (map day rows) k pivot /\
      (inject_Z (Z.of_nat k) - (1 # 2) <= inject_Z (Z.of_nat (length rows) - 1) * q <= inject_Z (Z.of_nat k) + (1 # 2))%Q /\
      train = filter (fun r => day r <? pivot) rows /\ valid = filter (fun r => pivot <=? day r) rows
  end.

(** HR reported on rows [c]: every tested user gets a list of [k] unseen items ([chosen] says
    how they were chosen); [h] is the share of users whose item is in their list. *)
Definition hit_report (k : nat) (chosen : Z -> list Z -> Prop) (P c : list row) (h : Q) : Prop :=
  exists sel rows, tested P c sel /\ sel <> [] /\
    Forall2 (fun r row => offer k P (r_user r) row /\ chosen (r_user r) row) sel rows /\
    (h == inject_Z (Z.of_nat (hits rows (map r_item sel))) / inject_Z (Z.of_nat (length sel)))%Q.
