(** Specification vocabulary for the metrics. *)
From Coq Require Import ZArith QArith List Bool.
Import ListNotations.

(** Users whose test item appears in their row. *)
Definition hits (rec : list (list Z)) (test : list Z) : nat :=
  length (filter (fun rt => if in_dec Z.eq_dec (snd rt) (fst rt) then true else false)
                 (combine rec test)).

(** Reciprocal rank: 0 when absent, else 1/(position+1) of the first occurrence. *)
Inductive RR (row : list Z) (t : Z) : Q -> Prop :=
| RR_absent : ~ In t row -> RR row t 0
| RR_first pre post : row = pre ++ t :: post -> ~ In t pre ->
    RR row t (1 # Pos.of_succ_nat (length pre)).

Fixpoint Qsum (l : list Q) : Q :=
  match l with [] => 0%Q | x :: r => Qplus x (Qsum r) end.
