(** Vocabulary for the published statistics. *)
From Coq Require Import ZArith QArith List Sorting.Sorted Sorting.Permutation.
From Verif Require Import Prelude Tables_model.
Import ListNotations.
Open Scope Z_scope.

(** Number of different values of a column. *)
Definition different (l : list Z) : Z := Z.of_nat (length (nodup Z.eq_dec l)).

(** Rows of user [u]. *)
Definition rows_of (t : list trow) (u : Z) : nat := length (filter (fun r => tb_user r =? u) t).

(** [m] is the mean of the two middle values of [l] in order (the same one if their number is
    odd). *)
Definition is_median (l : list Z) (m : Q) : Prop :=
  exists s x y, Permutation l s /\ StronglySorted Z.le s /\
    nth_error s (Nat.div2 (length l - 1)) = Some x /\ nth_error s (Nat.div2 (length l)) = Some y /\
    (m == (inject_Z x + inject_Z y) / 2)%Q.

(** [x] is [y] up to half a unit of the second decimal. *)
Definition to_cents (x y : Q) : Prop := (y - (1 # 200) <= x <= y + (1 # 200))%Q.
