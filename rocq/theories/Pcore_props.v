(** C47 and C59: table cleaning. *)
From Coq Require Import ZArith List Bool.
From Verif Require Import Prelude Pcore_model Pcore_spec Pcore_main.
Import ListNotations.
Open Scope Z_scope.

(** C47: the filter terminates and returns the largest p-core, for every table and [p]. *)
Theorem pcore_filter_largest :
  forall (A : Type) (user item : A -> Z) (p : Z) (data : list A) (fuel : nat),
    (length data < fuel)%nat ->
    exists c, pcore_filter user item fuel p data = Ok c /\ largest_core user item p c data.
Proof. exact (fun A user item p data fuel => pcore_main user item p fuel data). Qed.
Print Assumptions pcore_filter_largest.

(** C47: the largest p-core is unique, so the result does not depend on the order in
    which items and users are removed. *)
Theorem largest_core_unique :
  forall (A : Type) (user item : A -> Z) (p : Z) (c c' data : list A),
    largest_core user item p c data -> largest_core user item p c' data -> c = c'.
Proof. exact (fun A user item => largest_unique user item). Qed.
Print Assumptions largest_core_unique.

(** C47: filtering again changes nothing. *)
Theorem pcore_filter_idempotent :
  forall (A : Type) (user item : A -> Z) (p : Z) (data c : list A) (fuel fuel' : nat),
    (length data < fuel)%nat -> (length data < fuel')%nat ->
    pcore_filter user item fuel p data = Ok c -> pcore_filter user item fuel' p c = Ok c.
Proof. exact (fun A user item p data c fuel fuel' => pcore_again user item p fuel fuel' data c). Qed.
Print Assumptions pcore_filter_idempotent.

(** C59: the Steam table keeps the last row of every pair; every remaining user has five
    distinct items and every remaining item five distinct users, and no pair that could
    be kept is lost. *)
Theorem steam_table_clean :
  forall (A : Type) (user item : A -> Z) (data : list A) (fuel : nat),
    (length data < fuel)%nat ->
    let pairs l := map (fun r => (user r, item r)) l in
    exists c, steam_table user item fuel data = Ok c /\
      subsequence c data /\ NoDup (pairs c) /\
      (forall r, In r c -> exists items users,
          NoDup items /\ (5 <= length items)%nat /\ (forall i, In i items -> In (user r, i) (pairs c)) /\
          NoDup users /\ (5 <= length users)%nat /\ (forall u, In u users -> In (u, item r) (pairs c))) /\
      (forall s, subsequence s data -> NoDup (pairs s) -> p_core user item 5 s ->
                 forall q, In q (pairs s) -> In q (pairs c)) /\
      (forall r, In r c -> exists pre post, data = pre ++ r :: post /\ ~ In (user r, item r) (pairs post)).
Proof. exact (fun A user item data fuel => steam_main user item fuel data). Qed.
Print Assumptions steam_table_clean.

(** C59: encoding renumbers a column densely and keeps its order. *)
Theorem encode_column_renumbers :
  forall values : list Z, renumbers values (encode_column values).
Proof. exact encode_main. Qed.
Print Assumptions encode_column_renumbers.

(** Items 8 and 9 go first, then users 3 and 4; the second round changes nothing. *)
Definition demo : list (Z * Z) :=
  [(1, 5); (1, 6); (2, 5); (2, 6); (3, 7); (3, 9); (4, 7); (4, 8)].
Example pcore_demo : pcore_filter fst snd 9 2 demo = Ok [(1, 5); (1, 6); (2, 5); (2, 6)].
Proof. vm_compute. reflexivity. Qed.
Example pcore_demo_empty : pcore_filter fst snd 9 3 demo = Ok [].
Proof. vm_compute. reflexivity. Qed.
Example pcore_demo_off : pcore_filter fst snd 9 0 demo = Ok demo.
Proof. vm_compute. reflexivity. Qed.

(** A 5 by 5 block with a repeated pair survives, the stray row does not. *)
Definition block : list (Z * Z * Z) :=
  (0, 0, 77) :: (9, 0, 1) :: map (fun n => (n / 5, n mod 5, n)) (zrange 25).
Example steam_demo :
  steam_table (fun r => fst (fst r)) (fun r => snd (fst r)) 28 block
  = Ok (map (fun n => (n / 5, n mod 5, n)) (zrange 25)).
Proof. vm_compute. reflexivity. Qed.

Example encode_demo : encode_column [30; 10; 30; 20] = [2; 0; 2; 1].
Proof. vm_compute. reflexivity. Qed.
