(** Concrete experiments for C110. *)
From Coq Require Import ZArith QArith List Bool String Lia.
From Verif Require Import Prelude DataPrep_model Eval_spec Tensor_model Dynamic_model Dynamic_spec Report_model Report_spec Avg_spec.
From Verif Require Dynamic_main.
Import ListNotations.
Open Scope Z_scope.

(** A recommender that knows four users and two items and whose lists are given by the number
    of updates and the user. *)
Definition given (pick : nat -> Z -> list Z) : api nat (list row) Q :=
  mkApi _ _ _ (fun _ _ => Ok 0%nat) (fun s _ => Ok (S s))
    (fun _ => mkMappings (get_cont_mapping_struct [1; 2; 3; 4] 0) (get_cont_mapping_struct [11; 12] 0))
    (fun s us internal => if internal then Ok [[0]] else Ok (map (pick s) us))
    (fun _ => 2%nat) (fun _ => Ok (mkMat 1 1 [1%Q])) (fun _ => Ok (mkMat 1 1 [1%Q])).

(** One user in the first group and three in the second; the other way round. *)
Definition small : list row := [mkRow 1 11 5 1].
Definition large : list row := [mkRow 2 12 6 1; mkRow 3 12 7 1; mkRow 4 12 8 1].
Definition initial : list row := [mkRow 1 12 0 1; mkRow 2 11 1 1; mkRow 3 11 2 1; mkRow 4 11 3 1].

(** Right in the first group only; right for two users of the second group only. *)
Definition first_right : nat -> Z -> list Z := fun t _ => match t with O => [11] | _ => [11] end.
Definition second_right : nat -> Z -> list Z := fun t u => match t with O => [12] | _ => if u =? 4 then [11] else [12] end.
(** Right in the first group of three, wrong in the second. *)
Definition large_right : nat -> Z -> list Z := fun t _ => [12].

Definition exper (clock : nat -> Q) (pick : nat -> Z -> list Z) (stream : list (list row)) : res (dynamics Q Q) :=
  dynamical_experiment 0%Q Qminus sum_squares Qdiv (-(1))%Q clock (given pick) grow_2d [1] true 2 0%nat initial stream.
Definition one_sec : nat -> Q := fun _ => 1%Q.

Definition lists_of (pick : nat -> Z -> list Z) (us : nat -> list Z) : nat -> list (list Z) := fun t => map (pick t) (us t).

Lemma states clock pick c c' dyn : exper clock pick [c; c'] = Ok dyn ->
  exists H, runs 0%Q Qminus sum_squares Qdiv (-(1))%Q (given pick) grow_2d [1] true 0%nat initial [c; c'] 2 H /\
    dyn = reported sum_squares clock 2 H /\ st H 0%nat = 0%nat /\ st H 1%nat = 1%nat.
Proof.
  intros E. apply Dynamic_main.experiment_main in E. destruct E as (H & R & ->). exists H.
  split; [exact R|]. split; [reflexivity|]. destruct R as (T & _ & R & _). cbn in T. injection T as T.
  split; [now symmetry|]. destruct (R 0%nat c) as (_ & _ & _ & _ & U); [cbn; lia|reflexivity|].
  cbn in U. destruct U as [_ U]. injection U as U. rewrite <- U, <- T. reflexivity.
Qed.

Lemma tested clock pick c c' dyn lists items : exper clock pick [c; c'] = Ok dyn ->
  recommend (given pick) 0%nat (fst (tests (given pick) c 0%nat)) false = Ok (lists 0%nat) -> items 0%nat = snd (tests (given pick) c 0%nat) ->
  recommend (given pick) 1%nat (fst (tests (given pick) c' 1%nat)) false = Ok (lists 1%nat) -> items 1%nat = snd (tests (given pick) c' 1%nat) ->
  exists H, runs 0%Q Qminus sum_squares Qdiv (-(1))%Q (given pick) grow_2d [1] true 0%nat initial [c; c'] 2 H /\
    dyn = reported sum_squares clock 2 H /\ tested_in (given pick) [c; c'] 2 H lists items.
Proof.
  intros E A B C D. destruct (states _ _ _ _ _ E) as (H & R & V & S0 & S1). exists H. split; [exact R|]. split; [exact V|].
  intros t chunk Ht Et. destruct t as [|[|t]]; [| |lia].
  - injection Et as <-. rewrite S0. auto.
  - injection Et as <-. rewrite S1. auto.
Qed.

Definition items_sl (t : nat) : list Z := match t with O => [11] | _ => [12; 12; 12] end.
Definition items_ls (t : nat) : list Z := match t with O => [12; 12; 12] | _ => [11] end.
Definition users_sl (t : nat) : list Z := match t with O => [1] | _ => [2; 3; 4] end.
Definition users_ls (t : nat) : list Z := match t with O => [2; 3; 4] | _ => [1] end.

Definition get (r : res (dynamics Q Q)) : dynamics Q Q := match r with Ok d => d | Err _ => mkDyn [] [] [] [] [] [] [] [] end.
Lemma ran r : match r with Ok _ => true | Err _ => false end = true -> r = Ok (get r).
Proof. destruct r; [reflexivity|discriminate]. Qed.
