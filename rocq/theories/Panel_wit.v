(** A concrete experiment for C111. *)
From Coq Require Import ZArith QArith List Bool Lia.
From Verif Require Import Prelude DataPrep_model Tensor_model Dynamic_model Dynamic_spec Panel_spec.
Import ListNotations.
Open Scope Z_scope.

(** Two users and two items; the second user's list is turned round by the first update. *)
Definition turn (s : nat) (u : Z) : list Z := match s with O => if u =? 1 then [0; 1] else [1; 0] | _ => [0; 1] end.
Definition turning : api nat (list row) Q :=
  mkApi _ _ _ (fun _ _ => Ok 0%nat) (fun s _ => Ok (S s))
    (fun _ => mkMappings (get_cont_mapping_struct [1; 2] 0) (get_cont_mapping_struct [11; 12] 0))
    (fun s us internal => if internal then Ok (map (turn s) us) else Ok (map (fun _ => [11; 12]) us))
    (fun _ => 2%nat) (fun _ => Ok (mkMat 1 1 [1%Q])) (fun _ => Ok (mkMat 1 1 [1%Q])).
Definition turning_run (us : list Z) : res (dynamics Q Q) :=
  dynamical_experiment 0%Q Qminus sum_squares Qdiv (-(1))%Q (fun _ => 1%Q) turning grow_2d us true 2 0%nat
    [mkRow 1 12 0 1; mkRow 2 11 1 1] [[mkRow 1 11 5 1]; [mkRow 2 12 6 1]].

Lemma turning_by_user : by_user turning /\ equal_lengths turning.
Proof.
  split.
  - intros s us rows _. cbn. split.
    + intros [= <-]. induction us as [|u us IH]; constructor; [reflexivity|exact IH].
    + intros F. f_equal. induction F as [|u r us rs E F IH]; [reflexivity|]. cbn. injection E as <-. now rewrite IH.
  - intros s u v a b. cbn. intros [= <-] [= <-]. unfold turn. destruct s; [|reflexivity]. destruct (u =? 1), (v =? 1); reflexivity.
Qed.
