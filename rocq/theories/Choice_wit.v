From Coq Require Import ZArith List Bool String.
From Verif Require Import Prelude DataPrep_model History_model Recommend_model Tables_model Stream_model Tensor_model Matrix_model LinAlg_model
  Eval_model Dynamic_model Pipe_model Choice_model Choice_spec.
Import ListNotations.
Open Scope Z_scope.

(** Two users and four items; the draws are the numbers 0, 1, 2, 3. *)
Definition ch_row u i := mkRow u i 0 1.
Definition ch_table : list prow := map (fun x => (ch_row (fst x) (snd x), 0)) [(10, 5); (10, 6); (20, 7); (20, 8)].
Definition ch_chunk : list row := [ch_row 10 7; ch_row 20 5].
Definition ch_start : rr_state := mkRR (mkMappings (mkMapping [] [] 0) (mkMapping [] [] 0)) 0 None [].
(** All positions in order: the [k] largest values of an increasing list come last. *)
Definition ch_argpart (_ : nat) (l : list Z) (k : nat) : list nat := seq 0 (List.length l).
Definition ch_draws (_ : rr_state) (us : list Z) (_ : bool) : list (list Z) := map (fun _ => [0; 1; 2; 3]) us.
Definition ch_run (stream : list (list row)) : res (dynamics nat Z) :=
  dynamical_experiment 0 Z.sub (fun _ => 0) Z.div (-1) (fun n => n) (rr_api ch_argpart 2 ch_draws) (grow_3d 3) [10; 20] false 5 ch_start ch_table stream.
