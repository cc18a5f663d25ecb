(** Property theorems for source/experiments/dynamical_experiment.py and
    source/general_functions.py: C50, C52. *)
From Coq Require Import ZArith QArith List Bool Permutation Ring_theory.
From Verif Require Import Prelude DataPrep_model Eval_model Tensor_model Tensor_spec Matrix_model LinAlg_model Stream_model Dynamic_model Dynamic_spec.
From Verif Require Nobody_main Dynamic_main Dynamic_extra.
Import ListNotations.
Open Scope Z_scope.

(** C50.  The dynamic experiment returns exactly what a history of test-then-train steps
    reports: before every chunk the chunk is evaluated, the stability lists are drawn and
    the embeddings are read in the state reached with the earlier chunks only, and then the
    state and the table are updated with the chunk.  All chunks are used when the number of
    iterations is not positive. *)
Theorem dynamical_experiment_test_then_train :
  forall (S D A V T : Type) (zero : A) (sub : A -> A -> A) (norm : mat A -> V) (div : V -> V -> V) (minus_one : V)
    (clock : nat -> T) (m : api S D A) (grow : D -> list row -> res D) (test_users : list Z) (chunk_mode : bool)
    (how_many : Z) (st0 : S) (initial : D) (stream : list (list row)) (dyn : dynamics T V),
  dynamical_experiment zero sub norm div minus_one clock m grow test_users chunk_mode how_many st0 initial stream = Ok dyn <->
  exists H, runs zero sub norm div minus_one m grow test_users chunk_mode st0 initial stream (n_steps how_many (length stream)) H /\
    dyn = reported norm clock (n_steps how_many (length stream)) H.
Proof. exact @Dynamic_main.experiment_main. Qed.
Print Assumptions dynamical_experiment_test_then_train.

(** C50.  Running on the first [k] chunks only gives the beginnings of all series: what is
    reported on a chunk does not depend on later chunks. *)
Theorem dynamical_experiment_causal :
  forall (S D A V T : Type) (zero : A) (sub : A -> A -> A) (norm : mat A -> V) (div : V -> V -> V) (minus_one : V)
    (clock : nat -> T) (m : api S D A) (grow : D -> list row -> res D) (test_users : list Z) (chunk_mode : bool)
    (st0 : S) (initial : D) (how_many : Z) (stream : list (list row)) (dyn : dynamics T V) (k : nat),
  let experiment s := dynamical_experiment zero sub norm div minus_one clock m grow test_users chunk_mode how_many st0 initial s in
  experiment stream = Ok dyn -> (k <= n_steps how_many (length stream))%nat ->
  exists dyn', experiment (firstn k stream) = Ok dyn' /\
    calculation_time dyn' = firstn (k + 1) (calculation_time dyn) /\ d_hr dyn' = firstn k (d_hr dyn) /\ d_mrr dyn' = firstn k (d_mrr dyn) /\
    d_wji dyn' = firstn (k - 1) (d_wji dyn) /\ rnd_users dyn' = firstn (k - 1) (rnd_users dyn) /\
    rnd_items dyn' = firstn (k - 1) (rnd_items dyn) /\ nd_users dyn' = firstn k (nd_users dyn) /\ nd_items dyn' = firstn k (nd_items dyn).
Proof. exact @Dynamic_main.causal_main. Qed.
Print Assumptions dynamical_experiment_causal.

(** C50.  If the first chunks went well, the next one to be processed has no row with known
    user and item, and the model can recommend to nobody, the experiment aborts. *)
Theorem dynamical_experiment_unknown_chunk :
  forall (S D A V T : Type) (zero : A) (sub : A -> A -> A) (norm : mat A -> V) (div : V -> V -> V) (minus_one : V)
    (clock : nat -> T) (m : api S D A) (grow : D -> list row -> res D) (test_users : list Z) (chunk_mode : bool)
    (how_many : Z) (st0 : S) (initial : D) (stream : list (list row)) (t : nat) (chunk : list row) (H : history)
    (rec : list (list Z)),
  (t < n_steps how_many (length stream))%nat -> nth_error stream t = Some chunk ->
  runs zero sub norm div minus_one m grow test_users chunk_mode st0 initial stream t H ->
  tests m chunk (st H t) = ([], []) -> recommend m (st H t) [] false = Ok rec ->
  dynamical_experiment zero sub norm div minus_one clock m grow test_users chunk_mode how_many st0 initial stream
    = Err ZeroDivisionError.
Proof. exact @Dynamic_main.empty_chunk_main. Qed.
Print Assumptions dynamical_experiment_unknown_chunk.

(** C50.  A model whose embeddings cannot be read (the random recommender has no get_u)
    never gets through a chunk. *)
Theorem dynamical_experiment_needs_embeddings :
  forall (S D A V T : Type) (zero : A) (sub : A -> A -> A) (norm : mat A -> V) (div : V -> V -> V) (minus_one : V)
    (clock : nat -> T) (m : api S D A) (grow : D -> list row -> res D) (test_users : list Z) (chunk_mode : bool)
    (how_many : Z) (st0 : S) (initial : D) (stream : list (list row)) (e : exn),
  (forall s, get_u m s = Err e) -> (0 < length stream)%nat ->
  forall dyn, dynamical_experiment zero sub norm div minus_one clock m grow test_users chunk_mode how_many st0 initial stream <> Ok dyn.
Proof. exact @Dynamic_main.no_embeddings_main. Qed.
Print Assumptions dynamical_experiment_needs_embeddings.

(** C50.  With how_many_iterations = 0, the value that would process the whole stream, the
    full experiment looks for test users on none of the days, finds none, and fails on
    every stream of two chunks or more, if the model has no lists for no users. *)
Theorem full_experiment_unlimited_fails :
  forall (S D A V T : Type) (zero : A) (sub : A -> A -> A) (norm : mat A -> V) (div : V -> V -> V) (minus_one : V)
    (clock : nat -> T) (m : api S D A) (grow : D -> list row -> res D) (chunk_mode : bool)
    (sort_counts : list (Z * Z) -> list (Z * Z)) (initial_users : list Z) (left : list (Z * Z))
    (st0 : S) (initial : D) (stream : list (list row)),
  (forall l, Permutation (sort_counts l) l) -> (forall s l, recommend m s [] true = Ok l -> l = []) -> (1 < length stream)%nat ->
  forall dyn, dynamical_experiment zero sub norm div minus_one clock m grow
    (get_users_stability sort_counts initial_users left 0) chunk_mode 0 st0 initial stream <> Ok dyn.
Proof. exact @Nobody_main.unlimited_fails. Qed.
Print Assumptions full_experiment_unlimited_fails.

(** C50.  Entities that disappear between two processed chunks: the run does not get
    through for users (unless a single row is broadcast); for items the change is reported
    as -1, but between the first two chunks the run does not get through either. *)
Theorem dynamical_experiment_shrinking :
  forall (S D A V : Type) (zero : A) (sub : A -> A -> A) (norm : mat A -> V) (div : V -> V -> V) (minus_one : V)
    (m : api S D A) (grow : D -> list row -> res D) (test_users : list Z) (chunk_mode : bool)
    (st0 : S) (initial : D) (stream : list (list row)) (n : nat) (H : history) (t : nat),
  runs zero sub norm div minus_one m grow test_users chunk_mode st0 initial stream n H -> (Datatypes.S t < n)%nat ->
  ((mr (emb_u H (Datatypes.S t)) < mr (emb_u H t))%nat -> mr (emb_u H (Datatypes.S t)) = 1%nat \/ mr (emb_u H t) = 1%nat) /\
  ((mr (emb_v H (Datatypes.S t)) < mr (emb_v H t))%nat ->
     ((0 < t)%nat -> dv H t = minus_one) /\
     (t = 0%nat -> mr (emb_v H (Datatypes.S t)) = 1%nat \/ mr (emb_v H t) = 1%nat)).
Proof. exact @Dynamic_extra.shrinking_main. Qed.
Print Assumptions dynamical_experiment_shrinking.

(** C52.  sliding_window: shorter arrays are returned as they are, whatever the mode; an
    unknown mode raises; otherwise value [i] is the sum (mean) of the values [i..i+w-1]. *)
Theorem sliding_window_values :
  forall (arr : list Q) (w : nat),
  ((length arr < w)%nat -> forall mode, sliding_window arr w mode = Ok arr) /\
  ((w <= length arr)%nat ->
    sliding_window arr w WOther = Err NotImplementedError /\
    (exists out, sliding_window arr w WSum = Ok out /\ length out = (length arr - w + 1)%nat /\
       forall i, (i + w <= length arr)%nat -> exists x, nth_error out i = Some x /\ (x == window_total arr i w)%Q) /\
    ((0 < w)%nat -> exists out, sliding_window arr w WMean = Ok out /\ length out = (length arr - w + 1)%nat /\
       forall i, (i + w <= length arr)%nat -> exists x, nth_error out i = Some x /\
         (x * inject_Z (Z.of_nat w) == window_total arr i w)%Q)).
Proof. exact Dynamic_extra.sliding_main. Qed.
Print Assumptions sliding_window_values.

(** C52.  The change of embeddings reported between two steps is the norm of the (opposite
    of the) older embeddings over the norm of the difference; for an unchanged model the
    divisor is the norm of a zero matrix. *)
Theorem reported_change_formula :
  forall (A V : Type) (zero one : A) (add mul sub : A -> A -> A) (opp : A -> A),
  ring_theory zero one add mul sub opp eq ->
  forall (norm : mat A -> V) (div : V -> V -> V) (old new : mat A) (x : V),
  mwf old -> (mr old <= mr new)%nat -> mc old = mc new ->
  (user_change zero sub norm div old new x <->
   x = div (norm (opposite zero opp (padded zero old new))) (norm (difference zero sub new (padded zero old new)))).
Proof. exact @Dynamic_extra.change_main. Qed.
Print Assumptions reported_change_formula.

Theorem reported_change_unchanged :
  forall (A V : Type) (zero one : A) (add mul sub : A -> A -> A) (opp : A -> A),
  ring_theory zero one add mul sub opp eq ->
  forall (norm : mat A -> V) (div : V -> V -> V) (emb : mat A) (x : V),
  mwf emb ->
  (user_change zero sub norm div emb emb x <->
   x = div (norm (opposite zero opp emb)) (norm (zeros zero (mr emb) (mc emb)))).
Proof. exact @Dynamic_extra.unchanged_main. Qed.
Print Assumptions reported_change_unchanged.

(** C52.  With squared Frobenius norms the sign does not matter. *)
Theorem opposite_same_norm :
  forall emb : mat Q, mwf emb -> (sum_squares (opposite 0%Q Qopp emb) == sum_squares emb)%Q.
Proof. exact Dynamic_extra.sum_squares_opposite. Qed.
Print Assumptions opposite_same_norm.

(** C52.  It is not the relative change ||new - old|| / ||new||: here the squared relative
    change is 1/4 and the reported one 1. *)
Theorem reported_change_not_relative_refuted :
  exists (old new : mat Q) (x : Q), mwf old /\ mwf new /\
    user_change 0%Q Qminus sum_squares Qdiv old new x /\
    ~ (x == sum_squares (difference 0%Q Qminus new old) / sum_squares new)%Q.
Proof.
  exists (mkMat 1 1 [1%Q]), (mkMat 1 1 [2%Q]), 1%Q. split; [reflexivity|]. split; [reflexivity|]. split.
  - exists (mkMat 1 1 [1%Q]), (mkMat 1 1 [(2 - 1)%Q]), (mkMat 1 1 [((2 - 1) - 2)%Q]). repeat split; reflexivity.
  - intro H. vm_compute in H. discriminate.
Qed.
Print Assumptions reported_change_not_relative_refuted.

(** A concrete run: a model counting its updates, whose first recommendation changes with
    every update and whose user embeddings grow by a row. *)
Definition toy_maps : mappings :=
  mkMappings (get_cont_mapping_struct [10; 11] 0) (get_cont_mapping_struct [20; 21; 22] 0).
Definition toy : api nat (list row) Q :=
  mkApi _ _ _ (fun _ d => Ok (length d)) (fun s x => match x with inl c => Ok (s + length c)%nat | inr d => Ok (length d) end)
    (fun _ => toy_maps)
    (fun s users internal => Ok (map (fun _ => if internal then [Z.of_nat (s mod 2); 2] else [20 + Z.of_nat (s mod 2); 22]) users))
    (fun _ => 3%nat)
    (fun s => Ok (build s 1 (fun i _ => inject_Z (Z.of_nat (s + i))))) (fun s => Ok (mkMat 1 1 [inject_Z (Z.of_nat s)])).
Definition toy_run (how_many : Z) (stream : list (list row)) : res (dynamics nat Q) :=
  dynamical_experiment 0%Q Qminus sum_squares (fun a b => Qred (a / b)) (-1)%Q (fun n => (10 * n)%nat) toy grow_2d
    [10; 11] false how_many 0%nat [mkRow 10 20 0 1] stream.
Definition c1 := [mkRow 10 21 1 1].
Definition c2 := [mkRow 11 20 2 1].
Definition c3 := [mkRow 10 22 3 1; mkRow 11 21 4 1].

Example toy_three_steps :
  exists h r w x y nu nv, toy_run 0 [c1; c2; c3] = Ok (mkDyn [0; 10; 20; 30]%nat h r w x y nu nv) /\
    length h = 3%nat /\ h = [1; 1; (0 + (0 + 1) + 1) / 2]%Q /\ length w = 2%nat /\ length x = 2%nat /\ length nu = 3%nat.
Proof. vm_compute. do 7 eexists. repeat split; reflexivity. Qed.
Example toy_limited : exists dyn, toy_run 2 [c1; c2; c3] = Ok dyn /\ length (d_hr dyn) = 2%nat /\ length (d_wji dyn) = 1%nat.
Proof. eexists. split; [vm_compute; reflexivity|]. split; reflexivity. Qed.
Example toy_unknown : toy_run 0 [c1; [mkRow 99 20 2 1]] = Err ZeroDivisionError.
Proof. vm_compute. reflexivity. Qed.
Example window_example :
  match sliding_window [1; 2; 3; 4]%Q 2 WSum with Ok l => map Qred l | Err _ => [] end = [3; 5; 7]%Q /\
  match sliding_window [1; 2; 3; 4]%Q 2 WMean with Ok l => map Qred l | Err _ => [] end = [3#2; 5#2; 7#2]%Q /\
  sliding_window [1]%Q 2 WOther = Ok [1]%Q.
Proof. vm_compute. repeat split; reflexivity. Qed.
