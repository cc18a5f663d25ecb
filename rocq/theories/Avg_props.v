(** C110: what the averages in the tables of results stand for. *)
From Coq Require Import ZArith QArith List Bool String.
From Verif Require Import Prelude DataPrep_model Eval_spec Tensor_model Dynamic_model Dynamic_spec Report_model Report_spec Avg_spec.
From Verif Require Avg_main Avg_wit.
Import ListNotations.
Open Scope Z_scope.

(** C110.  The cells of a complete experiment of [n] steps, with any model.  HR and MRR are
    plain means over the steps: they lie between the values of the worst and of the best step,
    as do the share of hits and the mean reciprocal rank over all tests of the experiment, and
    they equal these when every step tests the same number of users.  The time is the mean of
    the training and of all updates. *)
Theorem table_of_experiment :
  forall (S D A : Type) (zero : A) (sub : A -> A -> A) (norm : mat A -> Q) (div : Q -> Q -> Q) (minus_one : Q)
    (clock : nat -> Q) (m : api S D A) (grow : D -> list DataPrep_model.row -> res D) (test_users : list Z) (chunk_mode : bool)
    (how_many : Z) (st0 : S) (initial : D) (stream : list (list DataPrep_model.row)) (dyn : dynamics Q Q) (n : nat),
  dynamical_experiment zero sub norm div minus_one clock m grow test_users chunk_mode how_many st0 initial stream = Ok dyn ->
  n = n_steps how_many (List.length stream) -> (0 < n)%nat ->
  exists (H : history) (lists : nat -> list (list Z)) (items : nat -> list Z) (h r c o : Q),
    runs zero sub norm div minus_one m grow test_users chunk_mode st0 initial stream n H /\ dyn = reported norm clock n H /\
    tested_in m stream n H lists items /\
    (forall t, (t < n)%nat -> (0 < List.length (items t))%nat /\
       (Dynamic_spec.hits H t * num (List.length (items t)) == num (Eval_spec.hits (lists t) (items t)))%Q) /\
    shown "hr" (json_of dyn) h /\ shown "mrr" (json_of dyn) r /\ shown "calculation_time" (json_of dyn) c /\
    overall_rank lists items n o /\
    (h * num n == total n (Dynamic_spec.hits H))%Q /\ between n (Dynamic_spec.hits H) h /\
    between n (Dynamic_spec.hits H) (overall_share lists items n) /\
    (r * num n == total n (ranks H))%Q /\ between n (ranks H) r /\ between n (ranks H) o /\
    (c * num (n + 1) == clock 0%nat + total n (fun t => clock (t + 1)%nat))%Q /\
    ((forall t, (t < n)%nat -> List.length (items t) = List.length (items 0%nat)) ->
      (h == overall_share lists items n)%Q /\ (r == o)%Q).
Proof. exact @Avg_main.table_main. Qed.
Print Assumptions table_of_experiment.

Example table_of_experiment_case :
  exists dyn, Avg_wit.exper Avg_wit.one_sec Avg_wit.second_right [Avg_wit.small; Avg_wit.large] = Ok dyn /\
    n_steps 2 2 = 2%nat /\ map Qred (d_hr dyn) = [0; 2 # 3]%Q /\ shown "hr" (json_of dyn) (1 # 3).
Proof.
  eexists. split; [vm_compute; reflexivity|]. split; [reflexivity|]. split; [vm_compute; reflexivity|].
  eexists. split; vm_compute; reflexivity.
Qed.

(** C110.  In the figure of running totals of HR the curve of every model ends at the number
    of steps times its cell, so the ends of the curves are in the order of the cells. *)
Theorem curves_end_in_table_order :
  forall (digits : Z -> string) (dir : string) (topk : Z) (results : list (string * json)) (extra : string) (f : figure) (n : nat)
    (m m' : string) (j j' : json) (q q' : Q),
  plot_cum_hr digits dir topk results extra = Ok f -> (0 < n)%nat ->
  (forall r, In r results -> result_of_steps n (snd r)) ->
  In (m, j) results -> In (m', j') results -> shown "hr" j q -> shown "hr" j' q' ->
  exists y y', In (m, y) (f_curves f) /\ In (m', y') (f_curves f) /\ List.length y = n /\ List.length y' = n /\
    (last y 0 == num n * q)%Q /\ (last y' 0 == num n * q')%Q /\ (last y 0 < last y' 0 <-> q < q')%Q.
Proof. exact Avg_main.curve_ends. Qed.
Print Assumptions curves_end_in_table_order.

Definition w_first := json_of (Avg_wit.get (Avg_wit.exper Avg_wit.one_sec Avg_wit.first_right [Avg_wit.small; Avg_wit.large])).
Definition w_second := json_of (Avg_wit.get (Avg_wit.exper Avg_wit.one_sec Avg_wit.second_right [Avg_wit.small; Avg_wit.large])).
Example curves_end_case :
  (exists f, plot_cum_hr (fun _ => "5"%string) "g" 5 [("SVD"%string, w_first); ("PSIRec"%string, w_second)] "" = Ok f /\
     map (fun c => (fst c, map Qred (snd c))) (f_curves f) = [("SVD"%string, [1; 1]%Q); ("PSIRec"%string, [0; 2 # 3]%Q)]) /\
  result_of_steps 2 w_first /\ result_of_steps 2 w_second /\ shown "hr" w_first (1 # 2) /\ shown "hr" w_second (1 # 3).
Proof.
  split; [eexists; split; vm_compute; reflexivity|].
  split; [split; [|split]; (eexists; split; vm_compute; reflexivity)|].
  split; [split; [|split]; (eexists; split; vm_compute; reflexivity)|].
  split; (eexists; split; vm_compute; reflexivity).
Qed.

(** C110.  Defect: on the same tests one model has more hits than the other, and the lower
    cell for HR. *)
Theorem table_ranks_by_hits_refuted :
  exists (m m' : api nat (list DataPrep_model.row) Q) (initial : list DataPrep_model.row) (stream : list (list DataPrep_model.row))
    (dyn dyn' : dynamics Q Q) (H H' : history) (lists lists' : nat -> list (list Z)) (items : nat -> list Z) (h h' : Q),
  let run mo := dynamical_experiment 0%Q Qminus sum_squares Qdiv (-(1))%Q (fun _ => 1%Q) mo grow_2d [1] true 2 0%nat initial stream in
  let hist mo Hi := runs 0%Q Qminus sum_squares Qdiv (-(1))%Q mo grow_2d [1] true 0%nat initial stream 2 Hi in
  run m = Ok dyn /\ run m' = Ok dyn' /\ hist m H /\ hist m' H' /\
  tested_in m stream 2 H lists items /\ tested_in m' stream 2 H' lists' items /\
  shown "hr" (json_of dyn) h /\ shown "hr" (json_of dyn') h' /\
  (h' < h)%Q /\ (all_hits lists items 2 < all_hits lists' items 2)%nat /\ (overall_share lists items 2 < overall_share lists' items 2)%Q.
Proof.
  assert (E1 : Avg_wit.exper Avg_wit.one_sec Avg_wit.first_right [Avg_wit.small; Avg_wit.large] =
    Ok (Avg_wit.get (Avg_wit.exper Avg_wit.one_sec Avg_wit.first_right [Avg_wit.small; Avg_wit.large]))) by (apply Avg_wit.ran; vm_compute; reflexivity).
  assert (E2 : Avg_wit.exper Avg_wit.one_sec Avg_wit.second_right [Avg_wit.small; Avg_wit.large] =
    Ok (Avg_wit.get (Avg_wit.exper Avg_wit.one_sec Avg_wit.second_right [Avg_wit.small; Avg_wit.large]))) by (apply Avg_wit.ran; vm_compute; reflexivity).
  destruct (Avg_wit.tested _ _ _ _ _ (Avg_wit.lists_of Avg_wit.first_right Avg_wit.users_sl) Avg_wit.items_sl E1) as (H & R & _ & T); [vm_compute; reflexivity ..|].
  destruct (Avg_wit.tested _ _ _ _ _ (Avg_wit.lists_of Avg_wit.second_right Avg_wit.users_sl) Avg_wit.items_sl E2) as (H' & R' & _ & T'); [vm_compute; reflexivity ..|].
  exists (Avg_wit.given Avg_wit.first_right), (Avg_wit.given Avg_wit.second_right), Avg_wit.initial, [Avg_wit.small; Avg_wit.large],
    (Avg_wit.get (Avg_wit.exper Avg_wit.one_sec Avg_wit.first_right [Avg_wit.small; Avg_wit.large])),
    (Avg_wit.get (Avg_wit.exper Avg_wit.one_sec Avg_wit.second_right [Avg_wit.small; Avg_wit.large])), H, H',
    (Avg_wit.lists_of Avg_wit.first_right Avg_wit.users_sl), (Avg_wit.lists_of Avg_wit.second_right Avg_wit.users_sl), Avg_wit.items_sl,
    (1 # 2)%Q, (1 # 3)%Q.
  cbv zeta. split; [exact E1|]. split; [exact E2|]. split; [exact R|]. split; [exact R'|]. split; [exact T|]. split; [exact T'|].
  split; [eexists; split; vm_compute; reflexivity|]. split; [eexists; split; vm_compute; reflexivity|].
  split; [vm_compute; reflexivity|]. split; [apply Nat.ltb_lt; vm_compute; reflexivity|vm_compute; reflexivity].
Qed.
Print Assumptions table_ranks_by_hits_refuted.

(** C110.  Defect: the numbers of tests are not saved; two experiments leave the same file
    although one has three times the hits of the other among as many tests. *)
Theorem hits_from_file_refuted :
  exists (m m' : api nat (list DataPrep_model.row) Q) (initial : list DataPrep_model.row) (stream stream' : list (list DataPrep_model.row))
    (dyn dyn' : dynamics Q Q) (H H' : history) (lists lists' : nat -> list (list Z)) (items items' : nat -> list Z),
  let run mo s := dynamical_experiment 0%Q Qminus sum_squares Qdiv (-(1))%Q (fun _ => 1%Q) mo grow_2d [1] true 2 0%nat initial s in
  let hist mo s Hi := runs 0%Q Qminus sum_squares Qdiv (-(1))%Q mo grow_2d [1] true 0%nat initial s 2 Hi in
  run m stream = Ok dyn /\ run m' stream' = Ok dyn' /\ hist m stream H /\ hist m' stream' H' /\
  tested_in m stream 2 H lists items /\ tested_in m' stream' 2 H' lists' items' /\
  same_numbers (json_of dyn) (json_of dyn') /\ all_tests items 2 = 4%nat /\ all_tests items' 2 = 4%nat /\
  all_hits lists items 2 = 1%nat /\ all_hits lists' items' 2 = 3%nat.
Proof.
  assert (E1 : Avg_wit.exper Avg_wit.one_sec Avg_wit.first_right [Avg_wit.small; Avg_wit.large] =
    Ok (Avg_wit.get (Avg_wit.exper Avg_wit.one_sec Avg_wit.first_right [Avg_wit.small; Avg_wit.large]))) by (apply Avg_wit.ran; vm_compute; reflexivity).
  assert (E2 : Avg_wit.exper Avg_wit.one_sec Avg_wit.large_right [Avg_wit.large; Avg_wit.small] =
    Ok (Avg_wit.get (Avg_wit.exper Avg_wit.one_sec Avg_wit.large_right [Avg_wit.large; Avg_wit.small]))) by (apply Avg_wit.ran; vm_compute; reflexivity).
  destruct (Avg_wit.tested _ _ _ _ _ (Avg_wit.lists_of Avg_wit.first_right Avg_wit.users_sl) Avg_wit.items_sl E1) as (H & R & _ & T); [vm_compute; reflexivity ..|].
  destruct (Avg_wit.tested _ _ _ _ _ (Avg_wit.lists_of Avg_wit.large_right Avg_wit.users_ls) Avg_wit.items_ls E2) as (H' & R' & _ & T'); [vm_compute; reflexivity ..|].
  exists (Avg_wit.given Avg_wit.first_right), (Avg_wit.given Avg_wit.large_right), Avg_wit.initial,
    [Avg_wit.small; Avg_wit.large], [Avg_wit.large; Avg_wit.small],
    (Avg_wit.get (Avg_wit.exper Avg_wit.one_sec Avg_wit.first_right [Avg_wit.small; Avg_wit.large])),
    (Avg_wit.get (Avg_wit.exper Avg_wit.one_sec Avg_wit.large_right [Avg_wit.large; Avg_wit.small])), H, H',
    (Avg_wit.lists_of Avg_wit.first_right Avg_wit.users_sl), (Avg_wit.lists_of Avg_wit.large_right Avg_wit.users_ls), Avg_wit.items_sl, Avg_wit.items_ls.
  cbv zeta. split; [exact E1|]. split; [exact E2|]. split; [exact R|]. split; [exact R'|]. split; [exact T|]. split; [exact T'|].
  split; [vm_compute; repeat (constructor; try reflexivity)|]. repeat split.
Qed.
Print Assumptions hits_from_file_refuted.

(** C110.  Defect: a model that is faster in every update can have the larger time in the
    table, because its training is averaged in. *)
Theorem table_ranks_update_times_refuted :
  exists (m : api nat (list DataPrep_model.row) Q) (initial : list DataPrep_model.row) (stream : list (list DataPrep_model.row))
    (clock clock' : nat -> Q) (dyn dyn' : dynamics Q Q) (c c' : Q),
  let run cl := dynamical_experiment 0%Q Qminus sum_squares Qdiv (-(1))%Q cl m grow_2d [1] true 2 0%nat initial stream in
  run clock = Ok dyn /\ run clock' = Ok dyn' /\ shown "calculation_time" (json_of dyn) c /\ shown "calculation_time" (json_of dyn') c' /\
  (forall t, (0 < t)%nat -> (clock t < clock' t)%Q) /\ (c' < c)%Q.
Proof.
  exists (Avg_wit.given Avg_wit.first_right), Avg_wit.initial, [Avg_wit.small; Avg_wit.large],
    (fun t => match t with O => 10 | _ => 1 end)%Q, (fun t => match t with O => 2 | _ => 2 end)%Q.
  eexists. eexists. exists 4%Q, 2%Q. cbv zeta.
  split; [vm_compute; reflexivity|]. split; [vm_compute; reflexivity|].
  split; [eexists; split; vm_compute; reflexivity|]. split; [eexists; split; vm_compute; reflexivity|].
  split; [|vm_compute; reflexivity]. intros [|t] Ht; [inversion Ht|vm_compute; reflexivity].
Qed.
Print Assumptions table_ranks_update_times_refuted.
