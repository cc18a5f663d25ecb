(** Property C83: from the prepared table to the reported series. *)
From Coq Require Import ZArith QArith List.
From Verif Require Import Prelude DataPrep_model DataPrep_spec History_model History_spec Eval_spec Recommend_model Recommend_spec Psi_model Psi_spec Tirec_model Tirec_spec
  Tables_model Stream_model Stream_spec Tensor_model Matrix_model Attention_model LinAlg_model Num_model Tucker_model Hooi_model Upd_model Nti_model
  Dynamic_model Dynamic_spec Full_spec Full_model Seqx_spec Seqx_model Tdx_spec Tdx_model Pipe_model Pipe_spec Prow_spec.
Set Warnings "-notation-overridden".
From mathcomp Require Import all_ssreflect all_algebra.
From Verif Require Import LinAlg_spec Tucker_spec Hooi_spec Upd_spec Exact_spec Num_spec Nti_spec.
From Verif Require Pipe_main Prow_main Pipe_num Full_main Full_num Seqx_num Tdx_num Full_wit Num_wit Seqx_wit Tdx_wit Pipe_wit.
Set Implicit Arguments.
Unset Strict Implicit.
Unset Printing Implicit Defensive.
Import GRing.Theory Num.Theory.
Local Open Scope ring_scope.

(** C83.  On a numbered table in day order the experiment trains on the first [cut] rows (as
    they are or cropped) and runs over the others in groups that follow each other in time; no
    initial row is later than a group; the model gets the user, item, time and relevance of
    every row.  The stability test takes at most 50 users, who are in
    the initial table and in a processed group, and all such users if there are no more. *)
Theorem pipeline_order :
  forall (S D A V T : Type) (zero : A) (sub : A -> A -> A) (norm : mat A -> V) (div : V -> V -> V) (minus_one : V) (clock : nat -> T)
    (m : api S D A) (grow : D -> list irow -> res D) (chunk_mode : bool) (entry : list irow -> res D) (users_of : D -> list Z)
    (sort_days : list trow -> list trow) (sort_counts : list (Z * Z) -> list (Z * Z)),
  sorts_by tb_day sort_days -> sorts_by snd sort_counts ->
  (forall rows d, entry rows = Ok d -> forall u, List.In u (users_of d) <-> List.In u (List.map r_user rows)) ->
  forall (data : list trow) (cut : Z) (hm_min : option Z) (how_many : Z) (st0 : S), Z.lt 0 how_many -> in_day_order data ->
  let full := full_dynamical_experiment zero sub norm div minus_one clock m grow chunk_mode entry users_of sort_days sort_counts data cut hm_min how_many st0 in
  let initial := List.firstn (Z.to_nat cut) data in
  exists stream left, prepare_data_for_experiment tb_index tb_day sort_days data cut hm_min = Ok (initial, stream, left) /\
  let groups := List.map snd stream in
  splits (List.skipn (Z.to_nat cut) data) groups /\
  (forall r g r', List.In r initial -> List.In g groups -> List.In r' g -> Z.le (tb_day r) (tb_day r')) /\
  exists rows chunks, List.Forall2 model_row initial rows /\ List.Forall2 (List.Forall2 model_row) groups chunks /\
  match entry rows with
  | Err e => full = Err e
  | Ok d => let test := stability_users users_of sort_counts d left how_many in
      selected (n_steps how_many (length groups)) initial groups test /\
      full = dynamical_experiment zero sub norm div minus_one clock m grow test chunk_mode how_many st0 d chunks
  end.
Proof.
  move=> S D A V T zero sub norm div mo clock m grow mode entry users sd sc SD SC KU data cut hmin hm st0 HM HO full initial.
  case: (@Pipe_main.pipe_main S D A V T zero sub norm div mo clock m grow mode entry users sd sc SD SC KU data cut hmin hm st0 HM HO) => stream [left [E [H1 [H2 H3]]]].
  exists stream, left. split; [exact: E|]. split; [exact: H1|]. split; [exact: H2|].
  exists (List.map content initial), (List.map (List.map content) (List.map snd stream)).
  split; [exact: Prow_main.content_rows|]. split; [exact: Prow_main.content_groups|exact: H3].
Qed.
Print Assumptions pipeline_order.

(** Both ways of preparing the initial table keep its users. *)
Example pipeline_order_case :
  (forall rows d, entry_2d rows = Ok d -> forall u, List.In u (users_2d d) <-> List.In u (List.map r_user rows)) /\
  (forall L rows d, entry_3d L rows = Ok d -> forall u, List.In u (users_3d d) <-> List.In u (List.map r_user rows)) /\
  (forall A (key : A -> Z), sorts_by key (Pipe_wit.p_sort key)) /\
  in_day_order Pipe_wit.p_shared /\
  exists dyn, Pipe_wit.p_run 2 Pipe_wit.p_shared (Zpos 3) = Ok dyn /\ d_hr dyn = [:: Full_wit.q0; Full_wit.q1].
Proof.
  split; [exact: Pipe_main.keeps_2d|]. split; [exact: Pipe_main.keeps_3d|]. split; [exact: Pipe_wit.p_sorts|]. split; [exact: (proj1 Pipe_wit.p_ordered)|].
  case: Pipe_wit.p_result => dyn [E [H _]]. exists dyn. split; [exact: E|exact: H].
Qed.

(** C83.  Two tables that differ only in later days: on the days they share the experiments
    that get through report the same HR, MRR, norms and changes of the embeddings. *)
Theorem pipeline_ignores_later_days :
  forall (S D A V T : Type) (zero : A) (sub : A -> A -> A) (norm : mat A -> V) (div : V -> V -> V) (minus_one : V) (clock : nat -> T)
    (m : api S D A) (grow : D -> list irow -> res D) (chunk_mode : bool) (entry : list irow -> res D) (users_of : D -> list Z)
    (sort_days : list trow -> list trow) (sort_counts : list (Z * Z) -> list (Z * Z))
    (shared later later' : list trow) (cut how_many : Z) (st0 : S) (dyn dyn' : dynamics T V),
  let full data := full_dynamical_experiment zero sub norm div minus_one clock m grow chunk_mode entry users_of sort_days sort_counts data cut None how_many st0 in
  Z.lt 0 how_many -> in_day_order (shared ++ later) -> in_day_order (shared ++ later') -> Peano.le (Z.to_nat cut) (length shared) ->
  (forall x y, List.In x shared -> List.In y (later ++ later') -> Z.lt (tb_day x) (tb_day y)) ->
  full (shared ++ later) = Ok dyn -> full (shared ++ later') = Ok dyn' ->
  let k := Nat.min (Z.to_nat how_many) (length (List.nodup Z.eq_dec (List.map tb_day (List.skipn (Z.to_nat cut) shared)))) in
  List.firstn k (d_hr dyn) = List.firstn k (d_hr dyn') /\ List.firstn k (d_mrr dyn) = List.firstn k (d_mrr dyn') /\
  List.firstn (Nat.sub k 1) (rnd_users dyn) = List.firstn (Nat.sub k 1) (rnd_users dyn') /\
  List.firstn (Nat.sub k 1) (rnd_items dyn) = List.firstn (Nat.sub k 1) (rnd_items dyn') /\
  List.firstn k (nd_users dyn) = List.firstn k (nd_users dyn') /\ List.firstn k (nd_items dyn) = List.firstn k (nd_items dyn').
Proof.
  move=> S D A V T zero sub norm div mo clock m grow mode entry users sd sc shared later later' cut hm st0 dyn dyn' full.
  exact: (@Pipe_main.later_main S D A V T zero sub norm div mo clock m grow mode entry users sd sc shared later later' cut hm st0 dyn dyn').
Qed.
Print Assumptions pipeline_ignores_later_days.

(** C83, the bad side.  The stability series is not so: its users are chosen by later days, so
    its value between the first two days changes with them. *)
Theorem stability_ignores_later_days_refuted :
  svds_mat_ok Pipe_wit.p_svds /\ argpartition_contract (fun x y : rat => x <= y) Full_wit.f_argpart /\
  exists (shared later : list trow) (cut how_many : Z) (k : nat),
  in_day_order shared /\ in_day_order (shared ++ later) /\ Peano.le (Z.to_nat cut) (length shared) /\
  (forall x y, List.In x shared -> List.In y later -> Z.lt (tb_day x) (tb_day y)) /\
  let run data := full_dynamical_experiment (0 : rat) (fun x y => x - y) (fun _ => tt) (fun _ _ => tt) tt (fun _ => tt)
    (svd_api (0 : rat) +%R *%R Num_wit.o_rel Pipe_wit.p_svds Full_wit.f_argpart k (Zpos 1)) grow_2d false entry_2d users_2d
    (Pipe_wit.p_sort tb_day) (Pipe_wit.p_sort snd) data cut None how_many Num_wit.w_none in
  exists dyn dyn' w w', run shared = Ok dyn /\ run (shared ++ later) = Ok dyn' /\
    List.nth_error (d_wji dyn) 0 = Some w /\ List.nth_error (d_wji dyn') 0 = Some w' /\ ~ Qeq w w'.
Proof. split; [exact: Pipe_wit.p_svds_contract|]. split; [exact: Full_wit.f_argpart_ok|exact: Pipe_wit.p_refuted]. Qed.
Print Assumptions stability_ignores_later_days_refuted.

(** The shared days of that case; and a run stopped by one more row, of a known user with an
    unknown item on the last day, a row that is itself not tested. *)
Example pipeline_later_case :
  in_day_order Pipe_wit.p_shared /\ in_day_order (Pipe_wit.p_shared ++ Pipe_wit.p_later) /\
  (forall x y, List.In x Pipe_wit.p_shared -> List.In y ([::] ++ Pipe_wit.p_later) -> Z.lt (tb_day x) (tb_day y)) /\
  (exists dyn, Pipe_wit.p_run 2 (Pipe_wit.p_shared ++ Pipe_wit.p_later) (Zpos 3) = Ok dyn /\ d_hr dyn = [:: Full_wit.q0; Full_wit.q1; Full_wit.q0] /\
     d_mrr dyn = [:: Full_wit.q0; Full_wit.qhalf; Full_wit.q0] /\ d_wji dyn = [:: Qmake (Zpos 72) 120; Qmake (Zpos 40) 200]) /\
  in_day_order Pipe_wit.p_data /\ in_day_order (Pipe_wit.p_data ++ [:: Pipe_wit.p_extra]) /\
  Num_wit.is_ok (Pipe_wit.p_run5 2 Pipe_wit.p_data (Zpos 2)) = true /\
  Pipe_wit.p_run5 2 (Pipe_wit.p_data ++ [:: Pipe_wit.p_extra]) (Zpos 2) = Err ValueError.
Proof.
  split; [exact: (proj1 Pipe_wit.p_ordered)|]. split; [exact: (proj2 Pipe_wit.p_ordered)|]. split; [exact: Pipe_wit.p_later_days|].
  split; [exact: Pipe_wit.p_result_later|]. split; [exact: (proj1 Pipe_wit.p_ordered5)|]. split; [exact: (proj2 Pipe_wit.p_ordered5)|exact: Pipe_wit.p_stops].
Qed.

(** C83.  SVD: with a positive number of iterations the experiment runs through exactly when the
    rank is below the numbers of initial users and items, every processed group has a row to
    test, and every user concerned has [k] items left; then the stability test is not empty. *)
Theorem svd_pipeline_outcome :
  forall (R : realFieldType) (of_rel : Z -> R) (svds : mat R -> nat -> res (mat R * list R * mat R)) (argpart : nat -> list R -> nat -> list nat),
  svds_mat_ok svds -> argpartition_contract (fun x y : R => x <= y) argpart ->
  forall (k : nat) (rank : Z), Peano.le 1 k ->
  forall (V T : Type) (norm : mat R -> V) (div : V -> V -> V) (minus_one : V) (clock : nat -> T) (st0 : @num_state R)
         (sort_days : list trow -> list trow) (sort_counts : list (Z * Z) -> list (Z * Z)),
  sorts_by tb_day sort_days -> sorts_by snd sort_counts ->
  forall (data : list trow) (cut : Z) (hm_min : option Z) (how_many : Z), Z.lt 0 how_many ->
  exists initial stream left, prepare_data_for_experiment tb_index tb_day sort_days data cut hm_min = Ok (initial, stream, left) /\
  let rows := List.map content initial in
  let test := stability_users users_2d sort_counts rows left how_many in
  let chunks := List.map (fun g => List.map content g.2) stream in
  let possible := trainable rank rows /\ served k (fun _ _ => True) (fun c => c) test rows chunks (n_steps how_many (length stream)) in
  match full_dynamical_experiment 0 (fun x y => x - y) norm div minus_one clock (svd_api 0 +%R *%R of_rel svds argpart k rank) grow_2d false
          entry_2d users_2d sort_days sort_counts data cut hm_min how_many st0 with
  | Ok _ => possible
  | Err e => possible -> exists x, svds x (Z.to_nat rank) = Err e
  end.
Proof.
  move=> R of_rel svds argpart SV AP k rank K1 V T norm div mo clock st0 sd sc SD SC data cut hmin hm HM.
  exact: (@Pipe_num.outcome_2d sd sc SD SC data cut hmin hm HM (@num_state R) V T R norm div mo clock (svd_api 0 +%R *%R of_rel svds argpart k rank) st0 false
    k (fun _ _ => True) (trainable rank) (fun e => exists x, svds x (Z.to_nat rank) = Err e)
    (fun test ini stream => @Full_main.svd_outcome R of_rel svds argpart SV AP k rank K1 V T norm div mo clock test hm st0 ini stream)).
Qed.
Print Assumptions svd_pipeline_outcome.

(** C83.  PSI: the same, and every update must take its group. *)
Theorem psi_pipeline_outcome :
  forall (R : realFieldType) (of_rel : Z -> R) (qr : mat R -> res (mat R * mat R)) (svd : mat R -> res (mat R * list R * mat R))
         (rsvd : mat R -> nat -> res (mat R * list R * mat R)) (exceeds_eps : R -> bool) (argsort : list R -> list nat)
         (normal : nat -> nat -> mat R) (svds : mat R -> nat -> res (mat R * list R * mat R)) (argpart : nat -> list R -> nat -> list nat),
  qr_ok qr -> svd_ok svd -> truncated_ok rsvd -> argsort_ok (fun x y : R => x <= y) argsort -> randn_ok normal ->
  svds_mat_ok svds -> argpartition_contract (fun x y : R => x <= y) argpart ->
  forall (k : nat) (rank : Z) (cfg : psi_cfg), Peano.le 1 k ->
  forall (V T : Type) (norm : mat R -> V) (div : V -> V -> V) (minus_one : V) (clock : nat -> T) (st0 : @num_state R)
         (sort_days : list trow -> list trow) (sort_counts : list (Z * Z) -> list (Z * Z)),
  sorts_by tb_day sort_days -> sorts_by snd sort_counts ->
  forall (data : list trow) (cut : Z) (hm_min : option Z) (how_many : Z), Z.lt 0 how_many ->
  exists initial stream left, prepare_data_for_experiment tb_index tb_day sort_days data cut hm_min = Ok (initial, stream, left) /\
  let rows := List.map content initial in
  let test := stability_users users_2d sort_counts rows left how_many in
  let chunks := List.map (fun g => List.map content g.2) stream in
  let possible := trainable rank rows /\ served k (psi_fits cfg) (fun c => c) test rows chunks (n_steps how_many (length stream)) in
  match full_dynamical_experiment 0 (fun x y => x - y) norm div minus_one clock
          (psi_api 0 1 +%R *%R (fun x y => x - y) of_rel qr svd rsvd exceeds_eps argsort normal svds argpart k rank cfg) grow_2d true
          entry_2d users_2d sort_days sort_counts data cut hm_min how_many st0 with
  | Ok _ => possible
  | Err e => possible -> (exists x, svds x (Z.to_nat rank) = Err e) \/ routine_raises qr svd rsvd (Z.to_nat rank) e
  end.
Proof.
  move=> R of_rel qr svd rsvd ee argsort normal svds argpart QR SVD RS AS RN SV AP k rank cfg K1 V T norm div mo clock st0 sd sc SD SC data cut hmin hm HM.
  apply: (@Pipe_num.outcome_2d sd sc SD SC data cut hmin hm HM (@num_state R) V T R norm div mo clock
    (psi_api 0 1 +%R *%R (fun x y => x - y) of_rel qr svd rsvd ee argsort normal svds argpart k rank cfg) st0 true
    k (psi_fits cfg) (trainable rank) (fun e => (exists x, svds x (Z.to_nat rank) = Err e) \/ routine_raises qr svd rsvd (Z.to_nat rank) e)).
  move=> test ini stream. exact: Full_num.psi_outcome.
Qed.
Print Assumptions psi_pipeline_outcome.

(** C83.  TIRec and TIRecA, on the cropped initial table. *)
Theorem sequential_pipeline_outcome :
  forall (R : realFieldType) (of_val : Z -> R) (exceeds_eps is_one : R -> bool), (forall y, is_one y = true -> y = 1) ->
  forall cfg (L r0 r1 r2 : nat) (a ainv : mat R) (att : option (mat R)),
  Peano.le 2 L -> (0 < r0)%N -> (0 < r1)%N -> (0 < r2)%N -> att_shape L att -> shape L L a -> shape L L ainv ->
  forall (qr : mat R -> res (mat R * mat R)) (rand : nat -> nat -> nat -> mat R) (rsvd : nat -> mat R -> nat -> res (mat R * list R * mat R)),
  qr_ok qr -> (forall m, randn_ok (rand m)) -> inner_ok rsvd ->
  forall (N : Type) (tnorm : ten R -> N) (norm0 : N) (grew : N -> N -> bool) (n_iter : nat) (force : bool), (0 < n_iter)%N ->
  forall rt : @nti_state R -> mode -> routines R, (forall x md, rt_ok (rt x md)) ->
  forall argpart : nat -> list R -> nat -> list nat, argpartition_contract (fun x y : R => x <= y) argpart ->
  forall k : nat, Peano.le 1 k ->
  forall keep : list irow -> list irow, crops L true keep ->
  forall (V T : Type) (norm : mat R -> V) (div : V -> V -> V) (minus_one : V) (clock : nat -> T) (st0 : @nti_state R), nt_seq st0 = nil ->
  forall (sort_days : list trow -> list trow) (sort_counts : list (Z * Z) -> list (Z * Z)),
  sorts_by tb_day sort_days -> sorts_by snd sort_counts ->
  forall (data : list trow) (cut : Z) (hm_min : option Z) (how_many : Z), Z.lt 0 how_many ->
  exists initial stream left, prepare_data_for_experiment tb_index tb_day sort_days data cut hm_min = Ok (initial, stream, left) /\
  let rows := List.map content initial in
  Z.le 2 (n_items_in (keep rows)) ->
  exists d, get_df_with_cropped_pos_column rows L true = Ok d /\
  let test := stability_users users_3d sort_counts d left how_many in
  let chunks := List.map (fun g => List.map content g.2) stream in
  let possible := seq_trainable r0 r1 r2 L (keep rows) /\
                  served k (seq_fits (nc_variant cfg) L keep) keep test (keep rows) chunks (n_steps how_many (length stream)) in
  match full_dynamical_experiment 0 (fun x y => x - y) norm div minus_one clock
          (seq_api 0 1 +%R *%R (fun x y => x - y) of_val exceeds_eps is_one cfg L (r0, r1, r2) a ainv att true
             qr rand rsvd tnorm norm0 grew n_iter force rt argpart k) (grow_3d L) true
          (entry_3d L) users_3d sort_days sort_counts data cut hm_min how_many st0 with
  | Ok _ => possible
  | Err e => possible -> (exists x, qr x = Err e) \/ (exists t x r, rsvd t x r = Err e) \/ (exists x md, rt_raises (rt x md) e)
  end.
Proof.
  move=> R of_val ee io I1 cfg L r0 r1 r2 a ainv att L2 P0 P1 P2 Ha Sa Si qr rand rsvd QR RA IN N tn n0 gr ni fo NI rt RT ap AP k k1 keep KE
    V T norm div mo clock st0 E0 sd sc SD SC data cut hmin hm HM.
  apply: (@Pipe_num.outcome_3d sd sc SD SC data cut hmin hm HM (@nti_state R) V T R norm div mo clock _ st0 L keep L2 KE k (seq_fits (nc_variant cfg) L keep)
    (seq_trainable r0 r1 r2 L) (fun e => (exists x, qr x = Err e) \/ (exists t x r, rsvd t x r = Err e) \/ (exists x md, rt_raises (rt x md) e))).
  move=> test table d stream CR TW n.
  exact: (@Seqx_num.run_outcome R of_val ee io I1 cfg L r0 r1 r2 a ainv att true L2 P0 P1 P2 Ha Sa Si qr rand rsvd QR RA IN N tn n0 gr ni fo NI rt RT
    ap AP k k1 keep KE table d CR TW V T norm div mo clock test hm st0 stream E0).
Qed.
Print Assumptions sequential_pipeline_outcome.

(** C83.  TDRec, cropped after every group. *)
Theorem retrained_pipeline_outcome :
  forall (R : realFieldType) (of_val : Z -> R) (L r0 r1 r2 : nat) (a ainv : mat R),
  Peano.le 2 L -> (0 < r0)%N -> (0 < r1)%N -> (0 < r2)%N -> shape L L a -> shape L L ainv ->
  forall (qr : mat R -> res (mat R * mat R)) (rand : nat -> nat -> nat -> mat R) (rsvd : nat -> mat R -> nat -> res (mat R * list R * mat R)),
  qr_ok qr -> (forall m, randn_ok (rand m)) -> inner_ok rsvd ->
  forall (N : Type) (tnorm : ten R -> N) (norm0 : N) (grew : N -> N -> bool) (n_iter : nat) (force : bool), (0 < n_iter)%N ->
  forall argpart : nat -> list R -> nat -> list nat, argpartition_contract (fun x y : R => x <= y) argpart ->
  forall k : nat, Peano.le 1 k ->
  forall keep : list irow -> list irow, crops L true keep ->
  forall (V T : Type) (norm : mat R -> V) (div : V -> V -> V) (minus_one : V) (clock : nat -> T) (st0 : @nti_state R), nt_seq st0 = nil ->
  forall (sort_days : list trow -> list trow) (sort_counts : list (Z * Z) -> list (Z * Z)),
  sorts_by tb_day sort_days -> sorts_by snd sort_counts ->
  forall (data : list trow) (cut : Z) (hm_min : option Z) (how_many : Z), Z.lt 0 how_many ->
  exists initial stream left, prepare_data_for_experiment tb_index tb_day sort_days data cut hm_min = Ok (initial, stream, left) /\
  let rows := List.map content initial in
  let chunks := List.map (fun g => List.map content g.2) stream in
  let n := n_steps how_many (length stream) in
  (forall t, Peano.le t n -> Z.le 2 (n_items_in (recropped keep rows chunks t))) ->
  exists d, get_df_with_cropped_pos_column rows L true = Ok d /\
  let test := stability_users users_3d sort_counts d left how_many in
  let possible := retrain_served r0 r1 r2 L k keep test rows chunks n in
  match full_dynamical_experiment 0 (fun x y => x - y) norm div minus_one clock
          (td_api 0 +%R *%R of_val L (r0, r1, r2) a ainv qr rand rsvd tnorm norm0 grew n_iter force argpart k) (grow_3d L) false
          (entry_3d L) users_3d sort_days sort_counts data cut hm_min how_many st0 with
  | Ok _ => possible /\ (Peano.le 2 n -> items_stay keep rows chunks 0)
  | Err e => possible /\ (forall t, Peano.lt t.+1 n -> items_stay keep rows chunks t) ->
      (exists x, qr x = Err e) \/ (exists t x r, rsvd t x r = Err e)
  end.
Proof.
  move=> R of_val L r0 r1 r2 a ainv L2 P0 P1 P2 Sa Si qr rand rsvd QR RA IN N tn n0 gr ni fo NI ap AP k k1 keep KE V T norm div mo clock st0 E0
    sd sc SD SC data cut hmin hm HM.
  apply: (@Pipe_num.outcome_td sd sc SD SC data cut hmin hm HM (@nti_state R) V T R norm div mo clock _ st0 L keep L2 KE k r0 r1 r2
    (fun e => (exists x, qr x = Err e) \/ (exists t x r, rsvd t x r = Err e))).
  move=> test table d stream CR n TW.
  exact: (@Tdx_num.run_outcome R of_val L r0 r1 r2 a ainv L2 P0 P1 P2 Sa Si qr rand rsvd QR RA IN N tn n0 gr ni fo NI
    ap AP k k1 keep KE V T norm div mo clock test hm st0 table d stream CR E0 TW).
Qed.
Print Assumptions retrained_pipeline_outcome.

(** Runs that get through: TIRecA with groups of two rows or more (the last day joins the
    first), TDRec with one group per day. *)
Example pipeline_3d_case :
  in_day_order Pipe_wit.p_seq /\
  (exists dyn, Pipe_wit.p_run_seq = Ok dyn /\ d_hr dyn = [:: Full_wit.q1] /\ d_mrr dyn = [:: Full_wit.q1] /\ d_wji dyn = [::]) /\
  (exists dyn, Pipe_wit.p_run_td = Ok dyn /\ d_hr dyn = [:: Full_wit.q1; Full_wit.q0] /\ d_mrr dyn = [:: Full_wit.q1; Full_wit.q0] /\ d_wji dyn = [:: Qmake Z0 2]).
Proof. split; [exact: Pipe_wit.p_ordered_seq|]. split; [exact: Pipe_wit.p_seq_result|exact: Pipe_wit.p_td_result]. Qed.
