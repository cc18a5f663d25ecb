(** Whole experiments on a prepared table with the models of the repository. *)
From Coq Require Import ZArith QArith Lia.
From Verif Require Import Prelude DataPrep_model DataPrep_spec History_model History_spec Eval_spec Recommend_model Recommend_spec Psi_model Psi_spec Tirec_model Tirec_spec
  Tables_model Stream_model Stream_spec Tensor_model Matrix_model Attention_model LinAlg_model Num_model Tucker_model Hooi_model Upd_model Nti_model
  Dynamic_model Dynamic_spec Full_spec Full_model Seqx_spec Seqx_model Tdx_spec Tdx_book Tdx_model Pipe_model Pipe_spec Pipe_main.
Set Warnings "-notation-overridden".
From mathcomp Require Import all_ssreflect all_algebra.
From Verif Require Import LinAlg_spec Tucker_spec Hooi_spec Upd_spec Exact_spec Num_spec Nti_spec.
From Verif Require Full_num Full_main Seqx_num Tdx_num.
Set Implicit Arguments.
Unset Strict Implicit.
Unset Printing Implicit Defensive.
Import GRing.Theory Num.Theory.
Local Open Scope ring_scope.

Lemma steps_le hm n : Peano.le (n_steps hm n) n.
Proof. rewrite /n_steps. case: (Z.ltb _ _); lia. Qed.

Section Two.
  Variables (sort_days : list trow -> list trow) (sort_counts : list (Z * Z) -> list (Z * Z)).
  Hypothesis SD : sorts_by tb_day sort_days.
  Hypothesis SC : sorts_by snd sort_counts.
  Variables (data : list trow) (cut : Z) (hm_min : option Z) (how_many : Z).
  Hypothesis HM : Z.lt 0 how_many.
  Context {S V T : Type}.
  Variables (R : realFieldType) (norm : mat R -> V) (div : V -> V -> V) (minus_one : V) (clock : nat -> T) (m : api S (list irow) R) (st0 : S).

  (** The part common to SVD and PSI. *)
  Lemma outcome_2d (mode : bool) k fits (able : list irow -> Prop) (bad : exn -> Prop) :
    (forall test ini stream, let n := n_steps how_many (length stream) in
       match dynamical_experiment 0 (fun x y => x - y) norm div minus_one clock m grow_2d test mode how_many st0 ini stream with
       | Ok _ => able ini /\ feasible k fits (fun c => c) test ini stream n
       | Err e => able ini /\ feasible k fits (fun c => c) test ini stream n -> bad e
       end) ->
    exists initial stream left, prepare_data_for_experiment tb_index tb_day sort_days data cut hm_min = Ok (initial, stream, left) /\
    let rows := List.map content initial in
    let test := stability_users users_2d sort_counts rows left how_many in
    let chunks := List.map (fun g => List.map content g.2) stream in
    let possible := able rows /\ served k fits (fun c => c) test rows chunks (n_steps how_many (length stream)) in
    match full_dynamical_experiment 0 (fun x y => x - y) norm div minus_one clock m grow_2d mode entry_2d users_2d sort_days sort_counts
            data cut hm_min how_many st0 with
    | Ok _ => possible
    | Err e => possible -> bad e
    end.
  Proof.
    move=> H.
    have [initial [stream [left [E [_ [_ X]]]]]] := @pipe_parts S (list irow) R V T 0 (fun x y => x - y) norm div minus_one clock m grow_2d mode entry_2d users_2d
      sort_days sort_counts SD SC keeps_2d data cut hm_min how_many st0 HM.
    cbv zeta in X. case: X => SE EQ.
    exists initial, stream, left. split; first exact: E. move=> rows test chunks possible. rewrite EQ.
    have F := @feasible_served k fits (fun c => c) initial (List.map snd stream) test rows (n_steps how_many (length stream)) SE.
    have {}F := F ltac:(by rewrite /rows users_content) ltac:(rewrite List.map_length; exact: steps_le).
    have := H test rows chunks. rewrite /= {1 2 3 4}/chunks List.map_length. rewrite List.map_map in F. rewrite -/rows -/chunks -/test.
    case: (dynamical_experiment _ _ _ _ _ _ _ _ _ _ _ _ _ _) => [dyn [H1 H2]|e H1].
    - split=> //. exact: (proj1 F H2).
    - move=> [P1 P2]. apply: H1. split=> //. exact: (proj2 F P2).
  Qed.
End Two.

Section Three.
  Variables (sort_days : list trow -> list trow) (sort_counts : list (Z * Z) -> list (Z * Z)).
  Hypothesis SD : sorts_by tb_day sort_days.
  Hypothesis SC : sorts_by snd sort_counts.
  Variables (data : list trow) (cut : Z) (hm_min : option Z) (how_many : Z).
  Hypothesis HM : Z.lt 0 how_many.
  Context {S V T : Type}.
  Variables (R : realFieldType) (norm : mat R -> V) (div : V -> V -> V) (minus_one : V) (clock : nat -> T) (m : api S (list prow) R) (st0 : S).
  Variables (L : nat) (keep : list irow -> list irow).
  Hypothesis L2 : Peano.le 2 L.
  Hypothesis KEEP : crops L true keep.

  Lemma kept_users rows u : List.In u (List.map r_user (keep rows)) -> List.In u (List.map r_user rows).
  Proof. have L1 : Peano.le 1 L by lia. exact: (proj1 (@keep_users L keep rows u L1 KEEP)). Qed.

  Lemma entered rows : Z.le 2 (n_items_in (keep rows)) -> exists d, entry_3d L rows = Ok d.
  Proof.
    move=> H. have N : rows <> nil.
      move=> E. move: H. have -> : keep rows = nil; last by rewrite /n_items_in /=; lia.
      case K : (keep rows) => [|r l] //. have := @keep_incl L keep rows KEEP r. rewrite K E => /(_ (or_introl erefl)) [].
    have L1 : Peano.le 1 L by lia.
    have [d [E _]] := @History_proofs.crop_main rows L true L1 N. by exists d.
  Qed.

  (** The part common to TIRec and TIRecA. *)
  Lemma outcome_3d k fits (able : list irow -> Prop) (bad : exn -> Prop) :
    (forall test table d stream, get_df_with_cropped_pos_column table L true = Ok d -> Z.le 2 (n_items_in (keep table)) ->
       let n := n_steps how_many (length stream) in
       match dynamical_experiment 0 (fun x y => x - y) norm div minus_one clock m (grow_3d L) test true how_many st0 d stream with
       | Ok _ => able (keep table) /\ feasible k fits keep test (keep table) stream n
       | Err e => able (keep table) /\ feasible k fits keep test (keep table) stream n -> bad e
       end) ->
    exists initial stream left, prepare_data_for_experiment tb_index tb_day sort_days data cut hm_min = Ok (initial, stream, left) /\
    let rows := List.map content initial in
    Z.le 2 (n_items_in (keep rows)) ->
    exists d, get_df_with_cropped_pos_column rows L true = Ok d /\
    let test := stability_users users_3d sort_counts d left how_many in
    let chunks := List.map (fun g => List.map content g.2) stream in
    let possible := able (keep rows) /\ served k fits keep test (keep rows) chunks (n_steps how_many (length stream)) in
    match full_dynamical_experiment 0 (fun x y => x - y) norm div minus_one clock m (grow_3d L) true (entry_3d L) users_3d sort_days sort_counts
            data cut hm_min how_many st0 with
    | Ok _ => possible
    | Err e => possible -> bad e
    end.
  Proof.
    move=> H.
    have [initial [stream [left [E [_ [_ X]]]]]] := @pipe_parts S (list prow) R V T 0 (fun x y => x - y) norm div minus_one clock m (grow_3d L) true (entry_3d L) users_3d
      sort_days sort_counts SD SC (@keeps_3d L) data cut hm_min how_many st0 HM.
    exists initial, stream, left. split; first exact: E. move=> rows I2. have [d Ed] := entered I2. exists d. split; first exact: Ed.
    rewrite -/rows Ed in X. cbv zeta in X. case: X => SE EQ.
    move=> test chunks possible. rewrite EQ.
    have F := @feasible_served k fits keep initial (List.map snd stream) test (keep rows) (n_steps how_many (length stream)) SE.
    have {}F := F ltac:(by move=> u /kept_users; rewrite /rows users_content) ltac:(rewrite List.map_length; exact: steps_le).
    have := H test rows d chunks Ed I2. rewrite /= {1 2 3 4}/chunks List.map_length. rewrite List.map_map in F. rewrite -/rows -/chunks -/test.
    case: (dynamical_experiment _ _ _ _ _ _ _ _ _ _ _ _ _ _) => [dyn [H1 H2]|e H1].
    - split=> //. exact: (proj1 F H2).
    - move=> [P1 P2]. apply: H1. split=> //. exact: (proj2 F P2).
  Qed.

  (** TDRec. *)
  Lemma outcome_td k r0 r1 r2 (bad : exn -> Prop) :
    (forall test table d stream, get_df_with_cropped_pos_column table L true = Ok d ->
       let n := n_steps how_many (length stream) in
       (forall t, Peano.le t n -> Z.le 2 (n_items_in (recropped keep table stream t))) ->
       match dynamical_experiment 0 (fun x y => x - y) norm div minus_one clock m (grow_3d L) test false how_many st0 d stream with
       | Ok _ => retrainable r0 r1 r2 L k keep test table stream n /\ (Peano.le 2 n -> items_stay keep table stream 0)
       | Err e => retrainable r0 r1 r2 L k keep test table stream n /\ (forall t, Peano.lt t.+1 n -> items_stay keep table stream t) -> bad e
       end) ->
    exists initial stream left, prepare_data_for_experiment tb_index tb_day sort_days data cut hm_min = Ok (initial, stream, left) /\
    let rows := List.map content initial in
    let chunks := List.map (fun g => List.map content g.2) stream in
    let n := n_steps how_many (length stream) in
    (forall t, Peano.le t n -> Z.le 2 (n_items_in (recropped keep rows chunks t))) ->
    exists d, get_df_with_cropped_pos_column rows L true = Ok d /\
    let test := stability_users users_3d sort_counts d left how_many in
    let possible := retrain_served r0 r1 r2 L k keep test rows chunks n in
    match full_dynamical_experiment 0 (fun x y => x - y) norm div minus_one clock m (grow_3d L) false (entry_3d L) users_3d sort_days sort_counts
            data cut hm_min how_many st0 with
    | Ok _ => possible /\ (Peano.le 2 n -> items_stay keep rows chunks 0)
    | Err e => possible /\ (forall t, Peano.lt t.+1 n -> items_stay keep rows chunks t) -> bad e
    end.
  Proof.
    move=> H.
    have [initial [stream [left [E [_ [_ X]]]]]] := @pipe_parts S (list prow) R V T 0 (fun x y => x - y) norm div minus_one clock m (grow_3d L) false (entry_3d L) users_3d
      sort_days sort_counts SD SC (@keeps_3d L) data cut hm_min how_many st0 HM.
    exists initial, stream, left. split; first exact: E. move=> rows chunks n I2.
    have I0 : Z.le 2 (n_items_in (keep rows)) by exact: (I2 0%N (Peano.le_0_n n)).
    have [d Ed] := entered I0. exists d. split; first exact: Ed.
    rewrite -/rows Ed in X. cbv zeta in X. case: X => SE EQ.
    move=> test possible. rewrite EQ.
    have F := @retrainable_served r0 r1 r2 L k keep initial (List.map snd stream) test rows n SE.
    have {}F := F ltac:(by move=> u /kept_users; rewrite /rows users_content) ltac:(rewrite List.map_length; exact: steps_le).
    have En : n_steps how_many (length chunks) = n by rewrite /chunks List.map_length.
    have := H test rows d chunks Ed. cbv zeta. rewrite En => /(_ I2). rewrite List.map_map in F. rewrite -/rows -/chunks -/test.
    case: (dynamical_experiment _ _ _ _ _ _ _ _ _ _ _ _ _ _) => [dyn [H1 H2]|e H1].
    - split=> //. exact: (proj1 F H1).
    - move=> [P1 P2]. apply: H1. split=> //. exact: (proj2 F P1).
  Qed.
End Three.

(** The models of the repository. *)
Definition svd_pipe := fun (R : realFieldType) of_rel svds argpart SV AP k rank K1 V T norm div mo clock st0 sd sc SD SC data cut hmin hm HM =>
  @outcome_2d sd sc SD SC data cut hmin hm HM (@num_state R) V T R norm div mo clock (svd_api 0 +%R *%R of_rel svds argpart k rank) st0 false k (fun _ _ => True)
    (trainable rank) (fun e => exists x, svds x (Z.to_nat rank) = Err e)
    (fun test ini stream => @Full_main.svd_outcome R of_rel svds argpart SV AP k rank K1 V T norm div mo clock test hm st0 ini stream).
