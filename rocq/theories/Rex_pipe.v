(** The experiment with the re-initialised model on a prepared table. *)
From Coq Require Import ZArith QArith Lia List.
From Verif Require Import Prelude DataPrep_model DataPrep_spec History_model History_spec Eval_spec Recommend_model Recommend_spec
  Tables_model Stream_model Stream_spec Tensor_model Matrix_model LinAlg_model Dynamic_model Dynamic_spec Full_spec Full_model Seqx_spec Seqx_model Pipe_model Pipe_spec Pipe_main Rex_spec.
From Verif Require Retrain_main.

Lemma reinitialisable_served r0 r1 r2 L k initial groups test d tables n : selected n initial groups test ->
  tables 0%nat = d -> (forall u, In u (map r_user (map p_row d)) -> In u (map tb_user initial)) -> (n <= length groups)%nat ->
  (reinitialisable r0 r1 r2 L k test (map (map content) groups) tables n <-> reinit_served r0 r1 r2 L k test (map (map content) groups) tables n).
Proof.
  intros SE T0 U Ln. unfold reinitialisable, reinit_served. split; [tauto|]. intros (H1 & H). split; [exact H1|]. split; [exact H|]. intro L2.
  destruct (nth_error groups 0) as [g|] eqn:Eg; [|apply nth_error_None in Eg; lia].
  assert (Ec : nth_error (map (map content) groups) 0 = Some (map content g)) by (rewrite nth_error_map, Eg; auto).
  destruct (H 0%nat (map content g) ltac:(lia) Ec) as ((F & _) & _). unfold so_far in F. cbn [seq map concat] in F. rewrite app_nil_r in F.
  apply (selected_nonempty n initial groups test (kept tables 0) g); auto; [lia|]. unfold kept. rewrite T0. exact U.
Qed.

Set Warnings "-notation-overridden".
From mathcomp Require Import all_ssreflect all_algebra.
From Verif Require Import LinAlg_spec.
From Verif Require Pipe_num.
Set Implicit Arguments.
Unset Strict Implicit.
Unset Printing Implicit Defensive.
Import GRing.Theory Num.Theory.
Local Open Scope ring_scope.

Section Re.
  Variables (sort_days : list trow -> list trow) (sort_counts : list (Z * Z) -> list (Z * Z)).
  Hypothesis SD : sorts_by tb_day sort_days.
  Hypothesis SC : sorts_by snd sort_counts.
  Variables (data : list trow) (cut : Z) (hm_min : option Z) (how_many : Z).
  Hypothesis HM : Z.lt 0 how_many.
  Context {S V T : Type}.
  Variables (R : realFieldType) (norm : mat R -> V) (div : V -> V -> V) (minus_one : V) (clock : nat -> T) (m : api S (list prow) R) (st0 : S) (L : nat).

  Lemma outcome_re k r0 r1 r2 (bad : exn -> Prop) :
    (forall test table d stream tables, get_df_with_cropped_pos_column table L true = Ok d ->
       let n := n_steps how_many (length stream) in
       successive L d stream n tables -> Z.le 2 (n_items_in (List.map p_row d)) ->
       match dynamical_experiment 0 (fun x y => x - y) norm div minus_one clock m (grow_3d L) test false how_many st0 d stream with
       | Ok _ => reinitialisable r0 r1 r2 L k test stream tables n
       | Err e => reinitialisable r0 r1 r2 L k test stream tables n -> bad e
       end) ->
    exists initial stream left, prepare_data_for_experiment tb_index tb_day sort_days data cut hm_min = Ok (initial, stream, left) /\
    let rows := List.map content initial in
    let chunks := List.map (fun g => List.map content g.2) stream in
    let n := n_steps how_many (length stream) in
    forall d tables, get_df_with_cropped_pos_column rows L true = Ok d -> successive L d chunks n tables -> Z.le 2 (n_items_in (List.map p_row d)) ->
    let test := stability_users users_3d sort_counts d left how_many in
    let possible := reinit_served r0 r1 r2 L k test chunks tables n in
    match full_dynamical_experiment 0 (fun x y => x - y) norm div minus_one clock m (grow_3d L) false (entry_3d L) users_3d sort_days sort_counts
            data cut hm_min how_many st0 with
    | Ok _ => possible
    | Err e => possible -> bad e
    end.
  Proof.
    move=> H.
    have [initial [stream [left [E [_ [_ X]]]]]] := @pipe_parts S (list prow) R V T 0 (fun x y => x - y) norm div minus_one clock m (grow_3d L) false (entry_3d L) users_3d
      sort_days sort_counts SD SC (@keeps_3d L) data cut hm_min how_many st0 HM.
    exists initial, stream, left. split; first exact: E. move=> rows chunks n d tables Ed SU I2.
    have Ed' : entry_3d L rows = Ok d by exact: Ed.
    rewrite -/rows Ed' in X. cbv zeta in X. case: X => SE EQ.
    move=> test possible. rewrite EQ.
    have U : forall u, List.In u (List.map r_user (List.map p_row d)) -> List.In u (List.map tb_user initial).
      move=> u Iu. rewrite -users_content -/rows. exact: (proj1 (Retrain_main.crop_users _ _ _ _ u Ed) Iu).
    have F := @reinitialisable_served r0 r1 r2 L k initial (List.map snd stream) test d tables n SE (proj1 SU) U.
    have {}F := F ltac:(rewrite List.map_length; exact: Pipe_num.steps_le).
    have En : n_steps how_many (length chunks) = n by rewrite /chunks List.map_length.
    have := H test rows d chunks tables Ed. cbv zeta. rewrite En => /(_ SU I2). rewrite List.map_map in F. rewrite -/rows -/chunks -/test.
    case: (dynamical_experiment _ _ _ _ _ _ _ _ _ _ _ _ _ _) => [dyn H1|e H1].
    - exact: (proj1 F H1).
    - move=> P1. apply: H1. exact: (proj2 F P1).
  Qed.
End Re.

(** The run of Pipe_wit with one group per day, by the re-initialised model. *)
From Verif Require Import Rex_model Nti_wit Hooi_wit Seqx_wit Tdx_wit Full_wit Rex_wit Pipe_wit.
Definition e_pipe := full_dynamical_experiment (0 : rat) (fun x y => x - y) (fun _ => tt) (fun _ _ => tt) tt (fun _ => tt)
  (e_api 2 1) (grow_3d 2) false (entry_3d 2) users_3d (p_sort tb_day) (p_sort snd) p_seq (Zpos 3) None (Zpos 2) x_none.
Lemma e_pipe_result : exists dyn, e_pipe = Ok dyn /\ d_hr dyn = [:: q1; q0] /\ d_mrr dyn = [:: q1; q0] /\ d_wji dyn = [:: Qmake Z0 2].
Proof. apply: numbers_ok. vm_compute. reflexivity. Qed.
