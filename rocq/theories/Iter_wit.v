(** Concrete experiments with different numbers of iterations. *)
From Coq Require Import ZArith Lia QArith List.
From Verif Require Import Prelude DataPrep_model History_model Tirec_model Tables_model Stream_model Stream_spec Tensor_model Matrix_model LinAlg_model Num_model
  Dynamic_model Dynamic_spec Full_spec Full_model Pipe_model Pipe_spec Iter_model Iter_spec.
Set Warnings "-notation-overridden".
From mathcomp Require Import all_ssreflect all_algebra.
From Verif Require Import LinAlg_spec Num_spec Num_wit Full_wit Pipe_wit.
Set Implicit Arguments.
Unset Strict Implicit.
Unset Printing Implicit Defensive.
Import GRing.Theory Num.Theory.
Local Open Scope ring_scope.

(** Three days after the initial table. *)
Definition it_data : list trow := p_shared ++ p_later.
Definition it_run (how_many : Z) := experiment_for (0 : rat) (fun x y => x - y) (fun _ => tt) (fun _ _ => tt) tt (fun _ => tt)
  (p_svd 2) grow_2d false entry_2d users_2d (p_sort tb_day) (p_sort snd) it_data (Zpos 4) None how_many w_none.
Lemma it_two : exists dyn, it_run (Zpos 2) = Ok dyn /\ d_hr dyn = [:: q0; q1] /\ d_mrr dyn = [:: q0; qhalf] /\ d_wji dyn = [:: Qmake (Zpos 6) 6].
Proof. apply: numbers_ok. vm_compute. reflexivity. Qed.
Lemma it_three : exists dyn, it_run (Zpos 3) = Ok dyn /\ d_hr dyn = [:: q0; q1; q0] /\ d_mrr dyn = [:: q0; qhalf; q0] /\
  d_wji dyn = [:: Qmake (Zpos 72) 120; Qmake (Zpos 40) 200].
Proof. apply: numbers_ok. vm_compute. reflexivity. Qed.
(** All but the last day, all but the last two: user 2 alone is looked at. *)
Lemma it_minus_one : exists dyn, it_run (Zneg 1) = Ok dyn /\ d_hr dyn = [:: q0; q1; q0] /\ d_mrr dyn = [:: q0; qhalf; q0] /\
  d_wji dyn = [:: Qmake (Zpos 6) 6; Qmake (Zpos 2) 10].
Proof. apply: numbers_ok. vm_compute. reflexivity. Qed.
Lemma it_minus_two : exists dyn, it_run (Zneg 2) = Ok dyn /\ d_hr dyn = [:: q0; q1; q0] /\ d_mrr dyn = [:: q0; qhalf; q0] /\
  d_wji dyn = [:: Qmake (Zpos 6) 6; Qmake (Zpos 2) 10].
Proof. apply: numbers_ok. vm_compute. reflexivity. Qed.
Lemma it_nobody : it_run (Zneg 3) = Err ZeroDivisionError /\ it_run Z0 = Err ZeroDivisionError.
Proof. split; vm_compute; reflexivity. Qed.
Lemma it_refuted : exists (data : list trow) (cut : Z) (how_many how_many' : Z) (k : nat),
  in_day_order data /\ Z.lt 0 how_many /\ Z.lt how_many how_many' /\
  let run hm := experiment_for (0 : rat) (fun x y => x - y) (fun _ => tt) (fun _ _ => tt) tt (fun _ => tt)
    (p_svd k) grow_2d false entry_2d users_2d (p_sort tb_day) (p_sort snd) data cut None hm w_none in
  exists dyn dyn' w w', run how_many = Ok dyn /\ run how_many' = Ok dyn' /\
    List.nth_error (d_wji dyn) 0 = Some w /\ List.nth_error (d_wji dyn') 0 = Some w' /\ ~ Qeq w w'.
Proof.
  have [d1 [E1 [_ [_ W1]]]] := it_two. have [d2 [E2 [_ [_ W2]]]] := it_three.
  exists it_data, (Zpos 4), (Zpos 2), (Zpos 3), 2%N. split; [exact: (proj2 p_ordered)|].
  split; [vm_compute; reflexivity|]. split; [vm_compute; reflexivity|].
  move=> run. exists d1, d2, (Qmake (Zpos 6) 6), (Qmake (Zpos 72) 120).
  split; [exact: E1|]. split; [exact: E2|]. split; [by rewrite W1|]. split; [by rewrite W2|].
  vm_compute. discriminate.
Qed.
(** Three groups; the same test users for -1 and for 2. *)
Lemma it_groups : exists initial stream left,
  prepare_data_for_experiment tb_index tb_day (p_sort tb_day) it_data (Zpos 4) None = Ok (initial, stream, left) /\ length stream = 3%N /\
  processed (Zpos 2) (length stream) 2 /\ processed (Zneg 1) (length stream) 3 /\
  looked_at (Zpos 2) (length stream) 2 /\ looked_at (Zneg 1) (length stream) 2 /\ looked_at (Zneg 3) (length stream) 0 /\
  test_users_for users_2d (p_sort snd) (List.map content initial) left (Zpos 2) = [:: Zpos 2] /\
  test_users_for users_2d (p_sort snd) (List.map content initial) left (Zneg 1) = [:: Zpos 2] /\
  test_users_for users_2d (p_sort snd) (List.map content initial) left (Zpos 3) = [:: Zpos 1; Zpos 2].
Proof.
  case E: (prepare_data_for_experiment tb_index tb_day (p_sort tb_day) it_data (Zpos 4) None) => [[[initial stream] left]|e]; last by move: E; vm_compute.
  have F : match prepare_data_for_experiment tb_index tb_day (p_sort tb_day) it_data (Zpos 4) None with
    | Ok (i, s, l) => (length s, test_users_for users_2d (p_sort snd) (List.map content i) l (Zpos 2),
        test_users_for users_2d (p_sort snd) (List.map content i) l (Zneg 1), test_users_for users_2d (p_sort snd) (List.map content i) l (Zpos 3))
    | Err _ => (0%N, [::], [::], [::]) end = (3%N, [:: Zpos 2], [:: Zpos 2], [:: Zpos 1; Zpos 2]).
  { vm_compute. reflexivity. }
  rewrite E in F. case: F => F1 F2 F3 F4. exists initial, stream, left. split; [by []|]. split; [exact: F1|]. rewrite F1 F2 F3 F4.
  rewrite /processed /looked_at. repeat (split; [lia|]). by [].
Qed.
Lemma it_empty : looked_at (Zneg 3) 3 0 /\ looked_at Z0 3 0.
Proof. rewrite /looked_at. repeat split; lia. Qed.
Lemma it_no_lists s l : recommend (p_svd 2) s [::] true = Ok l -> l = [::].
Proof. change ((if ~~ Recommend_model.history_fits (Recommend_model.rs_history (num_rec (0 : rat) +%R *%R s)) (Recommend_model.rs_n_users (num_rec (0 : rat) +%R *%R s)) (Recommend_model.rs_n_items (num_rec (0 : rat) +%R *%R s)) then Err ValueError else Ok [::]) = Ok l -> l = [::]). by case: ifP => _ // [<-]. Qed.
