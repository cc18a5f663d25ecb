(** Concrete whole experiments on prepared tables. *)
From Coq Require Import ZArith Lia QArith Permutation Sorting.Sorted List.
From Verif Require Import Prelude Prelude_proofs DataPrep_model DataPrep_spec History_model Eval_spec Recommend_model Recommend_spec Psi_model Tirec_model
  Tables_model Stream_model Stream_spec Tensor_model Matrix_model LinAlg_model Num_model Dynamic_model Dynamic_spec Full_spec Full_model Seqx_spec Seqx_model Tdx_spec Tdx_model
  Pipe_model Pipe_spec.
Set Warnings "-notation-overridden".
From mathcomp Require Import all_ssreflect all_algebra.
From Verif Require Import LinAlg_spec LinAlg_tables LinAlg_wit Upd_spec Num_spec Upd_wit Exact_wit Hooi_wit Num_wit Full_wit Nti_wit Seqx_wit Tdx_wit.
Set Implicit Arguments.
Unset Strict Implicit.
Unset Printing Implicit Defensive.
Import GRing.Theory Num.Theory.
Local Open Scope ring_scope.

(** A sort that is stable. *)
Definition p_sort {A} (key : A -> Z) : list A -> list A := Prelude.sort_stable (fun x y => Z.leb (key x) (key y)).
Lemma p_sorts A (key : A -> Z) : sorts_by key (p_sort key).
Proof.
  move=> l. split; first exact: Prelude_proofs.sort_stable_perm.
  have H := @Prelude_proofs.sort_stable_sorted A (fun x y => Z.leb (key x) (key y)) (fun x y => Zleb_total (key x) (key y)) (fun x y z => @Zleb_trans (key x) (key y) (key z)) l.
  rewrite -/(p_sort key l) in H. move: H. elim: (p_sort key l) => [|x s IH] H; first by constructor.
  inversion H as [|x' s' H1 F]; subst. constructor; first exact: (IH H1).
  elim: F => [|y s' E _ IH']; constructor=> //. exact: (proj1 (Z.leb_le _ _) E).
Qed.

(** User 1 to 3 in the initial table; on day 1 user 2 takes item 10, on day 2 user 2 item 30
    and a new user a new item; on day 3 user 1 takes item 20. *)
Definition p_row4 (i u j d v : nat) : trow := mkT (Z.of_nat i) (Z.of_nat u) (Z.of_nat j) (Z.of_nat d) (Z.of_nat d) (Z.of_nat v).
Definition p_shared : list trow :=
  [:: p_row4 0 1 10 0 12; p_row4 1 2 20 0 12; p_row4 2 3 30 0 2; p_row4 3 3 40 0 1; p_row4 4 2 10 1 7; p_row4 5 4 50 2 100; p_row4 6 2 30 2 5].
Definition p_later : list trow := [:: p_row4 7 1 20 3 5].
Definition p_svds_tab : list (mat rat * (mat rat * list rat * mat rat)) :=
  g_svds_tab ++ [:: (mkMat 4 5 [:: 12%:Q; 5%:Q; 0; 0; 0; 7%:Q; 12%:Q; 5%:Q; 0; 0; 0; 0; 2%:Q; 1; 0; 0; 0; 0; 0; 100%:Q],
       (col [:: 0; 0; 0; 1], [:: 100%:Q], rw [:: 0; 0; 0; 0; 1]))].
Definition p_svds := trunc_lookup p_svds_tab.
Lemma p_svds_contract : svds_mat_ok p_svds.
Proof. apply: f_svds_ok. by vm_compute. Qed.
Definition p_svd k := svd_api (0 : rat) +%R *%R o_rel p_svds f_argpart k (Zpos 1).
Definition p_run k (data : list trow) (how_many : Z) := full_dynamical_experiment (0 : rat) (fun x y => x - y) (fun _ => tt) (fun _ _ => tt) tt (fun _ => tt)
  (p_svd k) grow_2d false entry_2d users_2d (p_sort tb_day) (p_sort snd) data (Zpos 4) None how_many w_none.
Lemma p_order (data : list trow) : List.map tb_index data = zrange (length data) -> p_sort tb_day data = data -> in_day_order data.
Proof. move=> E1 E2. split; first exact: E1. rewrite -E2. exact: (proj2 (p_sorts tb_day data)). Qed.
Lemma p_ordered : in_day_order p_shared /\ in_day_order (p_shared ++ p_later).
Proof. split; apply: p_order; vm_compute; reflexivity. Qed.
Lemma p_result : exists dyn, p_run 2 p_shared (Zpos 3) = Ok dyn /\ d_hr dyn = [:: q0; q1] /\ d_mrr dyn = [:: q0; qhalf] /\ d_wji dyn = [:: Qmake (Zpos 6) 6].
Proof. apply: numbers_ok. vm_compute. reflexivity. Qed.
Lemma p_result_later : exists dyn, p_run 2 (p_shared ++ p_later) (Zpos 3) = Ok dyn /\
  d_hr dyn = [:: q0; q1; q0] /\ d_mrr dyn = [:: q0; qhalf; q0] /\ d_wji dyn = [:: Qmake (Zpos 72) 120; Qmake (Zpos 40) 200].
Proof. apply: numbers_ok. vm_compute. reflexivity. Qed.

(** User 3 has three of the four items.  On day 2 user 1 takes item 20, and then user 3 an item
    nobody has heard of. *)
Definition p_data : list trow :=
  [:: p_row4 0 1 10 0 12; p_row4 1 2 20 0 12; p_row4 2 3 30 0 2; p_row4 3 3 40 0 1; p_row4 4 3 10 0 0; p_row4 5 2 10 1 7; p_row4 6 1 20 2 0].
Definition p_extra : trow := p_row4 7 3 99 2 1.
Definition p_run5 k (data : list trow) (how_many : Z) := full_dynamical_experiment (0 : rat) (fun x y => x - y) (fun _ => tt) (fun _ _ => tt) tt (fun _ => tt)
  (p_svd k) grow_2d false entry_2d users_2d (p_sort tb_day) (p_sort snd) data (Zpos 5) None how_many w_none.
Lemma p_stops : is_ok (p_run5 2 p_data (Zpos 2)) = true /\ p_run5 2 (p_data ++ [:: p_extra]) (Zpos 2) = Err ValueError.
Proof. split; vm_compute; reflexivity. Qed.
Lemma p_ordered5 : in_day_order p_data /\ in_day_order (p_data ++ [:: p_extra]).
Proof. split; apply: p_order; vm_compute; reflexivity. Qed.

Lemma p_later_days : forall x y, List.In x p_shared -> List.In y ([::] ++ p_later) -> Z.lt (tb_day x) (tb_day y).
Proof.
  move=> x y Hx [<-|[]]. have F : List.forallb (fun x => Z.ltb (tb_day x) 3) p_shared = true by vm_compute.
  exact: (proj1 (Z.ltb_lt _ _) (proj1 (List.forallb_forall _ _) F x Hx)).
Qed.
Lemma p_refuted : exists (shared later : list trow) (cut how_many : Z) (k : nat),
  in_day_order shared /\ in_day_order (shared ++ later) /\ Peano.le (Z.to_nat cut) (length shared) /\
  (forall x y, List.In x shared -> List.In y later -> Z.lt (tb_day x) (tb_day y)) /\
  let run data := full_dynamical_experiment (0 : rat) (fun x y => x - y) (fun _ => tt) (fun _ _ => tt) tt (fun _ => tt)
    (p_svd k) grow_2d false entry_2d users_2d (p_sort tb_day) (p_sort snd) data cut None how_many w_none in
  exists dyn dyn' w w', run shared = Ok dyn /\ run (shared ++ later) = Ok dyn' /\
    List.nth_error (d_wji dyn) 0 = Some w /\ List.nth_error (d_wji dyn') 0 = Some w' /\ ~ Qeq w w'.
Proof.
  have [d1 [E1 [_ [_ W1]]]] := p_result. have [d2 [E2 [_ [_ W2]]]] := p_result_later.
  exists p_shared, p_later, (Zpos 4), (Zpos 3), 2%N. split; [exact: (proj1 p_ordered)|]. split; [exact: (proj2 p_ordered)|].
  split; [apply/ssrnat.leP; vm_compute; reflexivity|]. split; [exact: p_later_days|].
  move=> run. exists d1, d2, (Qmake (Zpos 6) 6), (Qmake (Zpos 72) 120).
  split; [exact: E1|]. split; [exact: E2|]. split; [by rewrite W1|]. split; [by rewrite W2|].
  vm_compute. discriminate.
Qed.

(** TIRecA on two users and three items, then two days. *)
Definition p_row3 (i u j t d : nat) : trow := mkT (Z.of_nat i) (Z.of_nat u) (Z.of_nat j) (Z.of_nat t) (Z.of_nat d) 1.
Definition p_seq : list trow :=
  [:: p_row3 0 5 10 1 1; p_row3 1 5 20 2 1; p_row3 2 6 30 2 1; p_row3 3 6 20 3 3; p_row3 4 7 40 4 3; p_row3 5 6 10 5 5].
Definition p_run_seq := full_dynamical_experiment (0 : rat) (fun x y => x - y) (fun _ => tt) (fun _ _ => tt) tt (fun _ => tt)
  (x_api VTIRecAInt 1) (grow_3d 2) true (entry_3d 2) users_3d (p_sort tb_day) (p_sort snd) p_seq (Zpos 3) (Some (Zpos 1)) (Zpos 2) x_none.
Definition p_run_td := full_dynamical_experiment (0 : rat) (fun x y => x - y) (fun _ => tt) (fun _ _ => tt) tt (fun _ => tt)
  (td_api (0 : rat) +%R *%R f_of 2 (1, 1, 1)%N (t_id 2) (t_id 2) x_qr f_rand f_rsvd h_norm 0 h_grew 1 true f_argpart 1)
  (grow_3d 2) false (entry_3d 2) users_3d (p_sort tb_day) (p_sort snd) p_seq (Zpos 3) None (Zpos 2) x_none.
Lemma p_seq_result : exists dyn, p_run_seq = Ok dyn /\ d_hr dyn = [:: q1] /\ d_mrr dyn = [:: q1] /\ d_wji dyn = [::].
Proof. apply: numbers_ok. vm_compute. reflexivity. Qed.
Lemma p_td_result : exists dyn, p_run_td = Ok dyn /\ d_hr dyn = [:: q1; q0] /\ d_mrr dyn = [:: q1; q0] /\ d_wji dyn = [:: Qmake Z0 2].
Proof. apply: numbers_ok. vm_compute. reflexivity. Qed.
Lemma p_ordered_seq : in_day_order p_seq.
Proof. apply: p_order; vm_compute; reflexivity. Qed.
