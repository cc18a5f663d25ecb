(** Concrete searches for the parameters of TDRec. *)
From Coq Require Import ZArith Lia QArith Permutation Sorting.Sorted List.
From Verif Require Import Prelude Prelude_proofs DataPrep_model DataPrep_spec History_model Eval_spec Recommend_model Recommend_spec Psi_model Tirec_model
  Tables_model Stream_model Stream_spec Search_model Tensor_model Matrix_model LinAlg_model Hooi_model Nti_model Dynamic_model Dynamic_spec Full_spec Full_model Seqx_spec Seqx_model
  Pipe_model Pipe_spec Hps_model Hps_spec Hpt_model.
From Verif Require Prelude_proofs.
Set Warnings "-notation-overridden".
From mathcomp Require Import all_ssreflect all_algebra.
From Verif Require Import LinAlg_spec LinAlg_tables LinAlg_wit Upd_spec Num_spec Upd_wit Exact_wit Hooi_spec Hooi_wit Num_wit Full_wit Nti_wit Cold_wit Seqx_wit Pipe_wit Hpt_spec.
Set Implicit Arguments.
Unset Strict Implicit.
Unset Printing Implicit Defensive.
Import GRing.Theory Num.Theory.
Local Open Scope ring_scope.

(** User 5 takes items 10 and 20, user 6 items 30 and, on the third day, 40; user 7 item 40.
    Two more days follow. *)
Definition g_row (i u j d : nat) : trow := let t := Z.mul (Z.of_nat d) DAY in mkT (Z.of_nat i) (Z.of_nat u) (Z.of_nat j) t t 1.
Definition g_data : list trow :=
  [:: g_row 0 5 10 1; g_row 1 5 20 2; g_row 2 6 30 2; g_row 3 7 40 2; g_row 4 6 40 3; g_row 5 7 30 4; g_row 6 6 20 5].
Definition g_decay (f : Q) (i : nat) : rat := if i is 1%N then 1 else 0.
Definition g_inv (x : mat rat) : res (mat rat) := Ok x.
Lemma g_inv_ok : inv_ok g_inv.
Proof. by move=> x y [<-]. Qed.
Definition g_search (data : list trow) (cut : Z) (grid : list (Tensor_model.coord * Q)) :=
  hyperparameters_search_tdrec (0 : rat) 1 +%R *%R f_of 2 g_decay g_inv x_qr f_rand f_rsvd h_norm 0 h_grew 6 f_argpart 1 (p_sort tb_day) data cut q1 grid.
Definition g_grid : list (Tensor_model.coord * Q) := [:: ((1, 1, 1)%N, q0); ((1, 1, 1)%N, qhalf)].
Lemma g_positive cfg : List.In cfg g_grid -> positive cfg.
Proof. by case=> [<-|[<-|[]]]. Qed.
(** Four scores of each configuration are recorded, the fifth stops the run. *)
Definition g_table : list trial :=
  [seq mkTrial (Zpos 1, Zpos 1, Zpos 1) q0 j q1 | j <- [:: Zpos 1; Zpos 2; Zpos 3; Zpos 4]] ++
  [seq mkTrial (Zpos 1, Zpos 1, Zpos 1) qhalf j q1 | j <- [:: Zpos 1; Zpos 2; Zpos 3; Zpos 4]].
Lemma g_found : g_search g_data (Zpos 5) g_grid = Ok g_table.
Proof. vm_compute. reflexivity. Qed.
Lemma g_chosen : get_optimal_tdrec_params STEAM g_table = Ok ((Zpos 1, Zpos 1, Zpos 1), q0, Zpos 1) /\
  get_optimal_tdrec_params ML20M g_table = Ok ((Zpos 1, Zpos 1, Zpos 1), qhalf, Zpos 1).
Proof. split; vm_compute; reflexivity. Qed.
(** The rank (1, 2, 1) does not fit together. *)
Lemma g_bad : g_search g_data (Zpos 5) (g_grid ++ [:: ((1, 2, 1)%N, q0)]) = Err RuntimeError.
Proof. vm_compute. reflexivity. Qed.
(** The experiment after the search. *)
Definition g_run := full_dynamical_experiment (0 : rat) (fun x y => x - y) (fun _ => tt) (fun _ _ => tt) tt (fun _ => tt)
  (x_api VTIRecAInt 1) (grow_3d 2) true (entry_3d 2) users_3d (p_sort tb_day) (p_sort snd) g_data (Zpos 5) None (Zpos 2) x_none.
Lemma g_result : exists dyn, g_run = Ok dyn /\ d_hr dyn = [:: q1; q1] /\ d_mrr dyn = [:: q1; q1] /\ d_wji dyn = [:: Qmake (Zpos 2) 4].
Proof. apply: numbers_ok. vm_compute. reflexivity. Qed.

(** With the share 1 the rows of the last day are held back. *)
Lemma last_day (rows train valid : list prow) : rows <> nil -> parted day_of q1 rows train valid ->
  exists pivot, (forall x, List.In x rows -> Z.le (day_of x) pivot) /\ List.In pivot (List.map day_of rows) /\
    train = List.filter (fun r => Z.ltb (day_of r) pivot) rows /\ valid = List.filter (fun r => Z.leb pivot (day_of r)) rows.
Proof.
  rewrite /parted. case: rows => [|r0 rows] // _. set l := r0 :: rows. move=> [i [pivot [[IN [_ LT]] [[_ LE] [-> ->]]]]]. exists pivot.
  have EI : Peano.le (length l) i.+1.
  { move: LE. rewrite /q1 /Qle /Qmult /Qplus /inject_Z. cbn [Qnum Qden]. move: (length l) => n. rewrite !Z.mul_1_r. cbn [Z.mul Pos.mul]. lia. }
  split; last by [].
  move=> x Ix. case: (Z.leb_spec (day_of x) pivot) => // GT. exfalso.
  have : Peano.lt (length (List.filter (fun y => Z.leb y pivot) (List.map day_of l))) (length (List.map day_of l)).
  { have : List.In (day_of x) (List.map day_of l) by apply: List.in_map. move: (List.map day_of l) GT. clear. elim=> [|y s IH] GT //=.
    case=> [->|I].
    - rewrite (proj2 (Z.leb_gt _ _) GT). have := Prelude_proofs.filter_length_le (fun y => Z.leb y pivot) s. lia.
    - case: (Z.leb y pivot) => /=; have := IH GT I; lia. }
  rewrite List.map_length. lia.
Qed.
Lemma days_decide (rows train valid : list prow) (top : Z) : rows <> nil -> List.forallb (fun x => Z.leb (day_of x) top) rows = true -> List.existsb (fun x => Z.eqb (day_of x) top) rows = true ->
  parted day_of q1 rows train valid -> train = List.filter (fun r => Z.ltb (day_of r) top) rows /\ valid = List.filter (fun r => Z.leb top (day_of r)) rows.
Proof.
  move=> NE /List.forallb_forall A /List.existsb_exists [y [Iy /Z.eqb_eq Ey]] /(last_day NE) [pivot [H [/List.in_map_iff [z [Ez Iz]] [-> ->]]]].
  have -> // : pivot = top. have := H y Iy. have := A z Iz. move=> /Z.leb_le. lia.
Qed.
Lemma g_two : two_items 2 q1 (List.map content (given_rows g_data (Zpos 5))).
Proof.
  move=> d train valid E PT. have X : x_data (List.map content (given_rows g_data (Zpos 5))) = d by rewrite /x_data E.
  have [-> _] := @days_decide d train valid (Z.mul 3 DAY) ltac:(by rewrite -X) ltac:(rewrite -X; vm_compute; reflexivity) ltac:(rewrite -X; vm_compute; reflexivity) PT.
  rewrite -X. vm_compute. discriminate.
Qed.

(** Nobody takes two items before the last day. *)
Definition g_alone : list trow := [:: g_row 0 5 10 1; g_row 1 6 30 1; g_row 2 7 20 1; g_row 3 5 20 2].
Lemma g_alone_fails : g_search g_alone (Zpos 4) [:: ((1, 1, 1)%N, q0)] = Err ValueError.
Proof. vm_compute. reflexivity. Qed.
Lemma g_alone_fits : seq_trainable 1 1 1 2 (x_keep (List.map content (given_rows g_alone (Zpos 4)))).
Proof.
  split; first by repeat split; lia. split; first by vm_compute. split; first by vm_compute. exists (Zpos 5). vm_compute. reflexivity.
Qed.
Lemma g_alone_two : two_items 2 q1 (List.map content (given_rows g_alone (Zpos 4))).
Proof.
  move=> d train valid E PT. have X : x_data (List.map content (given_rows g_alone (Zpos 4))) = d by rewrite /x_data E.
  have [-> _] := @days_decide d train valid (Z.mul 2 DAY) ltac:(by rewrite -X) ltac:(rewrite -X; vm_compute; reflexivity) ltac:(rewrite -X; vm_compute; reflexivity) PT.
  rewrite -X. vm_compute. discriminate.
Qed.
