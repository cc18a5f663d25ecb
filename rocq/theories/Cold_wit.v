(** Rational data for the concrete cases of the theorems about newcomers: a model of one user
    with two items, and a new user with two new items. *)
From Coq Require Import ZArith Lia.
From Verif Require Import Prelude DataPrep_model DataPrep_spec History_model History_spec Psi_model Tirec_model Tirec_spec
  Tensor_model Tensor_spec Matrix_model Attention_model LinAlg_model Tucker_model Hooi_model Upd_model Nti_model.
Set Warnings "-notation-overridden".
From mathcomp Require Import all_ssreflect all_algebra.
From Verif Require Import LinAlg_spec LinAlg_bridge LinAlg_tables LinAlg_wit Tucker_spec Tucker_bridge Hooi_spec Hooi_wit Upd_spec Upd_wit Exact_spec Exact_wit
  Nti_spec Nti_sim Nti_exact Nti_wit Cold_spec.
Set Implicit Arguments.
Unset Strict Implicit.
Unset Printing Implicit Defensive.
Import GRing.Theory Num.Theory.
Local Open Scope ring_scope.

(** Attention [1 0; 1/2 1] and its inverse. *)
Definition c_att : mat rat := mkMat 2 2 [:: 1; 0; frac 1 2; 1].
Definition c_inv : mat rat := mkMat 2 2 [:: 1; 0; - frac 1 2; 1].
Definition c_col (n i : nat) : mat rat := build n 1 (fun k _ => if k == i then 1 else 0).
Definition c_x0 : @nti_state rat :=
  let w := s_col 1 in
  let p := match position_embeddings 0 +%R *%R c_att c_inv w with Ok p => p | Err _ => (s_id, nil) end in
  mkNti (ti_maps s_st) (ti_history s_st) (ti_seq s_st) (one11, c_col 2 1, w) (mkTen (1, 1, 1)%N [:: 1]) p.1 p.2.
Definition c_chunk : list DataPrep_model.row := [:: mkRow 6 30 3 1; mkRow 6 40 4 1]%Z.
Definition c_qr_table : list (mat rat * (mat rat * mat rat)) :=
  [:: (one11, (one11, one11)); (c_col 2 0, (c_col 2 0, one11)); (c_col 4 1, (c_col 4 1, one11)); (s_col 1, (s_col 1, one11))].
Definition c_rt (md : mode) : routines rat :=
  @mkRoutines rat (lookup c_qr_table) f_fail f_fail f_fail f_rand f_rand (fun _ => f_fail) (fun _ => f_fail)
    (fun _ => Err LinAlgError) (f_rand 0).
Notation c_update := (nti_update (0 : rat_realFieldType) 1 +%R *%R (fun y z : rat_realFieldType => y - z) f_of f_eps f_one
  (d_cfg VTIRecAInt) 2%N c_att c_inv (Some c_att) c_rt c_x0 c_chunk true).
Definition c_x1 : @nti_state rat := the_state c_update.
Lemma c_updated : c_update = Ok c_x1.
Proof. apply: the_stateE. vm_compute. reflexivity. Qed.
Lemma c_rt_ok md : rt_ok (c_rt md).
Proof. split=> //. by apply: qr_table_ok; vm_compute. Qed.
Lemma c_facts : [/\ follows c_x0 s_st, model_ok 1 1 1 2 c_x0, shape 2 2 c_att, shape 2 2 c_inv
  & [/\ n_rows c_x0 0 = 1%N, n_rows c_x0 1 = 2%N, n_rows c_x1 0 = 2%N & n_rows c_x1 1 = 4%N]].
Proof.
  split; [| |split; vm_compute; reflexivity|split; vm_compute; reflexivity|split; vm_compute; reflexivity].
  + split; [| | |split]; vm_compute; reflexivity.
  + split; [split; split; vm_compute; reflexivity| |vm_compute; reflexivity|vm_compute; reflexivity|].
    * split; (apply: orth_check; [split; vm_compute; reflexivity|vm_compute; exact: isT]).
    * split; [vm_compute; reflexivity|vm_compute; reflexivity|vm_compute; reflexivity
             |split; vm_compute; reflexivity|split; vm_compute; reflexivity].
Qed.
Definition c_st1 : ti_state := match ti_update VTIRecAInt 2 s_st c_chunk true with Ok s => s | Err _ => s_st end.
Lemma c_st1_updated : ti_update VTIRecAInt 2 s_st c_chunk true = Ok c_st1.
Proof. vm_compute. reflexivity. Qed.
Lemma c_small : processed max_points (length (ti_delta s_st c_st1)) = length (ti_delta s_st c_st1).
Proof. vm_compute. reflexivity. Qed.

(** Which users and items are newcomers. *)
Lemma c_lists : hist_lists (nt_seq c_x1) = [:: (Z0, [:: Z0; Z.of_nat 1]); (Z.of_nat 1, [:: Z.of_nat 2; Z.of_nat 3])].
Proof. vm_compute. reflexivity. Qed.
Lemma hist_cell_in c h : hist_cell c h <> Z0 -> exists l, dget (t_user c) h = Some l /\ List.In (t_item c) l.
Proof.
  rewrite /hist_cell. case: dget => [l|//]. case: Z.ltb => //. case E : List.nth_error => [z|//].
  case: Z.eqb_spec => [Ez _|//]. exists l. split=> //. rewrite -Ez. exact: List.nth_error_In E.
Qed.
Lemma c_has i j : has_item (nt_seq c_x1) i j -> (i = 0%N /\ (j < 2)%N) \/ (i = 1%N /\ (2 <= j)%N).
Proof.
  case=> k /hist_cell_in [l []]. rewrite c_lists. cbn [t_user t_item t_pos fst snd].
  case: i => [|[|i]].
  - move=> [<-] H. left. split=> //. apply/ltP. case: H => [|[|[]]]; lia.
  - move=> [<-] H. right. split=> //. apply/leP. case: H => [|[|[]]]; lia.
  - cbn [dget]. case: Z.eqb_spec => [|_]; first by lia. case: Z.eqb_spec => [|_ //]; by lia.
Qed.
Lemma c_cold_user : cold_user c_x0 c_x1 1.
Proof.
  have [_ _ _ _ [N0 N1 _ _]] := c_facts. rewrite /cold_user N0 N1. split; first by [].
  by move=> j /c_has [[]|[]].
Qed.
Lemma c_cold_item j : (2 <= j)%N -> cold_item c_x0 c_x1 j.
Proof.
  have [_ _ _ _ [N0 N1 _ _]] := c_facts. rewrite /cold_item N1. split; first by [].
  move=> i /c_has [[_ K]|[-> _]]; [by move: K; rewrite ltnNge H|exact: c_cold_user].
Qed.
Lemma c_not_cold : ~ cold_user c_x0 c_x1 0 /\ ~ cold_item c_x0 c_x1 1.
Proof. have [_ _ _ _ [N0 N1 _ _]] := c_facts. by rewrite /cold_user /cold_item N0 N1; split; case. Qed.

(** The rank conditions. *)
Lemma rank_one m p (t ch : 'M[rat]_(m, p)) K (P : 'M[rat]_p) (i : 'I_m) : (\rank t <= 1)%N -> t *m P = t -> row i ch = 0 -> row i t <> 0 ->
  \rank ((t + ch *m K) *m P *m t^T) = 1%N.
Proof.
  move=> RT TP RC RN. apply/eqP. rewrite eqn_leq. apply/andP. split.
    apply: leq_trans (mxrankM_maxr _ _) _. by rewrite mxrank_tr.
  rewrite lt0n mxrank_eq0. apply/eqP => E. apply: RN.
  have := congr1 (fun M : 'M_m => M i i) E. rewrite -mulmxA mulmxDl [in X in X + _]mulmxA TP -!mulmxA.
  rewrite !mxE [X in _ + X]big1 ?addr0 => [|y _]; last first.
    have /rowP /(_ y) := RC. by rewrite !mxE => ->; rewrite mul0r.
  move=> H. apply/rowP => y. rewrite !mxE. apply/eqP. rewrite -sqrf_eq0. apply/eqP.
  have NN z : true -> 0 <= t i z * t^T z i by rewrite !mxE -expr2 sqr_ge0.
  have := psumr_eq0P NN H => /(_ y isT). by rewrite !mxE expr2.
Qed.

Definition c_change (c : cell) : rat := history_value f_of (nt_seq c_x1) c - history_value f_of (nt_seq c_x0) c.
Lemma c_change_old (j k : nat) : c_change (0%N, j, k) = 0.
Proof.
  rewrite /c_change /history_value.
  have -> : hist_lists (nt_seq c_x0) = [:: (Z0, [:: Z0; Z.of_nat 1])] by vm_compute.
  rewrite c_lists. exact: subrr.
Qed.
Lemma c_change_item (i k : nat) : c_change (i, 1%N, k) = 0.
Proof.
  case: i => [|i]; first exact: c_change_old.
  rewrite /c_change /history_value /c0 /c1 /c2. cbn [fst snd].
  have -> : hist_cell (Z.of_nat i.+1, Z.of_nat 1, Z.of_nat k) (hist_lists (nt_seq c_x1)) = Z0.
    case: (Z.eq_dec (hist_cell (Z.of_nat i.+1, Z.of_nat 1, Z.of_nat k) (hist_lists (nt_seq c_x1))) Z0) => // NZ.
    by case: (c_has (ex_intro _ k NZ)) => -[].
  have -> : hist_lists (nt_seq c_x0) = [:: (Z0, [:: Z0; Z.of_nat 1])] by vm_compute.
  exact: subrr.
Qed.
Lemma c_old_other (i j k : nat) : value 2 c_x0 (i.+1, j, k) = 0.
Proof. rewrite /value. have [_ _ _ _ [-> -> _ _]] := c_facts. have -> : inside 1 2 2 (i.+1, j, k) = false by []. reflexivity. Qed.
Lemma c_old_cell : value 2 c_x0 (0, 1, 1)%N <> 0.
Proof. apply/eqP. vm_compute. exact: isT. Qed.

Lemma unit_proj (t : cell -> rat) : (forall i j k, t (i.+1, j, k) = 0) ->
  unf 1 0 4 2 2 t *m krn (proj 2 1 (c_col 2 0)) 1%:M = unf 1 0 4 2 2 t.
Proof.
  move=> T0.
  have PE (b d : 'I_2) : proj 2 1 (c_col 2 0) b d = ((b == ord0) && (d == ord0))%:R.
    rewrite /proj mx_build !mxE big_ord1 !mxE. by case: b d => [[|[|b]] Hb] [[|[|d]] Hd].
  move: (proj _ _ _) PE => P PE. apply/matrixP => j y. rewrite !mxE.
  rewrite (bigD1 y) //= [X in _ + X]big1 ?addr0 => [|z NZ].
    rewrite !mxE PE -[(y %% 2)%N]/(lo y : nat) -[(y %/ 2)%N]/(hi y : nat) eqxx.
    case: (lo y) => [[|b] Hb]; first by rewrite ?eqxx /= !mulr1.
    by rewrite /place /= T0 !mul0r.
  rewrite !mxE PE. case: eqP => [Z0|_]; last by rewrite mul0r mulr0.
  case: eqP => [Y0|_]; last by rewrite mul0r mulr0.
  case: eqP => [HH|_]; last by rewrite !mulr0.
  by case/eqP: NZ; rewrite -(lohiK z) -(lohiK y) Z0 Y0 HH.
Qed.

Lemma unf_row0 n a nn na nb (t : cell -> rat) (i : 'I_nn) : (forall y z : nat, t (place n a i y z) = 0) -> row i (unf n a nn na nb t) = 0.
Proof. move=> H. apply/rowP => y. rewrite !mxE. exact: H. Qed.
Lemma unf_row1 n a nn na nb (t : cell -> rat) (i : 'I_nn) (y : 'I_na) (z : 'I_nb) : t (place n a i y z) <> 0 -> row i (unf n a nn na nb t) <> 0.
Proof.
  move=> H E. apply: H. have := congr1 (fun M : 'M_(1, na * nb) => M ord0 (lohi y z)) E.
  by rewrite !mxE lo_lohi hi_lohi.
Qed.
Definition c_1 : 'I_2 := Ordinal (isT : (1 < 2)%N).
Definition c_41 : 'I_4 := Ordinal (isT : (1 < 4)%N).
Definition c_row0 : mat rat := tmat 0 1 1 4 2 (value 2 c_x0).
Definition c_row1 : mat rat := mkMat 1 4 [:: frac 3 5; 0; frac 4 5; 0].
Lemma c_sees_users : sees_users f_of 1 2 (Some c_att) c_x0 c_x1.
Proof.
  have [_ _ _ _ [_ _ N0 N1]] := c_facts. rewrite /sees_users N0 N1 -/c_change.
  have B : (\rank (unf 0 1 2 4 2 (value 2 c_x0)) <= 1)%N.
    apply: (rank_le_check (t := value 2 c_x0) (x := c_col 2 0) (y := c_row0)); first by move=> c; reflexivity.
    - by split; vm_compute.
    - split; vm_compute; reflexivity.
    - vm_compute. exact: isT.
  have := @rank_one _ _ _ (unf 0 1 2 4 2 c_change) (krn 1%:M (attm 2 (Some c_att))) 1%:M ord0 B (mulmx1 _).
  rewrite mulmx1. apply.
  - apply: unf_row0 => y z. exact: c_change_old.
  - apply: (@unf_row1 0 1 2 4 2 _ ord0 c_41 c_1). exact: c_old_cell.
Qed.
Lemma c_sees_items : sees_items f_of 1 1 2 (Some c_att) c_x0 c_x1.
Proof.
  have [_ _ _ _ [_ _ N0 N1]] := c_facts. rewrite /sees_items N0 N1 -/c_change.
  have B : (\rank (unf 1 0 4 2 2 (value 2 c_x0)) <= 1)%N.
    apply: (rank_le_check (t := value 2 c_x0) (x := c_col 4 1) (y := c_row1)); first by move=> c; reflexivity.
    - by split; vm_compute.
    - split; vm_compute; reflexivity.
    - vm_compute. exact: isT.
  have EU : factor (nt_fs c_x1) 0 = c_col 2 0 by vm_compute.
  rewrite EU. apply: (@rank_one _ _ _ (unf 1 0 4 2 2 c_change) _ _ c_41 B).
  - exact: (unit_proj c_old_other).
  - apply: unf_row0 => y z. exact: c_change_item.
  - apply: (@unf_row1 1 0 4 2 2 _ c_41 ord0 c_1). exact: c_old_cell.
Qed.

Lemma c_values :
  [/\ history_value f_of (nt_seq c_x1) (1, 2, 0)%N = 1, history_value f_of (nt_seq c_x1) (1, 3, 1)%N = 1,
      nti_scores 0 +%R *%R c_x1 (Z.of_nat 1) = Ok [:: 0; 0; 0; 0] & nti_scores 0 +%R *%R c_x1 Z0 = Ok [:: 0; frac 12 25; 0; 0]].
Proof. split; vm_compute; reflexivity. Qed.

Lemma c_inverse : mx 2 2 c_att *m mx 2 2 c_inv = 1%:M.
Proof.
  apply/matrixP => i j. rewrite mxE big_ord_recl big_ord1 !mxE.
  case: i => -[|[|i]] Hi; [| |exfalso; move: Hi; rewrite !ltnS ltn0; discriminate];
  (case: j => -[|[|j]] Hj; [| |exfalso; move: Hj; rewrite !ltnS ltn0; discriminate]); vm_compute; reflexivity.
Qed.
Lemma c_refuted :
  exists (att ainv : mat rat) (rt : mode -> routines rat) x st data x' st',
  [/\ [/\ att_shape 2 (Some att), shape 2 2 ainv, mx 2 2 att *m mx 2 2 ainv = 1%:M & att = mkMat 2 2 [:: 1; 0; frac 1 2; 1]],
      (forall md, rt_ok (rt md)),
      [/\ ti_wf 2 st, follows x st & model_ok 1 1 1 2 x],
      nti_update 0 1 +%R *%R (fun y z => y - z) f_of f_eps f_one (d_cfg VTIRecAInt) 2 att ainv (Some att)
        rt x data true = Ok x' /\ ti_update VTIRecAInt 2 st data true = Ok st'
    & [/\ history_value f_of (nt_seq x') (1, 2, 0)%N = 1, history_value f_of (nt_seq x') (1, 3, 1)%N = 1,
          nti_scores 0 +%R *%R x' (Z.of_nat 1) = Ok [:: 0; 0; 0; 0]
        & nti_scores 0 +%R *%R x' Z0 = Ok [:: 0; frac 12 25; 0; 0]]].
Proof.
  have [F MO Sa Si _] := c_facts.
  exists c_att, c_inv, c_rt, c_x0, s_st, c_chunk, c_x1, c_st1. split; [| | |split|].
  - split; [exact: Sa|exact: Si|exact: c_inverse|reflexivity].
  - exact: c_rt_ok.
  - split; [exact: s_wf|exact: F|exact: MO].
  - exact: c_updated.
  - exact: c_st1_updated.
  - exact: c_values.
Qed.
