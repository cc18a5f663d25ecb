(** Rational data for the concrete cases of the Nti theorems: a model trained on one user with
    four items, and an update with three further users of the same items. *)
From Coq Require Import ZArith Lia.
From Verif Require Import Prelude DataPrep_model DataPrep_spec History_model History_spec Psi_model Tirec_model Tirec_spec
  Tensor_model Tensor_spec Matrix_model Attention_model LinAlg_model Tucker_model Hooi_model Upd_model Nti_model.
From Verif Require Tirec_stream Tirec_assembly.
Set Warnings "-notation-overridden".
From mathcomp Require Import all_ssreflect all_algebra.
From Verif Require Import LinAlg_spec LinAlg_bridge LinAlg_tables LinAlg_wit Tucker_spec Hooi_spec Hooi_wit Upd_spec Upd_wit Exact_spec Exact_wit
  Nti_spec Nti_sim Nti_exact Nti_track Nti_scores.
Set Implicit Arguments.
Unset Strict Implicit.
Unset Printing Implicit Defensive.
Import GRing.Theory Num.Theory.
Local Open Scope ring_scope.

(** Entries as rationals. *)
Definition f_of (z : Z) : rat := if Z.leb 0 z then (Z.to_nat z)%:R else - (Z.to_nat (Z.opp z))%:R.
Lemma f_of_add y z : f_of (Z.add y z) = f_of y + f_of z.
Proof.
  have N p q : (Nat.add p q)%:R = p%:R + q%:R :> rat by rewrite -natrD.
  have P a b : Z.le 0 a -> Z.le 0 b -> f_of (Z.add a b) = f_of a + f_of b.
    move=> Ha Hb. rewrite /f_of !(proj2 (Z.leb_le _ _)) //; last by lia. by rewrite Z2Nat.inj_add // N.
  have O a : f_of (Z.opp a) = - f_of a.
    rewrite /f_of. case: (Z.leb_spec 0 a) => Ha; case: (Z.leb_spec 0 (Z.opp a)) => Hb.
    - have -> : a = Z0 by lia. by rewrite oppr0.
    - by rewrite Z.opp_involutive.
    - by rewrite opprK.
    - lia.
  have M a b : Z.le 0 a -> Z.le 0 b -> f_of (Z.sub a b) = f_of a - f_of b.
    move=> Ha Hb. case: (Z.le_ge_cases b a) => H.
    - apply/eqP. rewrite eq_sym subr_eq eq_sym -P //; last by lia. by rewrite Z.sub_add.
    - rewrite -[Z.sub a b]Z.opp_involutive Z.opp_sub_distr Z.add_comm Z.add_opp_r O.
      apply/eqP. rewrite eqr_oppLR opprB eq_sym subr_eq eq_sym -P //; last by lia. by rewrite Z.sub_add.
  case: (Z.le_ge_cases 0 y) => Hy; case: (Z.le_ge_cases 0 z) => Hz; first exact: P.
  - have {1}-> : z = Z.opp (Z.opp z) by lia. rewrite Z.add_opp_r M //; last by lia. by rewrite O opprK.
  - have {1}-> : y = Z.opp (Z.opp y) by lia. rewrite Z.add_comm Z.add_opp_r M //; last by lia. by rewrite O opprK addrC.
  - have {1}-> : y = Z.opp (Z.opp y) by lia. have {1}-> : z = Z.opp (Z.opp z) by lia.
    rewrite -Z.opp_add_distr O P; try lia. by rewrite !O opprD !opprK.
Qed.
Lemma f_of_0 : f_of Z0 = 0.
Proof. by []. Qed.

(** Unfoldings of computable tensors. *)
Definition tmat (n a nn na nb : nat) (t : cell -> rat) : mat rat :=
  build nn (na * nb) (fun i y => t (place n a i (y %% na) (y %/ na))).
Lemma tmat_ok n a nn na nb (t s : cell -> rat) : (forall c, s c = t c) ->
  shape nn (na * nb) (tmat n a nn na nb t) /\ mx nn (na * nb) (tmat n a nn na nb t) = unf n a nn na nb s.
Proof. move=> E. split; first by []. rewrite mx_build. by apply/matrixP => i j; rewrite !mxE E. Qed.

Definition sum_at (es : list (cell * rat)) (c : cell) : rat := foldr (fun e acc => (if e.1 == c then e.2 else 0) + acc) 0 es.
Lemma sum_atE es c : dense es c = sum_at es c.
Proof. elim: es => [|e es IH]; [exact: dense_nil|by rewrite dense_cons IH]. Qed.

Definition recover_check (n a nn na nb : nat) (t' t : cell -> rat) (y : mat rat) : bool :=
  match qdot (tmat n a nn na nb t') (transpose 0 (tmat n a nn na nb t)) with
  | Ok p => [&& mr y == nn, mc y == (na * nb)%N & same_res (qdot p y) (tmat n a nn na nb t')]
  | Err _ => false
  end.
Lemma recover_ok n a nn na nb (t' t s' s : cell -> rat) y : (forall c, s' c = t' c) -> (forall c, s c = t c) ->
  recover_check n a nn na nb t' t y ->
  \rank (unf n a nn na nb s' *m (unf n a nn na nb s)^T) = \rank (unf n a nn na nb s').
Proof.
  move=> E' E. have [S1 E1] := tmat_ok n a nn na nb E'. have [S2 E2] := tmat_ok n a nn na nb E.
  rewrite /recover_check. have [S3 E3] := transpose_ok S2. have [p -> [S4 E4]] := dot_ok S1 S3.
  move=> /and3P [/eqP Y1 /eqP Y2 H]. have := same_dot S4 (conj Y1 Y2) S1 H. rewrite E4 E3 E2 E1 => H'.
  apply/eqP. rewrite eqn_leq mxrankM_maxl /=. rewrite -{1}H'. exact: mxrankM_maxl.
Qed.

Definition eye_ (s : rat) (m n : nat) : mat rat := build m n (fun i j => if i == j then s else 0).
Definition anti (s : rat) : mat rat := build 4 4 (fun i j => if (i + j == 3)%N then s else 0).
Definition f_id : mat rat := eye_ 1 4 4.

(** Training: one sweep of rank (1, 4, 4) with unit singular vectors. *)
Definition f_table : list DataPrep_model.row := [:: mkRow 5 10 1 1; mkRow 5 20 2 1; mkRow 5 30 3 1; mkRow 5 40 4 1]%Z.
Definition f_data : list prow := match get_df_with_cropped_pos_column f_table 4 true with Ok d => d | Err _ => [::] end.
Definition f_rsvd (t : nat) (x : mat rat) (r : nat) : res (mat rat * list rat * mat rat) :=
  let k := minn r (minn (mr x) (mc x)) in Ok (eye_ 1 (mr x) k, nseq k 1, eye_ 1 k (mc x)).
Definition f_rand (mode n r : nat) : mat rat := eye_ 1 n r.
Definition f_tqr : mat rat -> res (mat rat * mat rat) := lookup [:: (f_id, (f_id, f_id)); (one11, (one11, one11))].
Definition f_train := nti_train 0 +%R *%R f_of f_tqr f_rand f_rsvd h_norm 0 h_grew 4 (1, 4, 4)%N f_id f_id 1 true f_data nil.
Definition f_none : @nti_state rat :=
  mkNti (mkMappings (mkMapping nil nil 0) (mkMapping nil nil 0)) nil nil (one11, one11, one11) (mkTen (1, 1, 1)%N nil) one11 nil.
Definition the_state (r : res (@nti_state rat)) : @nti_state rat := match r with Ok x => x | Err _ => f_none end.
Definition is_ok {B} (r : res B) : bool := match r with Ok _ => true | Err _ => false end.
Lemma the_stateE r : is_ok r -> r = Ok (the_state r).
Proof. by case: r. Qed.
Definition f_x0 : @nti_state rat := the_state f_train.
Lemma f_trained : f_train = Ok f_x0.
Proof. apply: the_stateE. by vm_compute. Qed.

Lemma eye_orth m k : (k <= m)%N -> (mx m k (eye_ 1 m k))^T *m mx m k (eye_ 1 m k) = 1%:M.
Proof.
  move=> H. rewrite mx_build. apply/matrixP => i j. rewrite !mxE.
  rewrite (bigD1 (widen_ord H i)) //= !mxE eqxx mul1r big1 ?addr0 => [|p NP].
    by rewrite -(inj_eq val_inj) /=; case: eqP.
  rewrite !mxE. case: eqP => [E|_]; last by rewrite mul0r. by move/eqP: NP; case; apply: val_inj; rewrite /= E.
Qed.
Lemma f_inner : inner_ok f_rsvd.
Proof.
  move=> t x r u s vt [<- _ _] k. split; first by []. apply: eye_orth. rewrite /k.
  exact: leq_trans (geq_minr _ _) (geq_minl _ _).
Qed.
Lemma f_tqr_ok : qr_ok f_tqr.
Proof. by apply: qr_table_ok; vm_compute. Qed.
Lemma f_rand_ok mode : randn_ok (f_rand mode).
Proof. by []. Qed.

(** The data handling of the same training. *)
Definition f_rank := (Z.of_nat 1, Z.of_nat 4, Z.of_nat 4).
Definition f_st0 : ti_state := match tdrec_train 4 f_rank f_data nil with Ok s => s | Err _ => mkTi (mkMappings (mkMapping nil nil 0) (mkMapping nil nil 0)) nil nil nil nil nil end.
Lemma f_st0_trained : tdrec_train 4 f_rank f_data nil = Ok f_st0.
Proof. by vm_compute. Qed.
Lemma f_wf : ti_wf 4 f_st0 /\ rows_aligned f_st0.
Proof.
  have A : get_df_with_cropped_pos_column f_table 4 true = Ok f_data by vm_compute.
  have := Tirec_stream.tirec_stream_main VTIRec 4 f_rank true f_table f_data nil f_st0 f_st0 A f_st0_trained erefl.
  by case=> W [_ [_ [_ [_ H]]]].
Qed.
Lemma f_shape : shape 4 4 f_id.
Proof. by []. Qed.
Lemma f_start : [/\ follows f_x0 f_st0, model_ok 1 4 4 4 f_x0
  & position_embeddings 0 +%R *%R f_id f_id (factor (nt_fs f_x0) 2) = Ok (nt_aw f_x0, nt_last f_x0)].
Proof.
  have P : forall p, List.In p f_data -> Z.le 0 (p_pos p).
    move=> p. have A : List.forallb (fun p => Z.leb 0 (p_pos p)) f_data = true by vm_compute.
    move/(proj1 (List.forallb_forall _ _)): A => A /A. exact: (proj1 (Z.leb_le _ _)).
  have H := @train_sim _ f_of 4%N f_id f_id 1%N 4%N 4%N f_shape f_shape f_tqr f_rand f_rsvd _ h_norm 0 h_grew 1%N true f_data nil f_tqr_ok f_rand_ok f_inner
    (ltn0Sn 0) (ltn0Sn 3) (ltn0Sn 3) (ltn0Sn 0) P.
  move: f_x0 f_trained f_st0 f_st0_trained => x0 E0 st0 T0.
  cbv zeta in H. move: H. set t := nti_train _ _ _ _ _ _ _ _ _ _ _ _ _ _ _ _ _ _.
  have Et : t = f_train by rewrite /t /f_train; congr nti_train.
  rewrite Et E0. case=> st E H.
  have E3 : Ok st = Ok st0 := etrans (esym E) T0. case: E3 => <-. exact: H.
Qed.

(** Three further users with the same four items, with integrator processing. *)
Definition four (u : Z) : list DataPrep_model.row := [:: mkRow u 10 5 1; mkRow u 20 6 1; mkRow u 30 7 1; mkRow u 40 8 1]%Z.
Definition f_chunk : list DataPrep_model.row := four 6 ++ four 7 ++ four 8.
Definition f_cfg : nti_cfg := mkNtiCfg VTIRecAInt false false.
Definition vec16 (s : rat) : mat rat := mkMat 16 1 (map (fun k => if (k %% 5 == 0)%N then s else 0) (iota 0 16)).
Definition col4 (s : rat) : mat rat := mkMat 4 1 (nseq 4 s).
Definition f_qr_table : list (mat rat * (mat rat * mat rat)) :=
  [:: (vec16 1, (vec16 (frac 1 2), mkMat 1 1 [:: 2%:Q]));
      (col4 2%:Q, (col4 (frac 1 2), mkMat 1 1 [:: 4%:Q]));
      (eye_ (frac 1 2) 4 4, (f_id, eye_ (frac 1 2) 4 4));
      (anti 2%:Q, (anti 1, eye_ 2%:Q 4 4))].
Definition f_fail {B C D : Type} (x : B) (y : C) : res D := Err LinAlgError.
Definition f_rt (md : mode) : routines rat :=
  @mkRoutines rat (lookup f_qr_table) f_fail f_fail f_fail f_rand f_rand (fun _ => f_fail) (fun _ => f_fail)
    (fun _ => Err LinAlgError) (f_rand 0).
Definition f_eps (y : rat) : bool := 0 < y.
Definition f_one (y : rat) : bool := y == 1.
Notation run_update cfg L a ainv rt x chunk :=
  (nti_update (0 : rat_realFieldType) 1 +%R *%R (fun y z : rat_realFieldType => y - z) f_of f_eps f_one cfg L a ainv None rt x chunk true).
Definition f_x1 : @nti_state rat := the_state (run_update f_cfg 4%N f_id f_id f_rt f_x0 f_chunk).
Lemma f_updated : run_update f_cfg 4%N f_id f_id f_rt f_x0 f_chunk = Ok f_x1.
Proof. apply: the_stateE. vm_compute. reflexivity. Qed.
Lemma f_rt_ok md : rt_ok (f_rt md) /\ rt_lossless (f_rt md).
Proof. split; split=> //. by apply: qr_table_ok; vm_compute. Qed.
Lemma f_one_ok y : f_one y = true -> y = 1.
Proof. by move/eqP. Qed.

Definition f_st1 : ti_state := match ti_update VTIRecAInt 4 f_st0 f_chunk true with Ok s => s | Err _ => f_st0 end.
Lemma f_st1_updated : ti_update VTIRecAInt 4 f_st0 f_chunk true = Ok f_st1.
Proof. by vm_compute. Qed.
Definition f_entries : list entry :=
  flatten [seq [seq ((Z.of_nat u, Z.of_nat j, Z.of_nat j), Z.of_nat 1) | j <- iota 0 4] | u <- iota 1 3].
Definition f_log : list ti_step := [:: mkTiStep MOld (Z.of_nat 4) (Z.of_nat 4) f_entries f_entries].
Lemma f_log_is : ti_log f_st1 = (ti_log f_st0 ++ f_log)%list.
Proof. by vm_compute. Qed.

Definition f_early (c : cell) : rat := value 4 f_x0 c + sum_at (added_early f_of VTIRecAInt f_log) c.
Definition f_all (c : cell) : rat := value 4 f_x0 c + sum_at (added f_of VTIRecAInt f_log) c.
Lemma f_rows : [/\ n_rows f_x1 0 = 4%N, n_rows f_x1 1 = 4%N & nt_seq f_x1 = ti_seq f_st1].
Proof. by vm_compute. Qed.
Lemma f_recover :
  [/\ recover_check 0 1 4 4 4 f_all f_early (build 4 16 (fun i y => if (i == 0) && (y %% 5 == 0) then frac 1 4 else 0%R)%N),
      recover_check 1 0 4 4 4 f_all f_early (tmat 1 0 4 4 4 f_all)
    & recover_check 2 0 4 4 4 f_all f_early (tmat 2 0 4 4 4 f_all)].
Proof. split; vm_compute; exact: isT. Qed.
Lemma f_lossless : lossless_update f_of f_cfg 1 4 4 4 f_x0 f_x1 f_log.
Proof.
  have [N0 N1 _] := f_rows. rewrite /lossless_update N0 N1. have [R0 R1 R2] := f_recover.
  split.
  - move=> H. case: H. vm_compute. reflexivity.
  - split; [apply: (recover_ok _ _ R0)|apply: (recover_ok _ _ R1)|apply: (recover_ok _ _ R2)] => c;
      rewrite sum_atE; reflexivity.
  - move=> s [<-|[]] _. vm_compute. reflexivity.
  - right. reflexivity.
Qed.

(** The trained tensor is the position tensor of the histories. *)
Definition f_cells : list cell := [seq (p.1, p.2, k) | p <- [seq (i, j) | i <- iota 0 1, j <- iota 0 4], k <- iota 0 4].
Lemma f_cells_check : all (fun c => value 4 f_x0 c == history_value f_of (nt_seq f_x0) c) f_cells.
Proof. vm_compute. reflexivity. Qed.
Lemma f_rows0 : n_rows f_x0 0 = 1%N /\ n_rows f_x0 1 = 4%N.
Proof. split; vm_compute; reflexivity. Qed.
Lemma f_holds c : value 4 f_x0 c = history_value f_of (nt_seq f_x0) c.
Proof.
  have [F _ _] := f_start. have [W _] := f_wf. have [N0 N1] := f_rows0. have C := f_cells_check.
  move: f_x0 f_st0 F W N0 N1 C => x st F W N0 N1 C. move: c. apply: (history_inside f_of_0 W F) => -[[i j] k].
  rewrite N0 N1 /inside => /and3P [H0 H1 H2]. apply/eqP. move/allP: C; apply.
  apply/allpairsP. exists ((i, j), k). split; [|by rewrite mem_iota|by []].
  apply/allpairsP. exists (i, j). by split=> //; rewrite mem_iota.
Qed.

Lemma f_stream_lossless : lossless_stream f_of f_eps f_one f_cfg 1 4 4 4 f_id f_id (fun _ => f_rt) true f_x0 f_st0 [:: f_chunk].
Proof.
  have LL := f_lossless. have E := f_updated. have ES := f_st1_updated. have EL := f_log_is.
  move: f_x0 f_x1 f_st0 f_st1 f_log E ES EL LL => x0 x1 st0 st1 l E ES EL LL. cbn [lossless_stream]. move=> y st m EY EST EM.
  move: EY. rewrite E => -[<-]. move: EST. rewrite ES => -[E1]. subst st.
  have -> : m = l by rewrite EL in EM; exact: esym (List.app_inv_head _ _ _ EM).
  split; [exact: LL|left; reflexivity|exact: I].
Qed.

(** Other factors of the same tensor. *)
Definition f_neg : @nti_state rat :=
  let p := match position_embeddings 0 +%R *%R f_id f_id (eye_ 1 4 4) with Ok p => p | Err _ => (f_id, nil) end in
  mkNti (nt_maps f_x1) (nt_history f_x1) (nt_seq f_x1) (col4 (frac (- 1%:Z) 2), eye_ 1 4 4, eye_ 1 4 4)
    (mkTen (1, 4, 4)%N (map (fun k => if (k %% 5 == 0)%N then (- 2%:Z)%:~R else 0) (iota 0 16))) p.1 p.2.
Lemma orth_check m k (f : mat rat) : shape m k f -> same_res (qdot (transpose 0 f) f) (eye 0 1 k) -> orthonormal m k f.
Proof.
  move=> S H. have [ST ET] := transpose_ok S. have [Se Ee] := eye_ok rat_comRing k.
  rewrite /orthonormal -ET -Ee. exact: (same_dot ST S Se H).
Qed.
Lemma rank_check n a nn na nb (t s : cell -> rat) (y : mat rat) : (forall c, s c = t c) -> shape (na * nb) nn y ->
  same_res (qdot (tmat n a nn na nb t) y) (eye 0 1 nn) -> \rank (unf n a nn na nb s) = nn.
Proof.
  move=> E Sy H. have [S1 E1] := tmat_ok n a nn na nb E. have [Se Ee] := eye_ok rat_comRing nn.
  have := same_dot S1 Sy Se H. rewrite E1 Ee => H1. apply/eqP. apply/row_freeP. by exists (mx (na * nb) nn y).
Qed.
Lemma f_wf1 : ti_wf 4 f_st1.
Proof.
  have [W _] := f_wf. by case: (Tirec_assembly.tirec_partition_main _ _ _ _ _ _ W f_st1_updated).
Qed.
Lemma f_neg_follows : follows f_neg f_st1 /\ n_rows f_neg 0 = 4%N /\ n_rows f_neg 1 = 4%N.
Proof. split; [split; [| | |split]|split]; vm_compute; reflexivity. Qed.
Lemma f_neg_ok : model_ok 1 4 4 4 f_neg.
Proof.
  split; [split; split; vm_compute; reflexivity| |vm_compute; reflexivity|vm_compute; reflexivity|].
  - split; (apply: orth_check; [split; vm_compute; reflexivity|vm_compute; exact: isT]).
  - split; [vm_compute; reflexivity|vm_compute; reflexivity|vm_compute; reflexivity
           |split; vm_compute; reflexivity|split; vm_compute; reflexivity].
Qed.
Lemma f_neg_positions : position_embeddings (0 : rat_realFieldType) +%R *%R f_id f_id (factor (nt_fs f_neg) 2) = Ok (nt_aw f_neg, nt_last f_neg).
Proof. vm_compute. reflexivity. Qed.
Definition f_cells4 : list cell := [seq (p.1, p.2, k) | p <- [seq (i, j) | i <- iota 0 4, j <- iota 0 4], k <- iota 0 4].
Lemma f_neg_check : all (fun c => value 4 f_neg c == history_value f_of (nt_seq f_neg) c) f_cells4.
Proof. vm_compute. reflexivity. Qed.
Lemma f_neg_holds c : value 4 f_neg c = history_value f_of (nt_seq f_neg) c.
Proof.
  have [F [N0 N1]] := f_neg_follows. have W := f_wf1. have C := f_neg_check.
  move: f_neg f_st1 F W N0 N1 C => x st F W N0 N1 C. move: c. apply: (history_inside f_of_0 W F) => -[[i j] k].
  rewrite N0 N1 /inside => /and3P [H0 H1 H2]. apply/eqP. move/allP: C; apply.
  apply/allpairsP. exists ((i, j), k). split; [|by rewrite mem_iota|by []].
  apply/allpairsP. exists (i, j). by split=> //; rewrite mem_iota.
Qed.
Lemma f_neg_ranks :
  \rank (unf 1 0 (n_rows f_neg 1) (n_rows f_neg 0) 4 (value 4 f_neg)) = 4%N /\
  \rank (unf 2 0 4 (n_rows f_neg 0) (n_rows f_neg 1) (value 4 f_neg)) = 4%N.
Proof.
  have [_ [-> ->]] := f_neg_follows.
  split.
  - apply: (rank_check (t := value 4 f_neg) (y := transpose 0 (tmat 1 0 4 4 4 (fun c => frac 1 4 * value 4 f_neg c)))).
    + move=> c. reflexivity.
    + split; vm_compute; reflexivity.
    + vm_compute. exact: isT.
  - apply: (rank_check (t := value 4 f_neg) (y := transpose 0 (tmat 2 0 4 4 4 (fun c => frac 1 4 * value 4 f_neg c)))).
    + move=> c. reflexivity.
    + split; vm_compute; reflexivity.
    + vm_compute. exact: isT.
Qed.

(** A model of rank (1, 1, 1) with a zero core, and one new user with one new item; in TIRec
    and in TIRecA. *)
Definition d_table : list DataPrep_model.row := [:: mkRow 5 10 1 1]%Z.
Definition d_chunk : list DataPrep_model.row := [:: mkRow 6 20 2 1]%Z.
Definition d_data : list prow := match get_df_with_cropped_pos_column d_table 1 true with Ok d => d | Err _ => [::] end.
Definition d_rank := (Z.of_nat 1, Z.of_nat 1, Z.of_nat 1).
Definition d_st0 : ti_state := match tdrec_train 1 d_rank d_data nil with Ok s => s | Err _ => f_st0 end.
Definition d_st1 (v : variant) : ti_state := match ti_update v 1 d_st0 d_chunk true with Ok s => s | Err _ => d_st0 end.
Definition d_model (c : rat) : @nti_state rat :=
  mkNti (ti_maps d_st0) (ti_history d_st0) (ti_seq d_st0) (one11, one11, one11) (mkTen (1, 1, 1)%N [:: c]) one11 [:: 1].
Definition d_cfg (v : variant) : nti_cfg := mkNtiCfg v false false.
Definition d_last (m : nat) : mat rat := build m 1 (fun i _ => if i.+1 == m then 1 else 0).
Definition d_svd_table : list (mat rat * (mat rat * list rat * mat rat)) :=
  [:: (mkMat 2 2 [:: 0; 0; 0; 1], (d_last 2, [:: 1], mkMat 1 2 [:: 0; 1])); (d_last 4, (d_last 4, [:: 1], one11))].
Definition d_qr_table : list (mat rat * (mat rat * mat rat)) :=
  [:: (one11, (one11, one11)); (mkMat 1 1 [:: 2%:Q], (one11, mkMat 1 1 [:: 2%:Q]));
      (mkMat 2 1 [:: 0; 2%:Q], (d_last 2, mkMat 1 1 [:: 2%:Q])); (mkMat 2 1 [:: 1; 0], (mkMat 2 1 [:: 1; 0], one11))].
Definition d_full (x : mat rat) : res (mat rat * list rat * mat rat) := Ok (eye_ 1 (mr x) (mr x), nil, eye_ 1 (mc x) (mc x)).
Definition d_rt (md : mode) : routines rat :=
  @mkRoutines rat (lookup d_qr_table) f_fail f_fail f_fail f_rand f_rand f_rsvd (fun _ => trunc_lookup d_svd_table) d_full (f_rand 0).
Definition d_x1 (v : variant) (c : rat) : @nti_state rat := the_state (run_update (d_cfg v) 1%N one11 one11 d_rt (d_model c) d_chunk).

Lemma eye_orth_rows m k : (k <= m)%N -> mx k m (eye_ 1 k m) *m (mx k m (eye_ 1 k m))^T = 1%:M.
Proof.
  move=> H. have E : (mx k m (eye_ 1 k m))^T = mx m k (eye_ 1 m k).
    rewrite !mx_build. apply/matrixP => i j. by rewrite !mxE eq_sym.
  rewrite -[X in X *m _]trmxK E. exact: eye_orth.
Qed.
Lemma d_rt_ok md : rt_ok (d_rt md) /\ rt_lossless (d_rt md).
Proof.
  have T : all exact_entry d_svd_table by vm_compute. split; split=> //.
  - by apply: qr_table_ok; vm_compute.
  - split; last by move=> t; exact: (trunc_table_ok (exact_trunc T)).
    move=> t x r u s vt [_ _ <-] k. split; first by []. apply: eye_orth_rows. exact: leq_trans (geq_minr _ _) (geq_minr _ _).
  - split; last by []. move=> x u s vt [_ _ <-]. split; first by []. exact: eye_orth_rows.
  - by move=> t; exact: (exact_table_ok T).
Qed.
Lemma d_wf : ti_wf 1 d_st0 /\ rows_aligned d_st0.
Proof.
  have A : get_df_with_cropped_pos_column d_table 1 true = Ok d_data by vm_compute.
  have B : tdrec_train 1 d_rank d_data nil = Ok d_st0 by vm_compute.
  have := Tirec_stream.tirec_stream_main VTIRec 1 d_rank true d_table d_data nil d_st0 d_st0 A B erefl.
  by case=> W [_ [_ [_ [_ H]]]].
Qed.
Lemma d_st1_updated v : ti_update v 1 d_st0 d_chunk true = Ok (d_st1 v) /\ rows_aligned (d_st1 v).
Proof. case: v; (split; [vm_compute; reflexivity|split; vm_compute; reflexivity]). Qed.
Lemma d_follows c : follows (d_model c) d_st0.
Proof. split; [| | |split]; vm_compute; reflexivity. Qed.
Lemma d_model_ok c : model_ok 1 1 1 1 (d_model c).
Proof.
  split; [split; split; vm_compute; reflexivity| |vm_compute; reflexivity|vm_compute; reflexivity|].
  - split; (apply: orth_check; [split; vm_compute; reflexivity|vm_compute; exact: isT]).
  - split; [vm_compute; reflexivity|vm_compute; reflexivity|vm_compute; reflexivity
           |split; vm_compute; reflexivity|split; vm_compute; reflexivity].
Qed.

Lemma d_updated v : v <> VTIRecAInt -> run_update (d_cfg v) 1%N one11 one11 d_rt (d_model 0) d_chunk = Ok (d_x1 v 0).
Proof. move=> H. apply: the_stateE. case: v H => H; [vm_compute; reflexivity|vm_compute; reflexivity|]. by case: H. Qed.
Lemma d_updated_int : run_update (d_cfg VTIRecAInt) 1%N one11 one11 d_rt (d_model 1) d_chunk = Ok (d_x1 VTIRecAInt 1).
Proof. apply: the_stateE. vm_compute. reflexivity. Qed.

Lemma rank_le_check n a nn na nb (t s : cell -> rat) k (x y : mat rat) : (forall c, s c = t c) -> shape nn k x -> shape k (na * nb) y ->
  same_res (qdot x y) (tmat n a nn na nb t) -> (\rank (unf n a nn na nb s) <= k)%N.
Proof.
  move=> E Sx Sy H. have [S1 E1] := tmat_ok n a nn na nb E. have := same_dot Sx Sy S1 H. rewrite E1 => <-.
  exact: leq_trans (mxrankM_maxl _ _) (rank_leq_col _).
Qed.
Definition d_step (md : mode) (n k : nat) : ti_step :=
  mkTiStep md (Z.of_nat n) (Z.of_nat n) [:: ((Z.of_nat 1, Z.of_nat 1, Z.of_nat 0), Z.of_nat 1)] [:: ((Z.of_nat k, Z.of_nat k, Z.of_nat 0), Z.of_nat 1)].
Definition d_log (v : variant) : list ti_step :=
  match v with
  | VTIRec => [:: d_step MNew 1 0]
  | VTIRecA => [:: d_step MNew 1 0; d_step MOld 2 1]
  | VTIRecAInt => [:: d_step MOld 2 1]
  end.
Lemma d_log_is v : ti_log (d_st1 v) = (ti_log d_st0 ++ d_log v)%list.
Proof. case: v; vm_compute; reflexivity. Qed.
Definition d_early (v : variant) (c : cell) : rat := value 1 (d_model 0) c + sum_at (added_early f_of v (d_log v)) c.
Definition d_all (v : variant) (c : cell) : rat := value 1 (d_model 0) c + sum_at (added f_of v (d_log v)) c.
Lemma d_rows v : v <> VTIRecAInt -> n_rows (d_x1 v 0) 0 = 2%N /\ n_rows (d_x1 v 0) 1 = 2%N.
Proof. case: v => H; [split; vm_compute; reflexivity|split; vm_compute; reflexivity|by case: H]. Qed.
Lemma d_recover v : v <> VTIRecAInt ->
  [/\ recover_check 0 1 2 2 1 (d_all v) (d_early v) (tmat 0 1 2 2 1 (d_early v)),
      recover_check 1 0 2 2 1 (d_all v) (d_early v) (tmat 1 0 2 2 1 (d_early v))
    & recover_check 2 0 1 2 2 (d_all v) (d_early v) (tmat 2 0 1 2 2 (d_early v))].
Proof. case: v => H; [split; vm_compute; exact: isT|split; vm_compute; exact: isT|by case: H]. Qed.
Definition d_row (m : nat) : mat rat := transpose 0 (d_last m).
Lemma d_early_ranks v : v <> VTIRecAInt ->
  [/\ same_res (qdot (d_last 2) (d_row 2)) (tmat 0 1 2 2 1 (d_early v)),
      same_res (qdot (d_last 2) (d_row 2)) (tmat 1 0 2 2 1 (d_early v))
    & same_res (qdot one11 (d_row 4)) (tmat 2 0 1 2 2 (d_early v))].
Proof. case: v => H; [split; vm_compute; exact: isT|split; vm_compute; exact: isT|by case: H]. Qed.
Lemma d_spans (t : cell -> rat) : spans_positions 1 1 2 2 (d_model 0) t.
Proof.
  have P : proj 1 1 (factor (nt_fs (d_model 0)) 2) = 1%:M.
    rewrite /proj. apply/matrixP => i j. rewrite !ord1 !mxE big_ord_recl big_ord0 addr0 !mxE. vm_compute. reflexivity.
  by rewrite /spans_positions P mul1mx.
Qed.
Lemma d_lossless v : v <> VTIRecAInt -> lossless_update f_of (d_cfg v) 1 1 1 1 (d_model 0) (d_x1 v 0) (d_log v).
Proof.
  move=> H. have [N0 N1] := d_rows H. have [R0 R1 R2] := d_recover H. have [Q0 Q1 Q2] := d_early_ranks H.
  rewrite /lossless_update N0 N1. split.
  - move=> _. split.
    + split; [apply: (rank_le_check (x := d_last 2) (y := d_row 2) _ _ _ Q0)|apply: (rank_le_check (x := d_last 2) (y := d_row 2) _ _ _ Q1)
             |apply: (rank_le_check (x := one11) (y := d_row 4) _ _ _ Q2)];
        try (split; vm_compute; reflexivity); move=> c; rewrite sum_atE; reflexivity.
    + right. split; last exact: d_spans. clear. case: v => s.
      * by move=> [<-|[]].
      * by move=> [<-|[<-|[]]].
      * by move=> [<-|[]].
  - split; [apply: (recover_ok _ _ R0)|apply: (recover_ok _ _ R1)|apply: (recover_ok _ _ R2)] => c;
      rewrite sum_atE; reflexivity.
  - clear. case: v => s.
    + move=> [<-|[]] _. vm_compute. reflexivity.
    + move=> [<-|[<-|[]]] _; vm_compute; reflexivity.
    + move=> [<-|[]] _. vm_compute. reflexivity.
  - right. reflexivity.
Qed.
Lemma d_values :
  [/\ value 1 (d_x1 VTIRec 0) (1, 1, 0)%N = 1, value 1 (d_x1 VTIRecA 0) (1, 1, 0)%N = 2%:Q,
      value 1 (d_x1 VTIRecAInt 1) (1, 1, 0)%N = 0,
      (forall v, v <> VTIRecAInt -> history_value f_of (nt_seq (d_x1 v 0)) (1, 1, 0)%N = 1) /\ history_value f_of (nt_seq (d_x1 VTIRecAInt 1)) (1, 1, 0)%N = 1
    & forall c, value 1 (d_model c) (1, 1, 0)%N = 0 /\ history_value f_of (nt_seq (d_model c)) (1, 1, 0)%N = 0].
Proof.
  split; [vm_compute; reflexivity|vm_compute; reflexivity|vm_compute; reflexivity| |].
  - split; [|vm_compute; reflexivity]. case=> H; [vm_compute; reflexivity|vm_compute; reflexivity|by case: H].
  - move=> c. split; vm_compute; reflexivity.
Qed.
Lemma d_holds : value 1 (d_model 1) (0, 0, 0)%N = 1 /\ history_value f_of (nt_seq (d_model 1)) (0, 0, 0)%N = 1.
Proof. split; vm_compute; reflexivity. Qed.

(** Two models of the same tensor whose scores are not 0: one user with the items 0 and 1 and
    two positions, and the same factors with the signs changed. *)
Definition s_table : list DataPrep_model.row := [:: mkRow 5 10 1 1; mkRow 5 20 2 1]%Z.
Definition s_data : list prow := match get_df_with_cropped_pos_column s_table 2 true with Ok d => d | Err _ => [::] end.
Definition s_rank := (Z.of_nat 1, Z.of_nat 1, Z.of_nat 1).
Definition s_st : ti_state := match tdrec_train 2 s_rank s_data nil with Ok s => s | Err _ => f_st0 end.
Definition s_id : mat rat := eye_ 1 2 2.
Definition s_col (e : rat) : mat rat := mkMat 2 1 [:: e * frac 3 5; e * frac 4 5].
Definition s_model (e : rat) : @nti_state rat :=
  let w := s_col e in
  let p := match position_embeddings 0 +%R *%R s_id s_id w with Ok p => p | Err _ => (s_id, nil) end in
  mkNti (ti_maps s_st) (ti_history s_st) (ti_seq s_st) (mkMat 1 1 [:: e], s_col e, w) (mkTen (1, 1, 1)%N [:: e * 5%:Q]) p.1 p.2.
Lemma s_wf : ti_wf 2 s_st.
Proof.
  have A : get_df_with_cropped_pos_column s_table 2 true = Ok s_data by vm_compute.
  have B : tdrec_train 2 s_rank s_data nil = Ok s_st by vm_compute.
  have := Tirec_stream.tirec_stream_main VTIRec 2 s_rank true s_table s_data nil s_st s_st A B erefl.
  by case=> W _.
Qed.
Lemma s_facts e : e = 1 \/ e = -1 ->
  [/\ follows (s_model e) s_st, model_ok 1 1 1 2 (s_model e), n_rows (s_model e) 0 = 1%N, n_rows (s_model e) 1 = 2%N
    & position_embeddings 0 +%R *%R s_id s_id (factor (nt_fs (s_model e)) 2) = Ok (nt_aw (s_model e), nt_last (s_model e))].
Proof.
  case=> ->.
  - split; [| |vm_compute; reflexivity|vm_compute; reflexivity|vm_compute; reflexivity].
    + split; [| | |split]; vm_compute; reflexivity.
    + split; [split; split; vm_compute; reflexivity| |vm_compute; reflexivity|vm_compute; reflexivity|].
      * split; (apply: orth_check; [split; vm_compute; reflexivity|vm_compute; exact: isT]).
      * split; [vm_compute; reflexivity|vm_compute; reflexivity|vm_compute; reflexivity
               |split; vm_compute; reflexivity|split; vm_compute; reflexivity].
  - split; [| |vm_compute; reflexivity|vm_compute; reflexivity|vm_compute; reflexivity].
    + split; [| | |split]; vm_compute; reflexivity.
    + split; [split; split; vm_compute; reflexivity| |vm_compute; reflexivity|vm_compute; reflexivity|].
      * split; (apply: orth_check; [split; vm_compute; reflexivity|vm_compute; exact: isT]).
      * split; [vm_compute; reflexivity|vm_compute; reflexivity|vm_compute; reflexivity
               |split; vm_compute; reflexivity|split; vm_compute; reflexivity].
Qed.
Definition s_cells : list cell := [seq (0%N, j, k) | j <- iota 0 2, k <- iota 0 2].
Lemma s_cells_check : all (fun c => value 2 (s_model 1) c == value 2 (s_model (-1)) c) s_cells.
Proof. vm_compute. reflexivity. Qed.
Lemma s_values c : value 2 (s_model 1) c = value 2 (s_model (-1)) c.
Proof.
  have [_ _ P0 P1 _] := s_facts (or_introl erefl). have [_ _ Q0 Q1 _] := s_facts (or_intror erefl).
  have C := s_cells_check. move: (s_model 1) (s_model (-1)) P0 P1 Q0 Q1 C => x y P0 P1 Q0 Q1 C.
  case B : (inside 1 2 2 c); last by rewrite /value P0 P1 Q0 Q1 B.
  case: c B => -[i j] k /and3P [H0 H1 H2]. apply/eqP. move/allP: C; apply.
  move: H0. rewrite /c0 /= ltnS leqn0 => /eqP ->. apply/allpairsP. exists (j, k). by split=> //; rewrite mem_iota.
Qed.
Lemma rank_one_check n a nn na nb (t : cell -> rat) (x y : mat rat) : shape nn 1 x -> shape 1 (na * nb) y ->
  same_res (qdot x y) (tmat n a nn na nb t) -> (exists i j, mget 0 (tmat n a nn na nb t) i j <> 0 /\ (i < nn)%N /\ (j < na * nb)%N) ->
  \rank (unf n a nn na nb t) = 1%N.
Proof.
  move=> Sx Sy H [i [j [N [Hi Hj]]]]. have [_ E] := tmat_ok n a nn na nb (t := t) (fun c => erefl).
  have U := rank_le_check (s := t) (fun c => erefl) Sx Sy H. apply/eqP. rewrite eqn_leq U lt0n mxrank_eq0. apply/eqP => Z0.
  apply: N. have := congr1 (fun M : 'M_(_, _) => M (Ordinal Hi) (Ordinal Hj)) E. by rewrite Z0 !mxE.
Qed.
Lemma s_ranks : \rank (unf 1 0 2 1 2 (value 2 (s_model 1))) = 1%N /\ \rank (unf 2 0 2 1 2 (value 2 (s_model 1))) = 1%N.
Proof.
  split.
  - apply: (rank_one_check (x := s_col 1) (y := transpose 0 (s_col 5%:Q))).
    + split; vm_compute; reflexivity.
    + split; vm_compute; reflexivity.
    + vm_compute. exact: isT.
    + exists 0%N, 0%N. split; [|split; vm_compute; reflexivity]. apply/eqP. vm_compute. exact: isT.
  - apply: (rank_one_check (x := s_col 1) (y := transpose 0 (s_col 5%:Q))).
    + split; vm_compute; reflexivity.
    + split; vm_compute; reflexivity.
    + vm_compute. exact: isT.
    + exists 0%N, 0%N. split; [|split; vm_compute; reflexivity]. apply/eqP. vm_compute. exact: isT.
Qed.
Lemma s_scores : exists q, nti_scores 0 +%R *%R (s_model 1) Z0 = Ok q /\ q <> [:: 0; 0].
Proof.
  exists [:: frac 144 625; frac 192 625]. split; [vm_compute; reflexivity|]. move/eqP. vm_compute. discriminate.
Qed.
