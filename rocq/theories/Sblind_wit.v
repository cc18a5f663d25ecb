(** Rational data for the concrete cases: three users, each with four interactions with an
    item of their own, and three further users of the first item. *)
From Coq Require Import ZArith Lia.
From Verif Require Import Prelude DataPrep_model DataPrep_spec History_model History_spec Recommend_model Psi_model Tirec_model Tirec_spec
  Tensor_model Tensor_spec Matrix_model Attention_model LinAlg_model Tucker_model Hooi_model Upd_model Nti_model Full_spec Seqx_spec Seqx_model.
From Verif Require Tirec_stream Rex_book.
Set Warnings "-notation-overridden".
From mathcomp Require Import all_ssreflect all_algebra.
From Verif Require Import LinAlg_spec LinAlg_bridge LinAlg_tables LinAlg_wit Tucker_spec Hooi_spec Hooi_wit Upd_spec Upd_wit Exact_spec Exact_wit
  Nti_spec Nti_sim Nti_exact Nti_track Nti_wit Sblind_spec.
From Verif Require Sblind_main.
Set Implicit Arguments.
Unset Strict Implicit.
Unset Printing Implicit Defensive.
Import GRing.Theory Num.Theory.
Local Open Scope ring_scope.

(** QR of matrices with orthogonal columns of rational lengths; raises on any other. *)
Definition root (y : rat) : rat := head 0 [seq r <- [seq frac (Posz n) d | n <- iota 1 16, d <- [:: 1; 2; 4]%N] | r * r == y].
Definition b_norm (x : mat rat) (j : nat) : rat := root (foldr (fun i acc => mget 0 x i j * mget 0 x i j + acc) 0 (iota 0 (mr x))).
Definition b_qr (x : mat rat) : res (mat rat * mat rat) :=
  let q := build (mr x) (mc x) (fun i j => mget 0 x i j / b_norm x j) in
  let r := build (mc x) (mc x) (fun i j => if i == j then b_norm x j else 0) in
  if qr_entry (x, (q, r)) then Ok (q, r) else Err LinAlgError.
Lemma same_refl x : same x x.
Proof. apply/and3P. split=> //. by apply/allP => i _; apply/allP. Qed.
Lemma b_qr_ok : qr_ok b_qr.
Proof.
  move=> x q r. rewrite /b_qr. set q' := build _ _ _. set r' := build _ _ _. case: ifP => // H [<- <-].
  have T : all qr_entry [:: (x, (q', r'))] by rewrite all_seq1.
  apply: (qr_table_ok T). by cbn [lookup]; rewrite same_refl.
Qed.

Definition b_four (u i t : Z) : list DataPrep_model.row := [:: mkRow u i t 1; mkRow u i (t + 1) 1; mkRow u i (t + 2) 1; mkRow u i (t + 3) 1]%Z.
Definition b_table : list DataPrep_model.row := (b_four 5 10 1 ++ b_four 6 20 1 ++ b_four 7 30 1)%list%Z.
Definition b_data : list prow := match get_df_with_cropped_pos_column b_table 4 true with Ok d => d | Err _ => [::] end.
Definition b_chunk : list DataPrep_model.row := (b_four 8 10 5 ++ b_four 9 10 5 ++ b_four 11 10 5)%list%Z.
Definition b_keep := Rex_book.keep_of 4.
Lemma b_crops : crops 4 true b_keep.
Proof. apply: Rex_book.keep_crops. lia. Qed.
Definition b_rsvd (t : nat) (x : mat rat) (r : nat) : res (mat rat * list rat * mat rat) :=
  let k := minn r (minn (mr x) (mc x)) in
  if (mr x == 4%N) && (k == 1%N) then Ok (col4 (frac 1 2), nseq 1 1, eye_ 1 1 (mc x)) else f_rsvd t x r.
Lemma b_inner : inner_ok b_rsvd.
Proof.
  move=> t x r u s vt. rewrite /b_rsvd. case: ifP => [/andP [/eqP M /eqP K] [<- _ _]|_ E]; last exact: (f_inner E).
  rewrite K M. split; first by []. apply: (orth_check (m := 4) (k := 1)); [by []|by vm_compute].
Qed.
Definition b_train (a ainv : mat rat) := nti_train 0 +%R *%R f_of b_qr f_rand b_rsvd h_norm 0 h_grew 4 (3, 3, 1)%N a ainv 1 true b_data nil.
Definition b_x0 : @nti_state rat := the_state (b_train f_id f_id).
Lemma b_trained : b_train f_id f_id = Ok b_x0.
Proof. apply: the_stateE. by vm_compute. Qed.
Definition b_rt (md : mode) : routines rat :=
  @mkRoutines rat b_qr f_fail f_fail f_fail f_rand f_rand (fun _ => f_fail) (fun _ => f_fail) (fun _ => Err LinAlgError) (f_rand 0).
Definition b_x1 : @nti_state rat := the_state (run_update f_cfg 4%N f_id f_id b_rt b_x0 b_chunk).
Lemma b_updated : run_update f_cfg 4%N f_id f_id b_rt b_x0 b_chunk = Ok b_x1.
Proof. apply: the_stateE. vm_compute. reflexivity. Qed.
Lemma b_rt_ok md : rt_ok (b_rt md) /\ rt_lossless (b_rt md).
Proof. split; split=> //. exact: b_qr_ok. Qed.

(** The data handling of the same run. *)
Definition b_rank := (Z.of_nat 3, Z.of_nat 3, Z.of_nat 1).
Definition b_st0 : ti_state := match tdrec_train 4 b_rank b_data nil with Ok s => s | Err _ => f_st0 end.
Lemma b_st0_trained : tdrec_train 4 b_rank b_data nil = Ok b_st0.
Proof. by vm_compute. Qed.
Lemma b_cropped : get_df_with_cropped_pos_column b_table 4 true = Ok b_data.
Proof. by vm_compute. Qed.
Lemma b_two : Peano.le 2 (length (catalogue (b_keep b_table))).
Proof. apply/leP. by vm_compute. Qed.
Definition b_st1 : ti_state := match ti_update VTIRecAInt 4 b_st0 b_chunk true with Ok s => s | Err _ => b_st0 end.
Lemma b_st1_updated : ti_update VTIRecAInt 4 b_st0 b_chunk true = Ok b_st1.
Proof. by vm_compute. Qed.
Definition b_entries : list entry :=
  flatten [seq [seq ((Z.of_nat u, Z0, Z.of_nat p), Z.of_nat 1) | p <- iota 0 4] | u <- iota 3 3].
Definition b_log : list ti_step := [:: mkTiStep MOld (Z.of_nat 6) (Z.of_nat 3) b_entries b_entries].
Lemma b_log_is : ti_log b_st1 = (ti_log b_st0 ++ b_log)%list.
Proof. by vm_compute. Qed.
Definition b_early (c : cell) : rat := value 4 b_x0 c + sum_at (added_early f_of VTIRecAInt b_log) c.
Definition b_all (c : cell) : rat := value 4 b_x0 c + sum_at (added f_of VTIRecAInt b_log) c.
Lemma b_rows : n_rows b_x1 0 = 6%N /\ n_rows b_x1 1 = 3%N.
Proof. split; vm_compute; reflexivity. Qed.
Lemma b_recover :
  [/\ recover_check 0 1 6 3 4 b_all b_early (tmat 0 1 6 3 4 (fun c => frac 1 4 * b_early c)),
      recover_check 1 0 3 6 4 b_all b_early (tmat 1 0 3 6 4 (fun c => frac 1 4 * b_all c))
    & recover_check 2 0 4 6 3 b_all b_early (tmat 2 0 4 6 3 (fun c => frac 1 12 * b_all c))].
Proof. split; vm_compute; exact: isT. Qed.
Lemma b_lossless : lossless_update f_of f_cfg 3 3 1 4 b_x0 b_x1 b_log.
Proof.
  have [N0 N1] := b_rows. rewrite /lossless_update N0 N1. have [R0 R1 R2] := b_recover.
  split.
  - move=> H. case: H. vm_compute. reflexivity.
  - split; [apply: (recover_ok _ _ R0)|apply: (recover_ok _ _ R1)|apply: (recover_ok _ _ R2)] => c;
      rewrite sum_atE; reflexivity.
  - move=> s [<-|[]] _. vm_compute. reflexivity.
  - right. reflexivity.
Qed.
Definition b_cells : list cell := [seq (p.1, p.2, k) | p <- [seq (i, j) | i <- iota 0 3, j <- iota 0 3], k <- iota 0 4].
Lemma b_cells_check : all (fun c => value 4 b_x0 c == history_value f_of (nt_seq b_x0) c) b_cells.
Proof. vm_compute. reflexivity. Qed.
Lemma b_rows0 : n_rows b_x0 0 = 3%N /\ n_rows b_x0 1 = 3%N.
Proof. split; vm_compute; reflexivity. Qed.
Lemma in_cells c : inside 3 3 4 c -> c \in b_cells.
Proof.
  case: c => [[i j] k] /and3P [H0 H1 H2]. apply/allpairsP. exists ((i, j), k). split; [|by rewrite mem_iota|by []].
  apply/allpairsP. exists (i, j). by split=> //; rewrite mem_iota.
Qed.
Lemma b_holds c : inside (n_rows b_x0 0) (n_rows b_x0 1) 4 c -> value 4 b_x0 c = history_value f_of (nt_seq b_x0) c.
Proof.
  have [-> ->] := b_rows0. move/in_cells => H. apply/eqP. move: b_cells_check => /allP. by apply.
Qed.
Lemma b_stream_lossless : lossless_stream f_of f_eps f_one f_cfg 3 3 1 4 f_id f_id (fun _ => b_rt) true b_x0 b_st0 [:: b_chunk].
Proof.
  have LL := b_lossless. have E := b_updated. have ES := b_st1_updated. have EL := b_log_is.
  move: b_x0 b_x1 b_st0 b_st1 b_log E ES EL LL => x0 x1 st0 st1 l E ES EL LL. cbn [lossless_stream]. move=> y st m EY EST EM.
  move: EY. rewrite E => -[<-]. move: EST. rewrite ES => -[E1]. subst st.
  have -> : m = l by rewrite EL in EM; exact: esym (List.app_inv_head _ _ _ EM).
  split; [exact: LL|left; reflexivity|exact: I].
Qed.
Definition b_past : list DataPrep_model.row := (b_keep b_table ++ List.concat (List.map b_keep [:: b_chunk]))%list.
Lemma b_unseen : unseen b_past (Z.of_nat 8) = [:: Z.of_nat 20; Z.of_nat 30] /\ unseen b_past (Z.of_nat 6) = [:: Z.of_nat 30; Z.of_nat 10].
Proof. split; vm_compute; reflexivity. Qed.
Lemma b_own : score_of (nti_rec 0 +%R *%R b_x1) (Z.of_nat 8) (Z.of_nat 10) = Some (frac 3 4).
Proof. vm_compute. reflexivity. Qed.

(** Training with attention: three times the identity plus a cyclic shift. *)
Definition b_att : mat rat := build 4 4 (fun i j => if i == j then 3%:Q else if (j == i.+1 %% 4)%N then 1 else 0).
Definition b_inv : mat rat := build 4 4 (fun i j => nth 0 [:: frac 27 80; frac (- 9%:Z) 80; frac 3 80; frac (- 1%:Z) 80] ((j + 4 - i) %% 4)).
Definition b_xa : @nti_state rat := the_state (b_train b_att b_inv).
Lemma b_trained_att : b_train b_att b_inv = Ok b_xa.
Proof. apply: the_stateE. by vm_compute. Qed.
Lemma b_att_shape : shape 4 4 b_att /\ shape 4 4 b_inv.
Proof. split; split; vm_compute; reflexivity. Qed.
Lemma b_att_unit : mx 4 4 b_att \in unitmx.
Proof.
  have [Sa Si] := b_att_shape. have [Se Ee] := eye_ok rat_comRing 4.
  have H : mx 4 4 b_att *m mx 4 4 b_inv = 1%:M.
  { rewrite -Ee. apply: (same_dot Sa Si Se). vm_compute. exact: isT. }
  by case: (mulmx1_unit H).
Qed.
Lemma b_wf : ti_wf 4 b_st0.
Proof.
  have := Tirec_stream.tirec_stream_main VTIRec 4 b_rank true b_table b_data nil b_st0 b_st0 b_cropped b_st0_trained erefl.
  by case.
Qed.
Lemma b_follows : follows b_xa b_st0.
Proof. split; [| | |split]; vm_compute; reflexivity. Qed.
Definition b_weighted (c : cell) : rat :=
  foldr (fun p acc => history_value f_of (nt_seq b_xa) (c.1, p) * mget 0 b_att p c.2 + acc) 0 (iota 0 4).
Lemma b_att_check : all (fun c => value 4 b_xa c == b_weighted c) b_cells.
Proof. vm_compute. reflexivity. Qed.
Lemma b_rows_att : n_rows b_xa 0 = 3%N /\ n_rows b_xa 1 = 3%N.
Proof. split; vm_compute; reflexivity. Qed.
Lemma b_att_holds u i (q : 'I_4) : (u < n_rows b_xa 0)%N -> (i < n_rows b_xa 1)%N ->
  value 4 b_xa (u, i, q : nat) = \sum_(p < 4) history_value f_of (nt_seq b_xa) (u, i, p : nat) * mx 4 4 b_att p q.
Proof.
  have [-> ->] := b_rows_att => Hu Hi.
  have H : inside 3 3 4 (u, i, q : nat) by rewrite /inside Hu Hi ltn_ord.
  have := b_att_check => /allP /(_ _ (in_cells H)) /eqP ->.
  rewrite /b_weighted. cbn [fst snd foldr iota].
  rewrite (eq_bigr (fun p : 'I_4 => history_value f_of (nt_seq b_xa) (u, i, p : nat) * mget 0 b_att p q)); last by move=> p _; rewrite mxE.
  move: (history_value _ _) (mget _ _) => h m. by rewrite !big_ord_recl big_ord0.
Qed.
Lemma b_att_reproduces : reproduces b_xa (history_value f_of (nt_seq b_xa)) (mx 4 4 b_att).
Proof. exact: (Sblind_main.history_reproduces f_of_0 (oner_neq0 _) b_wf b_follows b_att_unit b_att_holds). Qed.
Lemma b_own_att : score_of (nti_rec 0 +%R *%R b_xa) (Z.of_nat 5) (Z.of_nat 10) = Some (frac 3 4).
Proof. vm_compute. reflexivity. Qed.
