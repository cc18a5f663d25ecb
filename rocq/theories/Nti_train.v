(** The training tensor in natural numbers. *)
From Coq Require Import ZArith List Bool Lia Permutation.
From Verif Require Import Prelude Prelude_proofs DataPrep_model DataPrep_spec DataPrep_proofs DataPrep_main History_model History_spec
  History_proofs History_main Recommend_model Recommend_main Psi_model Psi_proofs Tirec_model Tirec_spec Tirec_proofs Tirec_main Tirec_assembly
  Tirec_stream Tensor_model.
From Verif Require Tensor_spec.
Import ListNotations.
Open Scope Z_scope.

Definition natc (c : triple) : coord := (Z.to_nat (t_user c), Z.to_nat (t_item c), Z.to_nat (t_pos c)).

Lemma prepare_nat data seq L td :
  (forall p, In p data -> 0 <= p_pos p) -> tdrec_prepare data seq L = Ok td ->
  exists n0 n1 n2 : nat, (0 < n0 /\ 0 < n1 /\ 0 < n2)%nat
    /\ td_shape td = (Z.of_nat n0, Z.of_nat n1, Z.of_nat n2)
    /\ Forall (Tensor_spec.in_range (n0, n1, n2)) (map natc (td_inds td))
    /\ length (td_vals td) = length (td_inds td).
Proof.
  intros HP E. destruct (prepare_initial _ _ _ _ E) as [ini [E1 [F [BU [BI [EI [EV [EH ES]]]]]]]].
  unfold tdrec_prepare in E. rewrite E1 in E. cbn [bind] in E.
  assert (EC : combine (map p_row ini) (map p_pos data) = ini).
  { assert (map p_pos data = map p_pos ini).
    { clear - F. induction F as [|a b l l' [_ Hab] F IH]; simpl; congruence. }
    rewrite H. clear. unfold p_row, p_pos. induction ini as [|[r p] l IH]; cbn [map combine fst snd]; auto.
    f_equal. exact IH. }
  rewrite EC in E. rewrite <- EI in E.
  destruct (maxZ (map t_user (td_inds td))) as [mu|] eqn:M1; [|discriminate]. cbn [bind] in E.
  destruct (maxZ (map t_item (td_inds td))) as [mi|] eqn:M2; [|discriminate]. cbn [bind] in E.
  destruct (maxZ (map t_pos (td_inds td))) as [mp|] eqn:M3; [|discriminate]. cbn [bind] in E.
  assert (SH : td_shape td = (mu + 1, mi + 1, mp + 1)) by (injection E as <-; reflexivity). clear E.
  assert (PI : Permutation (map triple_of ini) (td_inds td)) by (rewrite EI; apply sort_stable_perm).
  assert (POS : forall t, In t (td_inds td) -> 0 <= t_user t /\ 0 <= t_item t /\ 0 <= t_pos t).
  { intros t Ht. apply (Permutation_in _ (Permutation_sym PI)) in Ht. apply in_map_iff in Ht as [q [<- Hq]].
    destruct (Forall2_In_r _ _ _ _ F Hq) as [p [Hp [[R1 [_ [R2 _]]] EP]]].
    apply (bij_f_nonneg _ _ _ BU) in R1. apply (bij_f_nonneg _ _ _ BI) in R2. apply HP in Hp.
    destruct q as [q qp]. unfold triple_of, t_user, t_item, t_pos, p_row, p_pos in *. cbn [fst snd] in *. lia. }
  apply maxZ_spec in M1 as [I1 M1]. apply maxZ_spec in M2 as [I2 M2]. apply maxZ_spec in M3 as [I3 M3].
  apply in_map_iff in I1 as [t1 [<- I1]]. apply in_map_iff in I2 as [t2 [<- I2]]. apply in_map_iff in I3 as [t3 [<- I3]].
  exists (Z.to_nat (t_user t1 + 1)), (Z.to_nat (t_item t2 + 1)), (Z.to_nat (t_pos t3 + 1)).
  pose proof (POS _ I1). pose proof (POS _ I2). pose proof (POS _ I3).
  split; [lia|]. rewrite SH. split; [rewrite !Z2Nat.id by lia; reflexivity|]. split.
  - apply Forall_forall. intros c Hc. apply in_map_iff in Hc as [t [<- Ht]].
    pose proof (POS _ Ht). pose proof (M1 _ (in_map t_user _ _ Ht)). pose proof (M2 _ (in_map t_item _ _ Ht)).
    pose proof (M3 _ (in_map t_pos _ _ Ht)).
    unfold Tensor_spec.in_range, natc, c0, c1, c2; cbn [fst snd]. lia.
  - rewrite EV. rewrite <- (Permutation_length PI), !map_length. reflexivity.
Qed.

Definition rank_valid (r0 r1 r2 : nat) : Prop := (r0 <= r1 * r2 /\ r1 <= r0 * r2 /\ r2 <= r0 * r1)%nat.
Lemma rank_valid_iff r0 r1 r2 :
  tucker_rank_is_valid (Z.of_nat r0, Z.of_nat r1, Z.of_nat r2) = true <-> rank_valid r0 r1 r2.
Proof.
  unfold tucker_rank_is_valid, rank_valid. rewrite !andb_true_iff, !Z.leb_le, <- !Nat2Z.inj_mul, <- !Nat2Z.inj_le. tauto.
Qed.

Lemma train_nat L r0 r1 r2 data seq td n0 n1 n2 :
  tdrec_prepare data seq L = Ok td -> td_shape td = (Z.of_nat n0, Z.of_nat n1, Z.of_nat n2) ->
  let st := mkTi (td_mappings td) (zrange n0) (zrange n1) (td_history td) (td_seq td) [] in
  let r := tdrec_train L (Z.of_nat r0, Z.of_nat r1, Z.of_nat r2) data seq in
  (rank_valid r0 r1 r2 -> (r0 <= n0 /\ r1 <= n1 /\ r2 <= n2 /\ n2 = L)%nat -> r = Ok st)
  /\ (~ rank_valid r0 r1 r2 -> r = Err RuntimeError)
  /\ (rank_valid r0 r1 r2 -> ~ (r0 <= n0 /\ r1 <= n1 /\ r2 <= n2 /\ n2 = L)%nat -> r = Err ValueError).
Proof.
  intros E SH st r. subst r. unfold tdrec_train. rewrite E. cbn [bind]. rewrite SH, !Nat2Z.id.
  split; [|split].
  - intros V F. apply rank_valid_iff in V. rewrite V. cbn [negb].
    replace (_ && (Z.of_nat n2 =? Z.of_nat L)) with true; [reflexivity|].
    symmetry. rewrite !andb_true_iff, !Z.leb_le, Z.eqb_eq. lia.
  - intros V. destruct (tucker_rank_is_valid _) eqn:E1; [|reflexivity]. apply rank_valid_iff in E1. contradiction.
  - intros V F. apply rank_valid_iff in V. rewrite V. cbn [negb].
    destruct (_ && (Z.of_nat n2 =? Z.of_nat L)) eqn:E1; [|reflexivity].
    rewrite !andb_true_iff, !Z.leb_le, Z.eqb_eq in E1. lia.
Qed.

Lemma train_prepare L rank data seq e : tdrec_prepare data seq L = Err e -> tdrec_train L rank data seq = Err e.
Proof. intros E. unfold tdrec_train. rewrite E. reflexivity. Qed.

Lemma cropped_positions table L s data : get_df_with_cropped_pos_column table L s = Ok data -> forall p, In p data -> 0 <= p_pos p.
Proof.
  intros E p Hp. destruct (crop_ok_hyps _ _ _ _ E) as [HL NE]. destruct (crop_main table L s HL NE) as [c [E2 [_ H]]].
  assert (c = data) by congruence. subst c. destruct (H (r_user (p_row p))) as [x [_ HX]].
  assert (HF : In p (filter (fun q => r_user (p_row q) =? r_user (p_row p)) data)).
  { apply filter_In. split; auto. apply Z.eqb_refl. }
  rewrite HX in HF. destruct p as [r q]. apply in_combine_r in HF. unfold p_pos; cbn [snd].
  apply zrange_nonneg in HF. lia.
Qed.
