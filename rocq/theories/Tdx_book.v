(** The histories of an object that is trained again and again. *)
From Coq Require Import ZArith List Bool Lia Permutation.
From Verif Require Import Prelude Prelude_proofs DataPrep_model DataPrep_spec DataPrep_proofs DataPrep_main
  History_model History_spec History_proofs History_main Recommend_model Recommend_spec Recommend_main Psi_model Psi_spec
  Tirec_model Tirec_spec Tirec_proofs Tirec_main Tirec_assembly Tirec_stream Tensor_model Matrix_model Attention_model Attention_spec Attention_proofs Attention_main Nti_train Full_spec Seqx_spec Seqx_book Seqx_upd Seqx_inv Tdx_spec.
Import ListNotations.
Open Scope Z_scope.

(** ** Tables with the same rows of every user *)
Definition alike (P Q : list row) : Prop := forall u, rows_of u P = rows_of u Q.
Lemma alike_count (key : row -> Z) P Q : alike P Q -> ndistinct (map key P) = ndistinct (map key Q).
Proof.
  intros H. apply (count_by Some); [congruence| |].
  - intros a Ha. exists a. split; auto. now apply (same_map key _ _ H).
  - intros b Hb. exists b. split; auto. now apply (same_map key _ _ H).
Qed.
Lemma alike_trainable r0 r1 r2 L P Q : alike P Q -> (seq_trainable r0 r1 r2 L P <-> seq_trainable r0 r1 r2 L Q).
Proof.
  intros H. unfold seq_trainable, n_users_in, n_items_in. rewrite !(alike_count _ _ _ H).
  split; intros [A [B [C [u D]]]]; repeat (split; auto); exists u; [rewrite <- H|rewrite H]; auto.
Qed.
Lemma alike_sinv L st P Q : alike P Q -> sinv L st P -> sinv L st Q.
Proof.
  intros H [[P0 [I E]] S]. split.
  - exists P0. split; auto. intros u. now rewrite E, H.
  - intros u x Hu. destruct (S u x Hu) as [d [l [E1 [E2 F]]]]. exists d, l. rewrite <- H. auto.
Qed.
Lemma alike_keep L keep A B : crops L true keep -> alike A B -> alike (keep A) (keep B).
Proof.
  intros C H u. destruct (C A u) as [x [Hx ->]]. destruct (C B u) as [y [Hy ->]]. rewrite H in Hx. f_equal.
  eapply StableSorted_unique; eauto.
Qed.
Lemma alike_app A B c : alike A B -> alike (A ++ c) (B ++ c).
Proof. intros H u. now rewrite !rows_of_app, H. Qed.
Lemma keep_incl L keep P : crops L true keep -> incl (keep P) P.
Proof.
  intros C r Hr. apply rows_of_In in Hr. destruct (C P (r_user r)) as [x [Hx E]]. rewrite E in Hr.
  apply lastn_incl in Hr. destruct Hx as [_ [Px _]]. apply (Permutation_in _ (Permutation_sym Px)) in Hr. apply rows_of_In. exact Hr.
Qed.
Lemma keep_users L keep P u : (1 <= L)%nat -> crops L true keep -> (In u (map r_user (keep P)) <-> In u (map r_user P)).
Proof.
  intros HL C. split.
  - intros H. apply in_map_iff in H as [r [<- Hr]]. apply in_map. eapply keep_incl; eauto.
  - intros H. destruct (C P u) as [x [Hx E]]. destruct (in_dec Z.eq_dec u (map r_user (keep P))) as [|N]; auto. exfalso.
    apply rows_of_none in N. rewrite N in E. apply StableSorted_length in Hx.
    assert (L0 : length (lastn L x) = 0%nat) by now rewrite <- E. rewrite lastn_length in L0.
    assert (L1 : length (rows_of u P) = 0%nat) by lia. apply length_zero_iff_nil in L1. now apply rows_of_none in L1.
Qed.
Lemma users_more L keep P c : (1 <= L)%nat -> crops L true keep -> (ndistinct (map r_user P) <= ndistinct (map r_user (keep (P ++ c))))%nat.
Proof.
  intros HL C. apply NoDup_incl_length; [apply NoDup_nodup|]. intros u Hu. apply nodup_In in Hu. apply nodup_In.
  apply (keep_users L keep _ u HL C). rewrite map_app, in_app_iff. auto.
Qed.
Lemma recropped_S keep P0 stream t c : nth_error stream t = Some c ->
  recropped keep P0 stream (S t) = keep (recropped keep P0 stream t ++ c).
Proof.
  intros E. unfold recropped.
  assert (F : firstn (S t) stream = firstn t stream ++ [c]).
  { clear -E. revert t E. induction stream as [|x l IH]; intros [|t] E; cbn in *; try discriminate; [congruence|]. now rewrite <- (IH t E). }
  rewrite F, fold_left_app. reflexivity.
Qed.

(** ** Training prepares the same data whatever the histories *)
Lemma prepare_seq data seq L : match tdrec_prepare data [] L with
  | Ok td => tdrec_prepare data seq L = Ok (mkTrain (td_mappings td) (td_inds td) (td_vals td) (td_shape td) (td_history td)
                                             (update_user_seq_history (td_inds td) seq L))
  | Err e => tdrec_prepare data seq L = Err e
  end.
Proof.
  unfold tdrec_prepare. destruct (get_df_with_updated_indices (map p_row data)) as [[rows ms]|]; cbn [bind]; auto.
  destruct (maxZ _); cbn [bind]; auto. destruct (maxZ _); cbn [bind]; auto. destruct (maxZ _); cbn [bind]; auto.
Qed.

(** Histories of at most [L] items of a model with [ni] items. *)
Definition hist_len (L : nat) (h : seq_history) : Prop := wf_hist h /\ forall u d, dget u h = Some d -> dq_maxlen d = L.
Definition hist_in (ni : Z) (h : seq_history) : Prop :=
  forall u d j, dget u h = Some d -> In j (dq_items d) -> j <> PAD_VALUE -> 0 <= j < ni.

Lemma update_len L inds h : hist_len L h -> hist_len L (update_user_seq_history inds h L).
Proof.
  intros [W M]. split; [now apply wf_update|]. intros u d. rewrite dget_update by auto.
  destruct (dget u h) as [d0|] eqn:E; cbn [start_deque].
  - intros H. injection H as <-. cbn. eauto.
  - destruct (items_of u inds); [discriminate|]. intros H. injection H as <-. reflexivity.
Qed.
Lemma update_in L ni ni' inds h : hist_len L h -> hist_in ni h -> ni <= ni' ->
  (forall t, In t inds -> 0 <= t_item t < ni') -> hist_in ni' (update_user_seq_history inds h L).
Proof.
  intros [W M] I LE B u d j. rewrite dget_update by auto.
  assert (IB : forall j, In j (items_of u inds) -> 0 <= j < ni').
  { intros x Hx. unfold items_of in Hx. apply in_map_iff in Hx as [t [<- Ht]]. apply filter_In in Ht as [Ht _]. auto. }
  destruct (dget u h) as [d0|] eqn:E; cbn [start_deque].
  - intros H. injection H as <-. cbn [dq_items]. intros Hj N. apply lastn_incl in Hj. apply in_app_iff in Hj as [Hj|Hj]; [|auto].
    specialize (I u d0 j E Hj N). lia.
  - destruct (items_of u inds) as [|i is] eqn:EI; [discriminate|]. intros H. injection H as <-. cbn [dq_items dq_maxlen]. intros Hj N.
    apply lastn_incl in Hj. apply in_app_iff in Hj as [Hj|Hj]; [apply repeat_spec in Hj; congruence|auto].
Qed.
(** A user of the table: something, followed by their own items. *)
Lemma update_own L inds h u is : hist_len L h -> items_of u inds = is -> (0 < length is)%nat ->
  exists d old, dget u (update_user_seq_history inds h L) = Some d /\ dq_items d = lastn L (old ++ is).
Proof.
  intros [W M] E N. rewrite dget_update by auto. rewrite E. destruct (dget u h) as [d0|] eqn:Ed; cbn [start_deque].
  - eexists _, (dq_items d0). split; [reflexivity|]. cbn. now rewrite (M u d0 Ed).
  - destruct is as [|i is]; [cbn in N; lia|]. eexists _, (repeat PAD_VALUE L). split; [reflexivity|]. reflexivity.
Qed.

Lemma nopad_filter l : nopad l -> filter (fun x => negb (x =? PAD_VALUE)) l = l.
Proof.
  induction l as [|x l IH]; intros N; cbn; auto. destruct (Z.eqb_spec x PAD_VALUE) as [E|E].
  - exfalso. apply (N x); [now left|exact E].
  - cbn. f_equal. apply IH. intros y Hy. apply N. now right.
Qed.
(** The latest items are the user's own if they have enough. *)
Lemma latest_own L old is d : nopad is -> (L - 1 <= length is)%nat -> dq_items d = lastn L (old ++ is) ->
  lastn (L - 1) (filter (fun x => negb (x =? PAD_VALUE)) (dq_items d)) = lastn (L - 1) is.
Proof.
  intros N HL ->. destruct (le_lt_dec L (length is)) as [H|H].
  - rewrite lastn_app_ge by lia. rewrite nopad_filter; [|intros x Hx; apply lastn_incl in Hx; auto]. apply lastn_lastn. lia.
  - rewrite lastn_app_le by lia. rewrite filter_app, (nopad_filter is N), lastn_app_ge by lia. reflexivity.
Qed.
Lemma latest_some L old is d : nopad is -> (1 <= L)%nat -> (0 < length is)%nat -> dq_items d = lastn L (old ++ is) ->
  exists j, In j (dq_items d) /\ j <> PAD_VALUE.
Proof.
  intros N HL HI ->. destruct (exists_last (l := is)) as [l [x ->]]; [destruct is; [cbn in HI; lia|congruence]|].
  exists x. split; [|apply N, in_or_app; right; now left]. rewrite app_assoc. destruct L as [|L]; [lia|].
  destruct (lastn_suffix (S L) ((old ++ l) ++ [x])) as [p E].
  assert (Ne : lastn (S L) ((old ++ l) ++ [x]) <> []).
  { intros Z0. apply (f_equal (@length Z)) in Z0. rewrite lastn_length, app_length in Z0. cbn [length] in Z0. lia. }
  destruct (exists_last Ne) as [m [y Ey]]. rewrite Ey in *. rewrite app_assoc in E. apply app_inj_tail in E as [_ ->].
  apply in_or_app. right. now left.
Qed.

(** Scores use the latest items only. *)
Lemma positions_same us us' n : lastn (n - 1) us = lastn (n - 1) us' ->
  get_pos_items_arrays us (Z.of_nat n) = get_pos_items_arrays us' (Z.of_nat n).
Proof.
  intros H. destruct (positions_main us n) as [L1 N1]. destruct (positions_main us' n) as [L2 N2].
  pose proof (f_equal (@length Z) H) as LL. rewrite !lastn_length in LL.
  apply nth_error_ext. intros p. destruct (le_lt_dec (Nat.min (length us) (n - 1)) p) as [G|G].
  - rewrite (proj2 (nth_error_None _ _)) by lia. symmetry. apply nth_error_None. lia.
  - rewrite N1, N2 by lia.
    assert (X : forall l, (p < length (lastn (n - 1) l))%nat -> nth p (rev l) 0 = nth p (rev (lastn (n - 1) l)) 0).
    { intros l Hp. destruct (lastn_suffix (n - 1) l) as [a Ea]. rewrite Ea at 1. rewrite rev_app_distr. apply app_nth1. now rewrite rev_length. }
    rewrite (X us), (X us'), H by (rewrite lastn_length; lia). reflexivity.
Qed.
