(** What the chunk boundaries decide: the books of PSI and of the sequential models. *)
From Coq Require Import ZArith List Bool Lia Permutation Sorted.
From Verif Require Import Prelude Prelude_proofs DataPrep_model DataPrep_spec DataPrep_proofs DataPrep_main
  History_model History_spec History_proofs History_main Recommend_model Recommend_spec Recommend_main Psi_model Psi_spec Psi_main
  Tirec_model Tirec_spec Tirec_proofs Tirec_main Tirec_assembly Tirec_stream Nti_train Full_spec Seqx_spec Seqx_book Seqx_upd Seqx_inv Chunks_spec.
Import ListNotations.
Open Scope Z_scope.

(** ** PSI *)
Lemma psi_seen_iff st all u i : Psi_main.inv st all -> (psi_seen st u i <-> exists r, In r all /\ r_user r = u /\ r_item r = i).
Proof.
  intros [C [_ [F [KU [KI _]]]]]. destruct C as [BU [BI _]]. split.
  - intros [x [j [E1 [E2 H]]]]. destruct (Forall2_In_r _ _ _ _ F H) as [r [Hr [F1 F2]]]. cbn [fst snd] in *. exists r. split; auto. unfold fu, fi in *. split.
    + apply BU in E1. apply BU in F1. congruence.
    + apply BI in E2. apply BI in F2. congruence.
  - intros [r [Hr [<- <-]]]. destruct (Forall2_In_l _ _ _ _ F Hr) as [[x j] [H [F1 F2]]]. exists x, j. auto.
Qed.

Lemma perm_all {X} (data : list X) cs1 cs2 : Permutation (concat cs1) (concat cs2) -> Permutation (data ++ concat cs1) (data ++ concat cs2).
Proof. intros P. now apply Permutation_app_head. Qed.

Lemma In_perm_iff {X} (l l' : list X) x : Permutation l l' -> (In x l <-> In x l').
Proof. intros P. split; apply Permutation_in; auto. now apply Permutation_sym. Qed.

Lemma ndistinct_perm (l l' : list Z) : Permutation l l' -> ndistinct l = ndistinct l'.
Proof.
  intros P. unfold ndistinct. apply Permutation_length, NoDup_Permutation; try apply NoDup_nodup.
  intros x. rewrite !nodup_In. now apply In_perm_iff.
Qed.

Lemma psi_books rank data cfg cs1 cs2 st0 s1 s2 :
  svd_train rank data = Ok st0 -> psi_stream cfg st0 cs1 = Ok s1 -> psi_stream cfg st0 cs2 = Ok s2 ->
  Permutation (concat cs1) (concat cs2) ->
  (forall k, fu s1 k <> None <-> fu s2 k <> None) /\ (forall k, fi s1 k <> None <-> fi s2 k <> None) /\
  (ps_n_users s1 = ps_n_users s2 /\ ps_n_items s1 = ps_n_items s2) /\
  (forall u i, psi_seen s1 u i <-> psi_seen s2 u i) /\
  (forall k v, fu st0 k = Some v -> fu s1 k = Some v /\ fu s2 k = Some v) /\
  (forall k v, fi st0 k = Some v -> fi s1 k = Some v /\ fi s2 k = Some v).
Proof.
  intros T S1 S2 P. pose proof (stream_inv _ _ _ _ _ (train_inv _ _ _ T) S1) as I1. pose proof (stream_inv _ _ _ _ _ (train_inv _ _ _ T) S2) as I2.
  destruct (psi_stream_aligned_main _ _ _ _ _ _ T S1) as [A1 [U1 [J1 [_ [P1 Q1]]]]].
  destruct (psi_stream_aligned_main _ _ _ _ _ _ T S2) as [A2 [U2 [J2 [_ [P2 Q2]]]]].
  pose proof (perm_all data _ _ P) as PA. split; [|split; [|split; [|split; [|split]]]].
  - intros k. rewrite U1, U2. apply In_perm_iff. now apply Permutation_map.
  - intros k. rewrite J1, J2. apply In_perm_iff. now apply Permutation_map.
  - destruct A1 as [B1 [C1 [-> [-> _]]]]. destruct A2 as [B2 [C2 [-> [-> _]]]].
    rewrite (bij_count _ _ B1 U1), (bij_count _ _ B2 U2), (bij_count _ _ C1 J1), (bij_count _ _ C2 J2).
    split; f_equal; apply ndistinct_perm; now apply Permutation_map.
  - intros u i. rewrite (psi_seen_iff _ _ _ _ I1), (psi_seen_iff _ _ _ _ I2).
    split; intros [r [H E]]; exists r; (split; [|exact E]); [apply (In_perm_iff _ _ r PA)|apply (In_perm_iff _ _ r PA)]; exact H.
  - intros k v H. split; auto.
  - intros k v H. split; auto.
Qed.

Lemma psi_all_pass cfg : cf_init cfg <> INone -> forall chunks rank data st0,
  svd_train rank data = Ok st0 -> exists s, psi_stream cfg st0 chunks = Ok s.
Proof.
  intros NI. assert (G : forall chunks st all, Psi_main.inv st all -> exists s, psi_stream cfg st chunks = Ok s).
  { unfold psi_stream. induction chunks as [|c chunks IH]; intros st all I; cbn [fold_left bind]; [eauto|].
    destruct (proj2 (psi_update_outcome_main cfg st c (Psi_main.inv_aligned _ _ I)) (fun E => False_ind _ (NI E))) as [O _].
    destruct (proj2 O (fun E => False_ind _ (NI E))) as [s E]. rewrite E.
    assert (I' : Psi_main.inv s (all ++ concat [c])) by (apply (stream_inv cfg [c] st all s I); cbn; exact E). eauto. }
  intros chunks rank data st0 T. eapply G, train_inv, T.
Qed.

(** ** Sequential models *)
Definition keeps (L : nat) (s : bool) (c : list row) : list row :=
  match get_df_with_cropped_pos_column c L s with Ok d => map p_row d | Err _ => [] end.
Lemma keeps_crops L s : (1 <= L)%nat -> crops L s (keeps L s).
Proof.
  intros HL c u. unfold keeps. destruct c as [|r c].
  - assert (E : lastn L (@nil row) = []) by (unfold lastn; now rewrite skipn_nil).
    destruct s; cbn; exists []; rewrite E; (split; [|reflexivity]); [split; [constructor|split; [constructor|intros; reflexivity]]|reflexivity].
  - destruct (crop_main (r :: c) L s HL ltac:(discriminate)) as [d [E [_ H]]]. rewrite E. destruct (H u) as [x [Hx Fx]]. exists x. split; auto.
    unfold rows_of. rewrite filter_map_comm. cbv beta. rewrite Fx. apply map_fst_combine. rewrite zrange_length, lastn_length. lia.
Qed.

Lemma sorted_stable (l x : list row) : StronglySorted (fun a b => r_ts a <= r_ts b) l -> StableSorted r_ts l x -> x = l.
Proof.
  intros S H. assert (G : StableSorted r_ts l l) by (split; [exact S|split; [apply Permutation_refl|reflexivity]]).
  assert (U : forall a b : list row, StronglySorted (fun a b => r_ts a <= r_ts b) a -> StronglySorted (fun a b => r_ts a <= r_ts b) b ->
            (forall k, filter (fun r => r_ts r =? k) a = filter (fun r => r_ts r =? k) b) -> a = b).
  { clear. induction a as [|p a IH]; intros [|q b] A B F.
    - reflexivity.
    - specialize (F (r_ts q)). cbn in F. rewrite Z.eqb_refl in F. discriminate.
    - specialize (F (r_ts p)). cbn in F. rewrite Z.eqb_refl in F. discriminate.
    - apply StronglySorted_inv in A as [A1 A2]. apply StronglySorted_inv in B as [B1 B2].
      assert (E : r_ts p = r_ts q).
      { assert (X1 : In p (q :: b)).
        { assert (In p (filter (fun r => r_ts r =? r_ts p) (q :: b))).
          { rewrite <- F. cbn. rewrite Z.eqb_refl. now left. } apply filter_In in H. tauto. }
        assert (X2 : In q (p :: a)).
        { assert (In q (filter (fun r => r_ts r =? r_ts q) (p :: a))).
          { rewrite F. cbn. rewrite Z.eqb_refl. now left. } apply filter_In in H. tauto. }
        assert (r_ts q <= r_ts p). { destruct X1 as [->|X1]; [lia|]. rewrite Forall_forall in B2. now apply B2. }
        assert (r_ts p <= r_ts q). { destruct X2 as [->|X2]; [lia|]. rewrite Forall_forall in A2. now apply A2. }
        lia. }
      assert (p = q). { specialize (F (r_ts p)). cbn in F. rewrite E, Z.eqb_refl in F. congruence. }
      subst q. f_equal. apply IH; auto. intros k. specialize (F k). cbn in F. destruct (r_ts p =? k); congruence. }
  destruct H as [H1 [_ H3]]. apply U; auto.
Qed.

Lemma sorted_app_l {X} (R : X -> X -> Prop) a b : StronglySorted R (a ++ b) -> StronglySorted R a.
Proof.
  induction a as [|x a IH]; intros H; [constructor|]. cbn in H. apply StronglySorted_inv in H as [H1 H2]. constructor; auto.
  rewrite Forall_app in H2. tauto.
Qed.
Lemma sorted_app_r {X} (R : X -> X -> Prop) a b : StronglySorted R (a ++ b) -> StronglySorted R b.
Proof. induction a as [|x a IH]; intros H; auto. cbn in H. apply StronglySorted_inv in H as [H1 _]. auto. Qed.

Section Seq.
Variables (L : nat) (s : bool).
Hypothesis HL : (1 <= L)%nat.
Lemma keeps_last c u : (s = true -> chronological c) -> rows_of u (keeps L s c) = lastn L (rows_of u c).
Proof.
  intros CH. destruct (keeps_crops L s HL c u) as [x [Hx E]]. rewrite E. f_equal. destruct s; auto. apply sorted_stable; auto. now apply CH.
Qed.
Lemma keeps_short c u : (length (rows_of u c) <= L)%nat -> Permutation (rows_of u (keeps L s c)) (rows_of u c).
Proof.
  intros Hn. destruct (keeps_crops L s HL c u) as [x [Hx E]]. rewrite E. destruct s.
  - rewrite lastn_all by (rewrite (StableSorted_length _ _ _ Hx); auto). apply Permutation_sym. apply Hx.
  - subst x. rewrite lastn_all; auto.
Qed.
Lemma chrono_app a b : chronological (a ++ b) -> chronological a /\ chronological b.
Proof. intros H. split; intros u; specialize (H u); rewrite rows_of_app in H; [now apply sorted_app_l in H|now apply sorted_app_r in H]. Qed.

(** The rows kept of every chunk. *)
Definition kept (chunks : list (list row)) : list row := concat (map (keeps L s) chunks).

Lemma ti_stream_sinv v chunks : forall st P st', sinv L st P -> ti_stream v L s st chunks = Ok st' -> sinv L st' (P ++ kept chunks).
Proof.
  unfold ti_stream. induction chunks as [|c chunks IH]; intros st P st' I H; cbn [fold_left bind] in H.
  - injection H as <-. unfold kept. cbn. now rewrite app_nil_r.
  - pose proof (sinv_update v L s _ st P c HL (keeps_crops L s HL) I) as U.
    destruct (ti_update v L st c s) as [st1|e].
    + destruct U as [_ U]. unfold kept. cbn [map concat]. rewrite app_assoc. eapply IH; eauto.
    + exfalso. clear - H. induction chunks as [|c' l IH]; cbn in H; [discriminate|auto].
Qed.

Lemma kept_last chunks : (s = true -> chronological (concat chunks)) -> forall u (a b : list row), lastn L a = lastn L b ->
  lastn L (a ++ rows_of u (kept chunks)) = lastn L (b ++ rows_of u (concat chunks)).
Proof.
  unfold kept. induction chunks as [|c chunks IH]; intros CH u a b E; cbn [map concat].
  - cbn. now rewrite !app_nil_r.
  - rewrite !rows_of_app, !app_assoc. apply IH.
    + intros e. specialize (CH e). cbn in CH. now apply chrono_app in CH.
    + rewrite keeps_last by (intros e; specialize (CH e); cbn in CH; now apply chrono_app in CH).
      assert (X : forall w : list row, lastn L (w ++ lastn L (rows_of u c)) = lastn L (w ++ rows_of u c)).
      { intros w. destruct (Nat.le_gt_cases L (length (rows_of u c))) as [G|G].
        - rewrite (lastn_app_ge _ w (rows_of u c)) by auto. rewrite lastn_app_ge by (rewrite lastn_length; lia). apply lastn_all. rewrite lastn_length. lia.
        - now rewrite (lastn_all L (rows_of u c)) by lia. }
      rewrite X, <- (lastn_more L a), <- (lastn_more L b), E. reflexivity.
Qed.
End Seq.

Lemma lastn_map {X Y} (f : X -> Y) n l : map f (lastn n l) = lastn n (map f l).
Proof. unfold lastn. rewrite map_length. generalize (length l - n)%nat as m. induction l as [|x l IH]; intros [|m]; cbn; auto. Qed.
Lemma lastn_pre {X} n (w l : list X) : lastn n (w ++ lastn n l) = lastn n (w ++ l).
Proof.
  destruct (Nat.le_gt_cases n (length l)) as [G|G].
  - rewrite (lastn_app_ge _ w l) by auto. rewrite lastn_app_ge by (rewrite lastn_length; lia). apply lastn_all. rewrite lastn_length. lia.
  - now rewrite (lastn_all n l) by lia.
Qed.
Lemma padded_recent L P P' u : lastn L (rows_of u P) = lastn L (rows_of u P') -> padded_items L P u = padded_items L P' u.
Proof. intros E. unfold padded_items. rewrite <- lastn_pre, <- lastn_map, E, lastn_map, lastn_pre. reflexivity. Qed.

Lemma sinv_window L st P u : sinv L st P -> window st u = match ti_user st u with None => None | Some _ => Some (padded_items L P u) end.
Proof.
  intros I. pose proof (sinv_wf _ _ _ I) as [_ [BI _]]. destruct I as [_ SI]. unfold window. destruct (ti_user st u) as [x|] eqn:E; auto.
  destruct (SI u x E) as [d [l [E1 [E2 F]]]]. rewrite E1, E2. f_equal. unfold padded_items. rewrite lastn_map, map_app. f_equal. f_equal.
  - assert (N : g_of (m_items (ti_maps st)) PAD_VALUE = None).
    { destruct (g_of (m_items (ti_maps st)) PAD_VALUE) as [k|] eqn:G; auto. destruct BI as [_ [_ R]].
      assert (0 <= PAD_VALUE < 0 + n_indices (m_items (ti_maps st))) by (apply R; eauto). unfold PAD_VALUE in *. lia. }
    clear -N. induction L as [|n IH]; cbn; congruence.
  - clear - F BI. revert l F. induction (rows_of u P) as [|r rs IH]; intros l F; cbn in F; inversion F as [|a b la lb H1 H2]; subst; cbn; auto.
    f_equal; [|now apply IH]. apply BI. exact H1.
Qed.

Section Runs.
Variables (v : variant) (L : nat) (s : bool) (rank : Z * Z * Z) (table : list row) (data : list prow) (st0 : ti_state).
Hypothesis CR : get_df_with_cropped_pos_column table L s = Ok data.
Hypothesis TR : tdrec_train L rank data [] = Ok st0.
Lemma L1 : (1 <= L)%nat.
Proof. now destruct (crop_ok_hyps _ _ _ _ CR). Qed.
Lemma run_sinv chunks st : ti_stream v L s st0 chunks = Ok st -> sinv L st (keeps L s table ++ kept L s chunks).
Proof. intros H. eapply ti_stream_sinv; [exact L1| |exact H]. eapply sinv_train; eauto. apply keeps_crops, L1. Qed.

Lemma user_kept c u : In u (map r_user (keeps L s c)) <-> In u (map r_user c).
Proof.
  assert (G : forall l : list row, In u (map r_user l) <-> rows_of u l <> []).
  { intros l. rewrite in_map_iff. split.
    - intros [r [E H]] N. assert (In r (rows_of u l)) by (apply filter_In; split; auto; now apply Z.eqb_eq). rewrite N in *. contradiction.
    - intros N. destruct (rows_of u l) as [|r t] eqn:E; [congruence|]. assert (In r (rows_of u l)) by (rewrite E; now left).
      apply filter_In in H as [H1 H2]. apply Z.eqb_eq in H2. eauto. }
  rewrite !G. destruct (keeps_crops L s L1 c u) as [x [Hx ->]].
  assert (EL : length x = length (rows_of u c)). { destruct s; [now apply StableSorted_length in Hx|now subst]. }
  assert (L1 := L1). pose proof (lastn_length L x) as LL.
  destruct (lastn L x) as [|a b], (rows_of u c) as [|a' b']; cbn in *; split; intros; try congruence; try lia.
Qed.
Lemma users_kept chunks u : In u (map r_user (kept L s chunks)) <-> In u (map r_user (concat chunks)).
Proof.
  unfold kept. induction chunks as [|c l IH]; [reflexivity|]. cbn [map concat]. rewrite !map_app, !in_app_iff, user_kept, IH. reflexivity.
Qed.
Lemma run_known chunks st u : ti_stream v L s st0 chunks = Ok st -> (ti_user st u <> None <-> In u (map r_user (table ++ concat chunks))).
Proof.
  intros H. pose proof (sinv_known_u L st _ u (run_sinv _ _ H)) as K. unfold tu in K. unfold ti_user. rewrite K, !map_app, !in_app_iff, user_kept, users_kept. reflexivity.
Qed.
Lemma run_window chunks st u : ti_stream v L s st0 chunks = Ok st -> (s = true -> chronological (table ++ concat chunks)) ->
  window st u = if in_dec Z.eq_dec u (map r_user (table ++ concat chunks)) then Some (padded_items L (table ++ concat chunks) u) else None.
Proof.
  intros H CH. rewrite (sinv_window _ _ _ u (run_sinv _ _ H)). pose proof (run_known _ _ u H) as K.
  destruct (in_dec _ _ _) as [Hu|Hu].
  - destruct (ti_user st u) as [x|]; [|now apply K in Hu]. f_equal. apply padded_recent. rewrite !rows_of_app. apply kept_last; [exact L1| |].
    + intros e. exact (proj2 (chrono_app table _ (CH e))).
    + rewrite keeps_last; [| exact L1|intros e; exact (proj1 (chrono_app table _ (CH e)))]. apply lastn_all. rewrite lastn_length. lia.
  - destruct (ti_user st u) as [x|] eqn:E; auto. destruct Hu. apply K. congruence.
Qed.

Lemma short_kept chunks : short_chunks L chunks -> forall r, In r (kept L s chunks) <-> In r (concat chunks).
Proof.
  intros SC r. unfold kept. induction chunks as [|c l IH]; [reflexivity|]. cbn [map concat]. rewrite !in_app_iff, IH by (intros c' u Hc; apply SC; now right).
  assert (G : forall X, In r X <-> In r (rows_of (r_user r) X)). { intros X. unfold rows_of. rewrite filter_In, Z.eqb_refl. tauto. }
  rewrite (G (keeps L s c)), (G c). pose proof (keeps_short L s L1 c (r_user r) (SC c _ (or_introl eq_refl))) as P.
  rewrite (In_perm_iff _ _ r P). reflexivity.
Qed.
Lemma run_items chunks st i : ti_stream v L s st0 chunks = Ok st -> short_chunks L chunks ->
  (ti_item st i <> None <-> In i (map r_item (map p_row data ++ concat chunks))).
Proof.
  intros H SC. pose proof (sinv_known_i L st _ i (run_sinv _ _ H)) as K. unfold tit in K. unfold ti_item. rewrite K. unfold keeps at 1. rewrite CR.
  rewrite !map_app, !in_app_iff. pose proof (short_kept _ SC) as Q. rewrite !in_map_iff.
  split; (intros [?|[r [E Hr]]]; [now left|right]); exists r; (split; [exact E|now apply Q]).
Qed.
Lemma run_seen chunks st u i : ti_stream v L s st0 chunks = Ok st -> short_chunks L chunks ->
  (ti_seen st u i <-> exists r, In r (map p_row data ++ concat chunks) /\ r_user r = u /\ r_item r = i).
Proof.
  intros H SC. pose proof (run_sinv _ _ H) as I. pose proof (sinv_wf _ _ _ I) as [BU [BI _]]. pose proof (short_kept _ SC) as Q.
  assert (QQ : forall r, In r (keeps L s table ++ kept L s chunks) <-> In r (map p_row data ++ concat chunks)).
  { intros r. unfold keeps at 1. rewrite CR, !in_app_iff, Q. reflexivity. }
  unfold ti_seen, ti_user, ti_item. split.
  - intros [x [j [E1 [E2 E3]]]]. apply (sinv_hist _ _ _ _ _ I) in E3 as [r [Hr [F1 F2]]]. unfold tu, tit in *. exists r. split; [now apply QQ|].
    split; [apply BU in E1; apply BU in F1|apply BI in E2; apply BI in F2]; congruence.
  - intros [r [Hr [<- <-]]]. apply QQ in Hr.
    assert (KU : tu st (r_user r) <> None) by (apply (sinv_known_u _ _ _ _ I), in_map, Hr).
    assert (KI : tit st (r_item r) <> None) by (apply (sinv_known_i _ _ _ _ I), in_map, Hr). unfold tu, tit in *.
    destruct (f_of (m_users (ti_maps st)) (r_user r)) as [x|] eqn:E1; [|congruence]. destruct (f_of (m_items (ti_maps st)) (r_item r)) as [j|] eqn:E2; [|congruence].
    exists x, j. split; auto. split; auto. apply (sinv_hist _ _ _ _ _ I). exists r. unfold tu, tit. auto.
Qed.
End Runs.

Lemma same_app table P P' : same_histories P P' -> same_histories (table ++ P) (table ++ P').
Proof. intros H u. now rewrite !rows_of_app, H. Qed.
Lemma same_users P P' : same_histories P P' -> forall u, In u (map r_user P) <-> In u (map r_user P').
Proof. intros H u. now apply same_map. Qed.

Lemma windows_main v L s rank table data st0 cs1 cs2 s1 s2 :
  get_df_with_cropped_pos_column table L s = Ok data -> tdrec_train L rank data [] = Ok st0 ->
  ti_stream v L s st0 cs1 = Ok s1 -> ti_stream v L s st0 cs2 = Ok s2 -> same_histories (concat cs1) (concat cs2) ->
  (forall u, ti_user s1 u <> None <-> ti_user s2 u <> None) /\
  ((s = true -> chronological (table ++ concat cs1)) -> forall u, window s1 u = window s2 u) /\
  (short_chunks L cs1 -> short_chunks L cs2 ->
     (forall i, ti_item s1 i <> None <-> ti_item s2 i <> None) /\ (forall u i, ti_seen s1 u i <-> ti_seen s2 u i)).
Proof.
  intros CR TR S1 S2 SH. pose proof (same_app table _ _ SH) as SA. split; [|split].
  - intros u. rewrite (run_known v L s rank table data st0 CR TR _ _ u S1), (run_known v L s rank table data st0 CR TR _ _ u S2). now apply same_users.
  - intros CH u. assert (CH' : s = true -> chronological (table ++ concat cs2)).
    { intros e w. specialize (CH e w). now rewrite SA in CH. }
    rewrite (run_window v L s rank table data st0 CR TR _ _ u S1 CH), (run_window v L s rank table data st0 CR TR _ _ u S2 CH').
    assert (EP : padded_items L (table ++ concat cs1) u = padded_items L (table ++ concat cs2) u) by (unfold padded_items; now rewrite SA).
    destruct (in_dec _ _ _) as [H1|H1]; destruct (in_dec _ _ _) as [H2|H2]; auto.
    + now rewrite EP.
    + destruct H2. now apply (same_users _ _ SA).
    + destruct H1. now apply (same_users _ _ SA).
  - intros C1 C2. pose proof (same_app (map p_row data) _ _ SH) as SD. split.
    + intros i. rewrite (run_items v L s rank table data st0 CR TR _ _ i S1 C1), (run_items v L s rank table data st0 CR TR _ _ i S2 C2). now apply same_map.
    + intros u i. rewrite (run_seen v L s rank table data st0 CR TR _ _ u i S1 C1), (run_seen v L s rank table data st0 CR TR _ _ u i S2 C2).
      split; intros [r [H E]]; exists r; (split; [|exact E]); [apply (same_In _ _ SD)|apply (same_In _ _ SD)]; exact H.
Qed.

Lemma run_window_main v L s rank table data st0 chunks st :
  get_df_with_cropped_pos_column table L s = Ok data -> tdrec_train L rank data [] = Ok st0 ->
  ti_stream v L s st0 chunks = Ok st -> (s = true -> chronological (table ++ concat chunks)) -> forall u,
  (In u (map r_user (table ++ concat chunks)) -> window st u = Some (padded_items L (table ++ concat chunks) u)) /\
  (~ In u (map r_user (table ++ concat chunks)) -> window st u = None).
Proof.
  intros CR TR H CH u. rewrite (run_window v L s rank table data st0 CR TR _ _ u H CH). destruct (in_dec _ _ _) as [Y|N]; split; intros; auto; contradiction.
Qed.
