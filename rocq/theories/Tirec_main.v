(** Assembly lemmas for the sequential models. *)
From Coq Require Import ZArith List Bool Lia Permutation Sorted.
From Verif Require Import Prelude Prelude_proofs DataPrep_model DataPrep_spec DataPrep_proofs DataPrep_main
  History_model History_spec History_proofs History_main Recommend_model Recommend_spec Recommend_main Psi_model Psi_main
  Tirec_model Tirec_spec Tirec_proofs.
Import ListNotations.
Open Scope Z_scope.

Lemma zrange_app n k : zrange (n + k) = zrange n ++ seqZ (Z.of_nat n) k.
Proof.
  unfold seqZ, zrange. rewrite seq_app, map_app, map_map. f_equal.
  cbn [plus]. replace (seq n k) with (map (Nat.add n) (seq 0 k)).
  - rewrite map_map. apply map_ext. intros; lia.
  - assert (G : forall a, map (Nat.add n) (seq a k) = seq (n + a) k).
    { induction k as [|k IH]; intros a; cbn [seq map]; auto. f_equal.
      rewrite IH. f_equal. lia. }
    rewrite G. f_equal. lia.
Qed.

Lemma seqZ_NoDup lo n : NoDup (seqZ lo n).
Proof.
  unfold seqZ, zrange. rewrite map_map. apply FinFun.Injective_map_NoDup; [|apply seq_NoDup].
  intros x y H. lia.
Qed.

Lemma seqZ_sorted lo n : StronglySorted Z.lt (seqZ lo n).
Proof.
  unfold seqZ, zrange. rewrite map_map. generalize 0%nat as a.
  induction n as [|n IH]; intros a; cbn [seq map]; constructor; auto.
  apply Forall_forall. intros x Hx. apply in_map_iff in Hx as [y [<- Hy]]. apply in_seq in Hy. lia.
Qed.

Lemma StronglySorted_app_inv (R : Z -> Z -> Prop) a b :
  StronglySorted R (a ++ b) ->
  StronglySorted R a /\ StronglySorted R b /\ forall x y, In x a -> In y b -> R x y.
Proof.
  induction a as [|z a IH]; intros H; cbn [app] in H.
  - split; [constructor|]. split; auto. intros x y [].
  - apply StronglySorted_inv in H as [H F]. destruct (IH H) as [H1 [H2 H3]].
    rewrite Forall_forall in F. split; [constructor; auto; apply Forall_forall; intros; apply F, in_or_app; auto|].
    split; auto. intros x y [<-|Hx] Hy; auto. apply F, in_or_app; auto.
Qed.
Lemma StronglySorted_app_intro (R : Z -> Z -> Prop) a b :
  StronglySorted R a -> StronglySorted R b -> (forall x y, In x a -> In y b -> R x y) ->
  StronglySorted R (a ++ b).
Proof.
  intros Ha Hb H. induction Ha as [|z a Ha IH F]; cbn [app]; auto. constructor.
  - apply IH. intros; apply H; auto. right; auto.
  - apply Forall_forall. intros x Hx. rewrite Forall_forall in F. apply in_app_or in Hx as [Hx|Hx]; auto.
    apply H; auto. left; auto.
Qed.
Lemma np_unique_lt l : StronglySorted Z.lt (np_unique l).
Proof.
  pose proof (np_unique_sorted l) as S. pose proof (np_unique_NoDup l) as N.
  induction S as [|x a S IH F]; constructor.
  - apply IH. inversion N; auto.
  - apply Forall_forall. intros y Hy. rewrite Forall_forall in F. pose proof (F y Hy) as Le.
    cbv beta in Le. apply Z.leb_le in Le. inversion N as [|? ? Hn]; subst.
    assert (x <> y) by (intros ->; auto). lia.
Qed.
Lemma sorted_perm_eq a b :
  Permutation a b -> StronglySorted Z.lt a -> StronglySorted Z.lt b -> a = b.
Proof.
  intros PX Sa. revert b PX. induction Sa as [|x a Sa IH Fa]; intros b PX Sb.
  - apply Permutation_nil in PX. congruence.
  - destruct Sb as [|y b Sb Fb]; [apply Permutation_sym, Permutation_nil in PX; discriminate|].
    rewrite Forall_forall in Fa, Fb.
    assert (x = y).
    { assert (Hx : In x (y :: b)) by (eapply Permutation_in; [exact PX|left; auto]).
      assert (Hy : In y (x :: a)) by (eapply Permutation_in; [apply Permutation_sym; exact PX|left; auto]).
      destruct Hx as [->|Hx]; auto. destruct Hy as [->|Hy]; auto.
      pose proof (Fa _ Hy). pose proof (Fb _ Hx). lia. }
    subst y. f_equal. apply IH; auto. apply Permutation_cons_inv in PX. auto.
Qed.

Section Update.
  Variables (v : variant) (L : nat) (st : ti_state) (data : list row) (s : bool).
  Hypothesis W : ti_wf L st.
  Variables (chunk0 chunk : list prow) (ms' : mappings) (ku ki : nat).
  Hypothesis P : preprocessed L (ti_maps st) data s chunk0 chunk ms' ku ki.
  Let nu := nusers st.
  Let ni := nitems st.
  Let T := map triple_of chunk.
  Let h := ti_seq st.
  Let h' := fst (get_train_tensor L h T).
  Let D := snd (get_train_tensor L h T).

  Lemma Hnu : nu = n_indices (m_users (ti_maps st)). Proof. apply W. Qed.
  Lemma Hni : ni = n_indices (m_items (ti_maps st)). Proof. apply W. Qed.
  Lemma nu_pos : 0 <= nu. Proof. unfold nu, nusers. lia. Qed.
  Lemma ni_pos : 0 <= ni. Proof. unfold ni, nitems. lia. Qed.

  Lemma wfh : wf_hist h.
  Proof.
    destruct W as [_ [_ [_ [_ [_ [_ [_ [ND [_ Q]]]]]]]]]. split; auto.
    intros u d Hd. destruct (Q u d Hd) as [-> [-> _]]. reflexivity.
  Qed.
  Lemma wfL u d : dget u h = Some d -> dq_maxlen d = L.
  Proof. intros Hd. destruct W as [_ [_ [_ [_ [_ [_ [_ [_ [_ Q]]]]]]]]]. apply (Q u d Hd). Qed.
  Lemma shortT u : (length (items_of u T) <= L)%nat.
  Proof. eapply mapped_user_len; eauto. Qed.

  Lemma chunk_range q : In q chunk ->
    (0 <= r_user (p_row q) < nu + Z.of_nat ku) /\ (0 <= r_item (p_row q) < ni + Z.of_nat ki).
  Proof.
    intros Hq. destruct P. destruct (Forall2_In_r _ _ _ _ pp_chunk Hq) as [p [_ [[A [B _]] _]]].
    apply (bij_f_nonneg _ _ _ pp_bu) in A. apply (bij_f_nonneg _ _ _ pp_bi) in B.
    rewrite pp_nu, <- Hnu in A. rewrite pp_ni, <- Hni in B. auto.
  Qed.

  Lemma T_range t : In t T ->
    (0 <= t_user t < nu + Z.of_nat ku) /\ (0 <= t_item t < ni + Z.of_nat ki).
  Proof.
    intros Ht. apply in_map_iff in Ht as [q [<- Hq]]. apply chunk_range in Hq.
    unfold triple_of, t_user, t_item; cbn [fst snd]. exact Hq.
  Qed.

  Lemma T_covers_user x : In x (seqZ nu ku) -> exists t, In t T /\ t_user t = x.
  Proof.
    intros Hx. apply seqZ_In in Hx. destruct P.
    destruct pp_bu as [_ [FG R]]. destruct (proj2 (R x)) as [k Hk].
    { rewrite pp_nu, <- Hnu. pose proof nu_pos. lia. }
    apply FG in Hk. assert (K : f_of (m_users ms') k <> None) by congruence.
    apply pp_known_u in K as [K|K].
    - exfalso. destruct (f_of (m_users (ti_maps st)) k) as [y|] eqn:E; [|congruence].
      pose proof (pp_keep_u _ _ E) as E'. apply (bij_f_nonneg _ _ _ (proj1 W)) in E.
      rewrite <- Hnu in E. assert (x = y) by congruence. lia.
    - apply in_map_iff in K as [p [<- Hp]]. destruct (Forall2_In_l _ _ _ _ pp_chunk Hp) as [q [Hq [[A _] _]]].
      exists (triple_of q). split; [apply in_map; auto|]. unfold triple_of, t_user; cbn [fst].
      fold (p_row q). congruence.
  Qed.

  Lemma T_covers_item x : In x (seqZ ni ki) -> exists t, In t T /\ t_item t = x.
  Proof.
    intros Hx. apply seqZ_In in Hx. destruct P.
    destruct pp_bi as [_ [FG R]]. destruct (proj2 (R x)) as [k Hk].
    { rewrite pp_ni, <- Hni. pose proof ni_pos. lia. }
    apply FG in Hk. assert (K : f_of (m_items ms') k <> None) by congruence.
    apply pp_known_i in K as [K|K].
    - exfalso. destruct (f_of (m_items (ti_maps st)) k) as [y|] eqn:E; [|congruence].
      pose proof (pp_keep_i _ _ E) as E'. apply (bij_f_nonneg _ _ _ (proj1 (proj2 W))) in E.
      rewrite <- Hni in E. assert (x = y) by congruence. lia.
    - apply in_map_iff in K as [p [<- Hp]]. destruct (Forall2_In_l _ _ _ _ pp_chunk Hp) as [q [Hq [[_ [A _]] _]]].
      exists (triple_of q). split; [apply in_map; auto|]. unfold triple_of, t_item; cbn [fst snd].
      fold (p_row q). congruence.
  Qed.

  Lemma h_keys u : dget u h <> None <-> 0 <= u < nu.
  Proof.
    destruct W as [_ [_ [_ [_ [_ [_ [_ [_ [K _]]]]]]]]]. unfold nu. rewrite <- K.
    unfold h. rewrite <- dget_Some_in. destruct (dget u (ti_seq st)); split; [eauto|congruence|congruence|].
    intros [? ?]; discriminate.
  Qed.

  Lemma h_items u d j : dget u h = Some d -> In j (dq_items d) -> j = PAD_VALUE \/ 0 <= j < ni.
  Proof. intros Hd. destruct W as [_ [_ [_ [_ [_ [_ [_ [_ [_ Q]]]]]]]]]. apply (Q u d Hd). Qed.

  Lemma h'_eq u : dget u h' = match dget u h, items_of u T with
                | None, [] => None
                | None, is => Some (mkDeque L (lastn L (repeat PAD_VALUE L ++ is)))
                | Some d, is => Some (mkDeque L (lastn L (dq_items d ++ is)))
                end.
  Proof. apply new_hist; [exact wfh|exact wfL]. Qed.

  Lemma items_of_In u j : In j (items_of u T) <-> exists t, In t T /\ t_user t = u /\ t_item t = j.
  Proof.
    unfold items_of. rewrite in_map_iff. split.
    - intros [t [<- Ht]]. apply filter_In in Ht as [Ht E]. apply Z.eqb_eq in E. eauto.
    - intros [t [Ht [<- <-]]]. exists t. split; auto. apply filter_In. split; auto. apply Z.eqb_refl.
  Qed.

  Lemma h'_keys u : In u (dkeys h') <-> 0 <= u < nu + Z.of_nat ku.
  Proof.
    rewrite <- dget_Some_in. pose proof (h_keys u) as K. rewrite h'_eq.
    assert (KI : items_of u T <> [] -> 0 <= u < nu + Z.of_nat ku).
    { intros N. destruct (items_of u T) as [|j l] eqn:E; [congruence|].
      assert (In j (items_of u T)) by (rewrite E; left; auto). apply items_of_In in H as [t [Ht [<- _]]].
      apply T_range in Ht. tauto. }
    destruct (dget u h) as [d|].
    - split; [intros _; assert (0 <= u < nu) by (apply K; congruence); lia|eauto].
    - destruct (items_of u T) as [|j l] eqn:E.
      + split; [intros [? ?]; discriminate|]. intros R.
        destruct (Z.ltb_spec u nu) as [Hlt|Hge].
        * assert (N : @None deque <> None) by (apply K; lia). congruence.
        * destruct (T_covers_user u) as [t [Ht Hu]]; [apply seqZ_In; lia|].
          assert (HI : In (t_item t) (items_of u T)) by (apply items_of_In; eauto).
          rewrite E in HI. destruct HI.
      + split; [intros _; apply KI; congruence|eauto].
  Qed.

  Lemma h'_deque u d : dget u h' = Some d ->
    dq_maxlen d = L /\ length (dq_items d) = L
    /\ (forall j, In j (dq_items d) -> j = PAD_VALUE \/ 0 <= j < ni + Z.of_nat ki)
    /\ exists j, In j (dq_items d) /\ j <> PAD_VALUE.
  Proof.
    intros G. rewrite h'_eq in G. pose proof (shortT u) as Sh.
    assert (KI : forall j, In j (items_of u T) -> 0 <= j < ni + Z.of_nat ki).
    { intros j Hj. apply items_of_In in Hj as [t [Ht [_ <-]]]. apply T_range in Ht. tauto. }
    destruct (dget u h) as [d0|] eqn:E.
    - injection G as <-. cbn [dq_maxlen dq_items].
      destruct W as [_ [_ [_ [_ [_ [_ [_ [_ [_ Q]]]]]]]]]. destruct (Q u d0 E) as [_ [Q1 [Q2 [j0 [Q3 Q4]]]]].
      split; auto. split; [rewrite lastn_length, app_length; lia|].
      rewrite lastn_app_le by auto. split.
      + intros j Hj. apply in_app_or in Hj as [Hj|Hj]; [|right; apply KI; auto].
        destruct (lastn_suffix (L - length (items_of u T)) (dq_items d0)) as [pre Epre].
        destruct (Q2 j); [rewrite Epre; apply in_or_app; auto|auto|right]. fold ni in H. lia.
      + destruct (items_of u T) as [|j l] eqn:EI.
        * exists j0. split; auto. rewrite app_nil_r. cbn [length]. rewrite lastn_all by lia. auto.
        * exists j. split; [apply in_or_app; right; left; auto|].
          pose proof (KI j (or_introl eq_refl)). unfold PAD_VALUE. lia.
    - destruct (items_of u T) as [|j l] eqn:EI; [discriminate|]. injection G as <-. cbn [dq_maxlen dq_items].
      split; auto. split; [rewrite lastn_length, app_length, repeat_length; lia|].
      rewrite lastn_app_le by auto. split.
      + intros i Hi. apply in_app_or in Hi as [Hi|Hi]; [|right; apply KI; auto].
        destruct (lastn_suffix (L - length (j :: l)) (repeat PAD_VALUE L)) as [pre Epre].
        left. apply (repeat_spec L). rewrite Epre. apply in_or_app; auto.
      + exists j. split; [apply in_or_app; right; left; auto|].
        pose proof (KI j (or_introl eq_refl)). unfold PAD_VALUE. lia.
  Qed.

  Lemma D_range e : In e D ->
    (0 <= e_user e < nu + Z.of_nat ku) /\ (0 <= e_item e < ni + Z.of_nat ki) /\ 0 <= e_pos e < Z.of_nat L.
  Proof.
    intros He. destruct (D_entry L h T wfh e He) as [[d [G [HI HP]]] NP].
    destruct G as [G|G].
    - assert (K : In (e_user e) (dkeys h')) by (apply dget_Some_in; eauto). apply h'_keys in K.
      destruct (h'_deque _ _ G) as [_ [HL [Q _]]]. rewrite HL in HP.
      destruct (Q _ HI); [contradiction|]. auto.
    - assert (K : 0 <= e_user e < nu) by (apply h_keys; congruence).
      destruct W as [_ [_ [_ [_ [_ [_ [_ [_ [_ Q]]]]]]]]]. destruct (Q _ _ G) as [_ [HL _]]. rewrite HL in HP.
      destruct (h_items _ _ _ G HI); [contradiction|]. lia.
  Qed.

  Lemma D_users x : In x (seqZ nu ku) -> In x (map e_user D).
  Proof.
    intros Hx. pose proof (proj1 (seqZ_In _ _ _) Hx) as Hr.
    destruct (T_covers_user x Hx) as [t [Ht <-]].
    apply (D_covers_user L h T wfh wfL shortT t Ht).
    - apply T_range in Ht. unfold PAD_VALUE. lia.
    - destruct (dget (t_user t) h) eqn:E; auto.
      assert (0 <= t_user t < nu) by (apply h_keys; congruence). lia.
  Qed.

  Lemma D_items x : In x (seqZ ni ki) -> In x (map e_item D).
  Proof.
    intros Hx. pose proof (proj1 (seqZ_In _ _ _) Hx) as Hr.
    destruct (T_covers_item x Hx) as [t [Ht <-]]. pose proof ni_pos as N0.
    apply (D_covers_item L h T wfh wfL shortT t Ht).
    - unfold PAD_VALUE. lia.
    - intros u d Hd HI. destruct (h_items u d _ Hd HI) as [E|E]; [unfold PAD_VALUE in E|]; lia.
  Qed.

  Let NU := seqZ nu ku.
  Let NI := seqZ ni ki.

  Lemma mem_new_u e : In e D -> memZ (e_user e) NU = new_u nu e.
  Proof.
    intros He. apply D_range in He. unfold new_u. destruct (Z.leb_spec nu (e_user e)).
    - apply memZ_spec, seqZ_In. lia.
    - apply memZ_false. unfold NU. rewrite seqZ_In. lia.
  Qed.
  Lemma mem_new_i e : In e D -> memZ (e_item e) NI = new_i ni e.
  Proof.
    intros He. apply D_range in He. unfold new_i. destruct (Z.leb_spec ni (e_item e)).
    - apply memZ_spec, seqZ_In. lia.
    - apply memZ_false. unfold NI. rewrite seqZ_In. lia.
  Qed.

  Lemma g1_q : g1 NU NI D = q_new nu ni D.
  Proof. apply filter_ext_in. intros e He. rewrite mem_new_u, mem_new_i; auto. Qed.
  Lemma g2_q : g2 NU NI D = q_new_users nu ni D.
  Proof. apply filter_ext_in. intros e He. rewrite g1_q, mem_new_u; auto. Qed.
  Lemma g3_q : g3 NU NI D = q_new_items nu ni D.
  Proof. apply filter_ext_in. intros e He. rewrite g1_q, mem_new_i; auto. Qed.
  Lemma g4_q : g4 NU NI D = q_old nu ni D.
  Proof. apply filter_ext_in. intros e He. rewrite g1_q, mem_new_u, mem_new_i; auto. Qed.

  Let Q1 := q_new nu ni D.
  Let Q2 := q_new_users nu ni D.
  Let Q3 := q_new_items nu ni D.
  Let Q4 := q_old nu ni D.
  Let XU := np_unique (map e_user Q1) ++ np_unique (map e_user Q2).
  Let XI := np_unique (map e_item Q1) ++ np_unique (map e_item Q3).

  Lemma Q2_user x : In x (map e_user Q2) ->
    In x (map e_user D) /\ nu <= x /\ ~ In x (map e_user Q1).
  Proof.
    intros H. apply in_map_iff in H as [e [<- He]]. apply filter_In in He as [He E].
    apply andb_true_iff in E as [E1 E2]. apply Z.leb_le in E1. apply negb_true_iff, memZ_false in E2.
    split; auto. apply in_map; auto.
  Qed.
  Lemma Q3_item x : In x (map e_item Q3) ->
    In x (map e_item D) /\ ni <= x /\ ~ In x (map e_item Q1).
  Proof.
    intros H. apply in_map_iff in H as [e [<- He]]. apply filter_In in He as [He E].
    apply andb_true_iff in E as [E1 E2]. apply Z.leb_le in E1. apply negb_true_iff, memZ_false in E2.
    split; auto. apply in_map; auto.
  Qed.

  Lemma new_user_cases x : In x (map e_user D) -> nu <= x -> ~ In x (map e_user Q1) -> In x (map e_user Q2).
  Proof.
    intros H1 H2 H3. apply in_map_iff in H1 as [e [<- He]]. apply in_map. apply filter_In. split; auto.
    apply andb_true_iff. split; [apply Z.leb_le; auto|]. apply negb_true_iff, memZ_false; auto.
  Qed.
  Lemma new_item_cases x : In x (map e_item D) -> ni <= x -> ~ In x (map e_item Q1) -> In x (map e_item Q3).
  Proof.
    intros H1 H2 H3. apply in_map_iff in H1 as [e [<- He]]. apply in_map. apply filter_In. split; auto.
    apply andb_true_iff. split; [apply Z.leb_le; auto|]. apply negb_true_iff, memZ_false; auto.
  Qed.

  Lemma XU_perm : Permutation XU NU.
  Proof.
    apply NoDup_Permutation.
    - apply NoDup_app_intro; [apply np_unique_NoDup|apply np_unique_NoDup|].
      intros x H1 H2. apply (proj1 (np_unique_In _ _)) in H1, H2. apply Q2_user in H2. tauto.
    - apply seqZ_NoDup.
    - intros x. unfold XU. rewrite in_app_iff, !np_unique_In. split.
      + intros H. assert (R : In x (map e_user D) /\ nu <= x).
        { destruct H as [H|H]; [|apply Q2_user in H; tauto].
          apply in_map_iff in H as [e [<- He]]. apply filter_In in He as [He E].
          apply andb_true_iff in E as [E _]. apply Z.leb_le in E. split; auto. apply in_map; auto. }
        destruct R as [R1 R2]. apply in_map_iff in R1 as [e [<- He]]. apply D_range in He.
        apply seqZ_In. lia.
      + intros H. pose proof (proj1 (seqZ_In _ _ _) H). apply D_users in H.
        destruct (in_dec Z.eq_dec x (map e_user Q1)); auto. right. apply new_user_cases; auto. lia.
  Qed.
  Lemma XI_perm : Permutation XI NI.
  Proof.
    apply NoDup_Permutation.
    - apply NoDup_app_intro; [apply np_unique_NoDup|apply np_unique_NoDup|].
      intros x H1 H2. apply (proj1 (np_unique_In _ _)) in H1, H2. apply Q3_item in H2. tauto.
    - apply seqZ_NoDup.
    - intros x. unfold XI. rewrite in_app_iff, !np_unique_In. split.
      + intros H. assert (R : In x (map e_item D) /\ ni <= x).
        { destruct H as [H|H]; [|apply Q3_item in H; tauto].
          apply in_map_iff in H as [e [<- He]]. apply filter_In in He as [He E].
          apply andb_true_iff in E as [_ E]. apply Z.leb_le in E. split; auto. apply in_map; auto. }
        destruct R as [R1 R2]. apply in_map_iff in R1 as [e [<- He]]. apply D_range in He.
        apply seqZ_In. lia.
      + intros H. pose proof (proj1 (seqZ_In _ _ _) H). apply D_items in H.
        destruct (in_dec Z.eq_dec x (map e_item Q1)); auto. right. apply new_item_cases; auto. lia.
  Qed.

  Lemma XU_len : length XU = ku.
  Proof. rewrite (Permutation_length XU_perm). apply seqZ_length. Qed.
  Lemma XI_len : length XI = ki.
  Proof. rewrite (Permutation_length XI_perm). apply seqZ_length. Qed.

  Lemma Q2_items e : In e Q2 -> 0 <= e_item e < ni.
  Proof.
    intros H. apply filter_In in H as [He E]. apply andb_true_iff in E as [E1 E2].
    apply negb_true_iff, memZ_false in E2. destruct (D_range e He) as [_ [R _]].
    destruct (Z.ltb_spec (e_item e) ni); [lia|]. exfalso. apply E2. apply in_map. apply filter_In. split; auto.
    rewrite E1. apply Z.leb_le in H. exact H.
  Qed.
  Lemma Q3_users e : In e Q3 -> 0 <= e_user e < nu.
  Proof.
    intros H. apply filter_In in H as [He E]. apply andb_true_iff in E as [E1 E2].
    apply negb_true_iff, memZ_false in E2. destruct (D_range e He) as [R _].
    destruct (Z.ltb_spec (e_user e) nu); [lia|]. exfalso. apply E2. apply in_map. apply filter_In. split; auto.
    rewrite E1. apply Z.leb_le in H. rewrite andb_true_r. exact H.
  Qed.

  Let st0 := mkTi ms' (ti_urows st) (ti_irows st) (ti_history st) h' (ti_log st).
  Definition ext_state (U I : list Z) (lg : list ti_step) : ti_state :=
    mkTi ms' U I (ti_history st) h' (ti_log st ++ lg).

  Definition tfit2 := size_ok v L MNewUsers nu (ni + Z.of_nat (length (np_unique (map e_item Q1)))) Q2.
  Definition tfit3 := size_ok v L MNewItems (nu + Z.of_nat ku) ni Q3.

  Lemma three :
    (let U := ti_urows st ++ XU in let I := ti_irows st ++ XI in
     if tfit2 && tfit3
     then exists lg, fold_left (ti_loop_step v L) [MNew; MNewUsers; MNewItems] (Ok (st0, D, NU, NI))
            = Ok (ext_state U I lg, g4 NU NI D, NU2 NU NI D, NI2 NU NI D)
          /\ ti_view lg = shown MNew Q1 ++ shown MNewUsers Q2 ++ shown MNewItems Q3
          /\ Forall (step_rel U I) lg
     else fold_left (ti_loop_step v L) [MNew; MNewUsers; MNewItems] (Ok (st0, D, NU, NI)) = Err ValueError).
  Proof.
    intros U I. cbn [fold_left]. rewrite loop1, g1_q. fold Q1.
    pose proof (update_factors_ok v L st0 Q1 MNew) as U1. cbv zeta in U1.
    assert (S1 : size_ok v L MNew (nusers st0) (nitems st0) Q1 = true) by (destruct v; reflexivity).
    rewrite S1 in U1. destruct U1 as [lg1 [E1 [V1 R1]]].
    { intros e He. apply filter_In in He as [He _]. apply D_range in He. split; [tauto|exact Logic.I]. }
    rewrite E1. cbn [bind]. rewrite loop2, g2_q. fold Q2.
    set (st1 := mkTi _ _ _ _ _ _).
    assert (N1 : nusers st1 = nu + Z.of_nat (length (np_unique (map e_user Q1)))).
    { unfold st1, nusers; cbn [ti_urows up_u st0]. rewrite app_length. unfold nu, nusers. lia. }
    assert (M1 : nitems st1 = ni + Z.of_nat (length (np_unique (map e_item Q1)))).
    { unfold st1, nitems; cbn [ti_irows up_i st0]. rewrite app_length. unfold ni, nitems. lia. }
    pose proof (update_factors_ok v L st1 Q2 MNewUsers) as U2. cbv zeta in U2.
    assert (S2 : size_ok v L MNewUsers (nusers st1) (nitems st1) Q2 = tfit2).
    { unfold tfit2, size_ok. rewrite M1. reflexivity. }
    rewrite S2 in U2.
    assert (H2 : forall e, In e Q2 -> in_range MNewUsers L (nusers st1) (nitems st1) e).
    { intros e He. pose proof (Q2_items e He). apply filter_In in He as [He _]. apply D_range in He.
      split; [tauto|]. rewrite M1. lia. }
    specialize (U2 H2). destruct tfit2; cbn [andb].
    2:{ rewrite U2. reflexivity. }
    destruct U2 as [lg2 [E2 [V2 R2]]]. rewrite E2. cbn [bind]. rewrite loop3, g3_q. fold Q3.
    set (st2 := mkTi _ _ _ _ _ _).
    assert (N2 : nusers st2 = nu + Z.of_nat ku).
    { unfold st2, nusers; cbn [ti_urows up_u st1 st0]. rewrite <- app_assoc. fold XU.
      rewrite app_length, XU_len. unfold nu, nusers. lia. }
    assert (M2 : nitems st2 = nitems st1).
    { unfold st2, nitems; cbn [ti_irows up_i st1 st0]. rewrite app_nil_r. reflexivity. }
    pose proof (update_factors_ok v L st2 Q3 MNewItems) as U3. cbv zeta in U3.
    assert (S3 : size_ok v L MNewItems (nusers st2) (nitems st2) Q3 = tfit3).
    { unfold tfit3, size_ok. rewrite N2. reflexivity. }
    rewrite S3 in U3.
    assert (H3 : forall e, In e Q3 -> in_range MNewItems L (nusers st2) (nitems st2) e).
    { intros e He. pose proof (Q3_users e He). apply filter_In in He as [He _]. apply D_range in He.
      split; [tauto|]. rewrite N2. lia. }
    specialize (U3 H3). destruct tfit3.
    2:{ rewrite U3. reflexivity. }
    destruct U3 as [lg3 [E3 [V3 R3]]]. rewrite E3. cbn [bind].
    exists (lg1 ++ lg2 ++ lg3). split; [|split].
    - f_equal. f_equal. f_equal. f_equal.
      unfold ext_state, st2, st1, st0. cbn [ti_maps ti_urows ti_irows ti_history ti_seq ti_log up_u up_i].
      unfold U, I, XU, XI. rewrite !app_nil_r, <- !app_assoc. reflexivity.
    - unfold ti_view in *. rewrite !map_app, V1, V2, V3. reflexivity.
    - unfold st2, st1, st0 in R1, R2, R3.
      cbn [ti_urows ti_irows up_u up_i] in R1, R2, R3. rewrite !app_nil_r in *.
      unfold U, I, XU, XI. rewrite !app_assoc in *.
      apply Forall_app_intro; [apply Forall_app_intro|].
      + eapply Forall_impl; [|exact R1]. intros x Hx. eapply step_rel_mono; [exact Hx| |]; eexists; reflexivity.
      + eapply Forall_impl; [|exact R2]. intros x Hx. eapply step_rel_mono; [exact Hx| |].
        * exists []. rewrite app_nil_r. reflexivity.
        * eexists; reflexivity.
      + eapply Forall_impl; [|exact R3]. intros x Hx. eapply step_rel_mono; [exact Hx| |].
        * exists []. rewrite app_nil_r. reflexivity.
        * exists []. rewrite app_nil_r. reflexivity.
  Qed.

  Definition new_U := match v with VTIRecAInt => NU | _ => XU end.
  Definition new_I := match v with VTIRecAInt => NI | _ => XI end.

  Definition good_ti (st' : ti_state) : Prop :=
    ti_maps st' = ms'
    /\ ti_urows st' = ti_urows st ++ new_U /\ ti_irows st' = ti_irows st ++ new_I
    /\ ti_history st' = ti_history st ++ map (fun p => (r_user (p_row p), r_item (p_row p))) chunk
    /\ ti_seq st' = h'
    /\ exists lg, ti_log st' = ti_log st ++ lg /\ ti_view lg = ti_expected v nu ni D
         /\ Forall (step_rel (ti_urows st') (ti_irows st')) lg.

  Lemma shown_filter md d l :
    filter nonempty_step ((md, d) :: l) = shown md d ++ filter nonempty_step l.
  Proof. destruct d; reflexivity. Qed.

  Lemma old_step U I lg data' :
    length U = (length (ti_urows st) + ku)%nat -> length I = (length (ti_irows st) + ki)%nat ->
    (forall e, In e data' -> In e D) ->
    exists lg', update_factors v L (ext_state U I lg) data' MOld = Ok (ext_state U I (lg ++ lg'))
      /\ ti_view lg' = shown MOld data' /\ Forall (step_rel U I) lg'.
  Proof.
    intros HU HI Sub. pose proof (update_factors_ok v L (ext_state U I lg) data' MOld) as U4. cbv zeta in U4.
    assert (S4 : size_ok v L MOld (nusers (ext_state U I lg)) (nitems (ext_state U I lg)) data' = true)
      by (destruct v; reflexivity).
    rewrite S4 in U4. destruct U4 as [lg' [E [V R]]].
    { intros e He. apply Sub in He. apply D_range in He. split; [tauto|].
      unfold nusers, nitems, ext_state; cbn [ti_urows ti_irows]. rewrite HU, HI.
      unfold nu, ni, nusers, nitems in He. lia. }
    exists lg'. cbn [up_u up_i ext_state ti_urows ti_irows ti_maps ti_history ti_seq ti_log] in *.
    rewrite !app_nil_r in *. rewrite <- app_assoc in E. auto.
  Qed.

  Lemma ti_update_unfold : ti_update v L st data s =
      match D with
      | [] => Err ValueError
      | _ => do st1 <-
          match v with
          | VTIRec =>
            do '(x, _, _, _) <- fold_left (ti_loop_step v L) [MNew; MNewUsers; MNewItems; MOld]
                                  (Ok (st0, D, NU, NI)); Ok x
          | VTIRecA =>
            do '(x, _, nu', ni') <- fold_left (ti_loop_step v L) [MNew; MNewUsers; MNewItems]
                                      (Ok (st0, D, NU, NI));
            let '(_, mask, _, _) := divide_inds D MNew nu' ni' in
            update_factors v L x (select (map negb mask) D) MOld
          | VTIRecAInt => update_factors v L (ext_state (ti_urows st ++ NU) (ti_irows st ++ NI) []) D MOld
          end;
        Ok (mkTi (ti_maps st1) (ti_urows st1) (ti_irows st1)
             (ti_history st1 ++ map (fun p => (r_user (p_row p), r_item (p_row p))) chunk)
             (ti_seq st1) (ti_log st1))
      end.
  Proof.
    unfold ti_update. destruct P. rewrite pp_ok. cbn [bind].
    change (get_train_tensor L (ti_seq st) (map triple_of chunk)) with (h', D). cbv iota beta.
    rewrite <- Hnu, <- Hni. fold NU NI. unfold ext_state. rewrite app_nil_r. reflexivity.
  Qed.

  Lemma variant_cases : forall w, w = VTIRec \/ w = VTIRecA \/ w = VTIRecAInt.
  Proof. intros []; auto. Qed.

  Lemma ti_update_empty : D = [] -> ti_update v L st data s = Err ValueError.
  Proof. intros E. rewrite ti_update_unfold, E. reflexivity. Qed.

  Lemma ti_update_cases : D <> [] ->
    if tfit2 && tfit3 then exists st', ti_update v L st data s = Ok st' /\ good_ti st'
    else ti_update v L st data s = Err ValueError.
  Proof.
    intros NE. rewrite ti_update_unfold.
    assert (EM : forall (X Y : res ti_state), match D with [] => X | _ => Y end = Y)
      by (intros; destruct D; congruence).
    rewrite EM. clear EM.
    pose proof three as T3. cbv zeta in T3.
    assert (LU : length (ti_urows st ++ XU) = (length (ti_urows st) + ku)%nat)
      by (rewrite app_length, XU_len; reflexivity).
    assert (LI : length (ti_irows st ++ XI) = (length (ti_irows st) + ki)%nat)
      by (rewrite app_length, XI_len; reflexivity).
    pose proof old_step as OS.
    assert (V4 : v = VTIRecAInt -> tfit2 && tfit3 = true) by (intros E; unfold tfit2, tfit3; rewrite E; reflexivity).
    unfold good_ti, new_U, new_I.
    destruct (variant_cases v) as [Ev|[Ev|Ev]]; rewrite Ev in *.
    - (* TIRec *)
      change [MNew; MNewUsers; MNewItems; MOld] with ([MNew; MNewUsers; MNewItems] ++ [MOld]).
      rewrite fold_left_app. destruct (tfit2 && tfit3).
      2:{ rewrite T3. reflexivity. }
      destruct T3 as [lg [E [V R]]]. rewrite E. cbn [fold_left]. rewrite loop4.
      destruct (OS (ti_urows st ++ XU) (ti_irows st ++ XI) lg (g4 NU NI D) LU LI) as [lg' [E4 [V' R']]].
      { intros e He. apply filter_In in He. tauto. }
      rewrite E4. cbn [bind]. eexists. split; [reflexivity|].
      cbn [ext_state ti_maps ti_urows ti_irows ti_history ti_seq ti_log].
      repeat (split; [reflexivity|]). exists (lg ++ lg'). split; auto. split; [|apply Forall_app_intro; auto].
      unfold ti_view in *. rewrite map_app, V, V', g4_q. unfold ti_expected. rewrite !shown_filter.
      cbn [filter]. rewrite app_nil_r, <- !app_assoc. reflexivity.
    - (* TIRecA *)
      destruct (tfit2 && tfit3).
      2:{ rewrite T3. reflexivity. }
      destruct T3 as [lg [E [V R]]]. rewrite E. cbn [bind].
      destruct (mask_exhausted NU NI D D_users D_items) as [-> ->].
      cbn [divide_inds]. rewrite map_map, select_filter.
      rewrite filter_all by (intros; reflexivity).
      destruct (OS (ti_urows st ++ XU) (ti_irows st ++ XI) lg D LU LI) as [lg' [E4 [V' R']]]; auto.
      rewrite E4. cbn [bind]. eexists. split; [reflexivity|].
      cbn [ext_state ti_maps ti_urows ti_irows ti_history ti_seq ti_log].
      repeat (split; [reflexivity|]). exists (lg ++ lg'). split; auto. split; [|apply Forall_app_intro; auto].
      unfold ti_view in *. rewrite map_app, V, V'. unfold ti_expected. rewrite !shown_filter.
      cbn [filter]. rewrite app_nil_r, <- !app_assoc. reflexivity.
    - (* integrator *)
      rewrite V4 by reflexivity.
      destruct (OS (ti_urows st ++ NU) (ti_irows st ++ NI) [] D) as [lg' [E4 [V' R']]]; auto.
      { unfold NU. rewrite app_length, seqZ_length. reflexivity. }
      { unfold NI. rewrite app_length, seqZ_length. reflexivity. }
      rewrite E4. cbn [bind]. eexists. split; [reflexivity|].
      cbn [ext_state ti_maps ti_urows ti_irows ti_history ti_seq ti_log app].
      repeat (split; [reflexivity|]). exists lg'. split; auto. split; auto.
      rewrite V'. unfold ti_expected. rewrite shown_filter. cbn [filter]. rewrite app_nil_r. reflexivity.
  Qed.

  Lemma good_delta st' : good_ti st' -> ti_delta st st' = D.
  Proof. intros [_ [_ [_ [_ [E _]]]]]. unfold ti_delta. rewrite E. reflexivity. Qed.

  Lemma tfits_iff : tfit2 && tfit3 = true <-> ti_fits v L nu ni D.
  Proof.
    unfold tfit2, tfit3, size_ok, ti_fits. pose proof XU_len as XL. unfold XU in XL.
    rewrite app_length in XL. fold Q1 Q2 Q3. rewrite <- !np_unique_length.
    destruct (variant_cases v) as [E|[E|E]]; rewrite E.
    - rewrite andb_true_iff, !Z.leb_le. rewrite <- XL. split.
      + intros [H1 H2] _. split; [exact H1|]. rewrite <- Z.add_assoc, <- Nat2Z.inj_add. exact H2.
      + intros H. destruct (H eq_refl) as [H1 H2]. split; [exact H1|].
        rewrite <- Z.add_assoc, <- Nat2Z.inj_add in H2. exact H2.
    - cbn [andb]. split; [discriminate|reflexivity].
    - cbn [andb]. split; [discriminate|reflexivity].
  Qed.

  Lemma new_U_perm : Permutation new_U NU.
  Proof. unfold new_U. destruct (variant_cases v) as [E|[E|E]]; rewrite E; auto using XU_perm. Qed.
  Lemma new_I_perm : Permutation new_I NI.
  Proof. unfold new_I. destruct (variant_cases v) as [E|[E|E]]; rewrite E; auto using XI_perm. Qed.
  Lemma new_U_len : length new_U = ku.
  Proof. rewrite (Permutation_length new_U_perm). apply seqZ_length. Qed.
  Lemma new_I_len : length new_I = ki.
  Proof. rewrite (Permutation_length new_I_perm). apply seqZ_length. Qed.

  Lemma good_wf st' : good_ti st' -> ti_wf L st'.
  Proof.
    intros [EM [EU [EI [EH [ES _]]]]].
    assert (NU' : nusers st' = nu + Z.of_nat ku).
    { unfold nusers. rewrite EU, app_length, new_U_len. unfold nu, nusers. lia. }
    assert (NI' : nitems st' = ni + Z.of_nat ki).
    { unfold nitems. rewrite EI, app_length, new_I_len. unfold ni, nitems. lia. }
    pose proof P as P'. destruct P'.
    destruct W as [BU [BI [E1 [E2 [PU [PI [HH [ND [K Q]]]]]]]]].
    unfold ti_wf. rewrite EM. split; auto. split; auto.
    split; [rewrite NU', pp_nu, <- Hnu; reflexivity|].
    split; [rewrite NI', pp_ni, <- Hni; reflexivity|].
    split. { rewrite EU, app_length, new_U_len, zrange_app. apply Permutation_app; auto. exact new_U_perm. }
    split. { rewrite EI, app_length, new_I_len, zrange_app. apply Permutation_app; auto. exact new_I_perm. }
    split.
    { intros u j H. rewrite EH in H. rewrite NU', NI'. apply in_app_or in H as [H|H].
      - apply HH in H. fold nu ni in H. lia.
      - apply in_map_iff in H as [q [Eq Hq]]. injection Eq as <- <-. apply chunk_range; auto. }
    rewrite ES. split. { apply NoDup_update. exact ND. }
    rewrite NU', NI'. split; [exact h'_keys|exact h'_deque].
  Qed.

  (** Appended rows in id order. *)
  Lemma sorted_new_iff (A B all : list Z) lo n :
    Permutation (np_unique A ++ np_unique B) (seqZ lo n) ->
    (forall x, In x B -> In x all /\ lo <= x /\ ~ In x A) ->
    (forall x, In x all -> lo <= x -> ~ In x A -> In x B) ->
    np_unique A ++ np_unique B = seqZ lo n <-> first_kind_first lo A all.
  Proof.
    intros PX HB HB'. split.
    - intros E a b Ha Hb Hlo Hn.
      assert (S : StronglySorted Z.lt (np_unique A ++ np_unique B)).
      { rewrite E. apply seqZ_sorted. }
      apply StronglySorted_app_inv in S as [_ [_ S]].
      apply S; apply np_unique_In; auto.
    - intros H. apply sorted_perm_eq; auto.
      + apply StronglySorted_app_intro; [apply np_unique_lt|apply np_unique_lt|].
        intros a b Ha Hb. apply (proj1 (np_unique_In _ _)) in Ha, Hb.
        destruct (HB b Hb) as [H1 [H2 H3]]. apply H; auto.
      + apply seqZ_sorted.
  Qed.
End Update.
