(** An update of a sequential model in terms of the rows given. *)
From Coq Require Import ZArith List Bool Lia Permutation Sorted.
From Verif Require Import Prelude Prelude_proofs DataPrep_model DataPrep_spec DataPrep_proofs DataPrep_main
  History_model History_spec History_proofs History_main Recommend_model Recommend_spec Recommend_main Psi_model Psi_spec
  Tirec_model Tirec_spec Tirec_proofs Tirec_main Tirec_assembly Tirec_stream Full_spec Seqx_spec Seqx_book.
Import ListNotations.
Open Scope Z_scope.

Section Upd.
  Variables (v : variant) (L : nat) (st : ti_state) (data : list row) (s : bool) (P K : list row).
  Hypothesis L1 : (1 <= L)%nat.
  Hypothesis I : sinv L st P.
  Variables (chunk0 chunk : list prow) (ms' : mappings) (ku ki : nat).
  Hypothesis PP : preprocessed L (ti_maps st) data s chunk0 chunk ms' ku ki.
  Hypothesis HK : forall u, rows_of u K = rows_of u (map p_row chunk0).
  Let W : ti_wf L st := sinv_wf _ _ _ I.
  Let T := map triple_of chunk.
  Let h := ti_seq st.
  Let h' := fst (get_train_tensor L h T).
  Let D := snd (get_train_tensor L h T).
  Notation fu' := (f_of (m_users ms')).
  Notation fi' := (f_of (m_items ms')).

  Lemma inj_u a b x : fu' a = Some x -> fu' b = Some x -> a = b.
  Proof. destruct (pp_bu _ _ _ _ _ _ _ _ _ PP) as [_ [FG _]]. intros A B. apply FG in A. apply FG in B. congruence. Qed.
  Lemma inj_i a b x : fi' a = Some x -> fi' b = Some x -> a = b.
  Proof. destruct (pp_bi _ _ _ _ _ _ _ _ _ PP) as [_ [FG _]]. intros A B. apply FG in A. apply FG in B. congruence. Qed.
  Lemma fi_pos i x : fi' i = Some x -> 0 <= x.
  Proof. intros H. apply (bij_f_nonneg _ _ _ (pp_bi _ _ _ _ _ _ _ _ _ PP)) in H. lia. Qed.
  Lemma known_u k : fu' k <> None <-> In k (map r_user (P ++ K)).
  Proof.
    rewrite (pp_known_u _ _ _ _ _ _ _ _ _ PP), map_app, in_app_iff. fold (tu st k). rewrite (sinv_known_u _ _ _ k I).
    assert (E : In k (map (fun p => r_user (p_row p)) chunk0) <-> In k (map r_user K)).
    { rewrite <- (map_map p_row r_user). symmetry. apply same_map. exact HK. }
    tauto.
  Qed.
  Lemma known_i k : fi' k <> None <-> In k (map r_item (P ++ K)).
  Proof.
    rewrite (pp_known_i _ _ _ _ _ _ _ _ _ PP), map_app, in_app_iff. fold (tit st k). rewrite (sinv_known_i _ _ _ k I).
    assert (E : In k (map (fun p => r_item (p_row p)) chunk0) <-> In k (map r_item K)).
    { rewrite <- (map_map p_row r_item). symmetry. apply same_map. exact HK. }
    tauto.
  Qed.
  Lemma get_u k : In k (map r_user (P ++ K)) -> exists x, fu' k = Some x.
  Proof. intros H. apply known_u in H. destruct (fu' k); [eauto|congruence]. Qed.
  Lemma get_i k : In k (map r_item (P ++ K)) -> exists x, fi' k = Some x.
  Proof. intros H. apply known_i in H. destruct (fi' k); [eauto|congruence]. Qed.

  (** New indices are those of ids outside [P]. *)
  Lemma old_u k x : fu' k = Some x -> (In k (map r_user P) <-> x < nusers st).
  Proof.
    intros H. rewrite <- (sinv_known_u _ _ _ k I). split.
    - intros N. destruct (tu st k) as [y|] eqn:E; [|congruence]. pose proof (pp_keep_u _ _ _ _ _ _ _ _ _ PP _ _ E) as E'.
      assert (x = y) by congruence. subst. apply (bij_f_nonneg _ _ _ (proj1 W)) in E. destruct W as [_ [_ [EU _]]]. lia.
    - intros Lt. destruct W as [[_ [FG R]] [_ [EU _]]]. pose proof (bij_f_nonneg _ _ _ (pp_bu _ _ _ _ _ _ _ _ _ PP) H).
      destruct (proj2 (R x)) as [k' Hk']; [lia|]. apply FG in Hk'. pose proof (pp_keep_u _ _ _ _ _ _ _ _ _ PP _ _ Hk') as E'.
      assert (k = k') by (eapply inj_u; eauto). subst. unfold tu. congruence.
  Qed.
  Lemma old_i k x : fi' k = Some x -> (In k (map r_item P) <-> x < nitems st).
  Proof.
    intros H. rewrite <- (sinv_known_i _ _ _ k I). split.
    - intros N. destruct (tit st k) as [y|] eqn:E; [|congruence]. pose proof (pp_keep_i _ _ _ _ _ _ _ _ _ PP _ _ E) as E'.
      assert (x = y) by congruence. subst. apply (bij_f_nonneg _ _ _ (proj1 (proj2 W))) in E. destruct W as [_ [_ [_ [EI _]]]]. lia.
    - intros Lt. destruct W as [_ [[_ [FG R]] [_ [EI _]]]]. pose proof (bij_f_nonneg _ _ _ (pp_bi _ _ _ _ _ _ _ _ _ PP) H).
      destruct (proj2 (R x)) as [k' Hk']; [lia|]. apply FG in Hk'. pose proof (pp_keep_i _ _ _ _ _ _ _ _ _ PP _ _ Hk') as E'.
      assert (k = k') by (eapply inj_i; eauto). subst. unfold tit. congruence.
  Qed.

  Lemma chunk_items u x : fu' u = Some x -> Forall2 (fun i j => fi' i = Some j) (map r_item (rows_of u K)) (items_of x T).
  Proof.
    intros Hu. rewrite HK. unfold rows_of, items_of, T. pose proof (pp_chunk _ _ _ _ _ _ _ _ _ PP) as F.
    pose proof inj_u as Inj. clear - Hu F Inj. induction F as [|p q l l' [[A [B _]] _] F IH]; cbn [map filter]; [constructor|].
    change (t_user (triple_of q)) with (r_user (p_row q)).
    destruct (Z.eqb_spec (r_user (p_row p)) u) as [E|N].
    - rewrite E, Hu in A. injection A as <-. rewrite Z.eqb_refl. cbn [map]. constructor; auto.
    - destruct (Z.eqb_spec (r_user (p_row q)) x) as [E|_]; auto. exfalso. apply N. eapply Inj; [rewrite A; reflexivity|congruence].
  Qed.

  (** The histories of a user before and after. *)
  Lemma hist_before u x : fu' u = Some x -> exists l, nopad l /\ Forall2 (fun i j => fi' i = Some j) (map r_item (rows_of u P)) l /\
    match dget x h with
    | Some d => In u (map r_user P) /\ dq_items d = lastn L (repeat PAD_VALUE L ++ l)
    | None => ~ In u (map r_user P) /\ l = []
    end.
  Proof.
    intros Hu. pose proof (old_u _ _ Hu) as O. destruct (in_dec Z.eq_dec u (map r_user P)) as [Y|N].
    - pose proof Y as Y'. apply (sinv_known_u _ _ _ u I) in Y'. destruct (tu st u) as [y|] eqn:E; [|congruence].
      pose proof (pp_keep_u _ _ _ _ _ _ _ _ _ PP _ _ E) as E'. assert (y = x) by congruence. subst y.
      pose proof (proj2 I) as Q. destruct (Q u x E) as [d [l [Hd [Hi F]]]]. exists l.
      assert (F' : Forall2 (fun i j => fi' i = Some j) (map r_item (rows_of u P)) l).
      { eapply Forall2_impl; [|exact F]. intros i j Hij. apply (pp_keep_i _ _ _ _ _ _ _ _ _ PP). exact Hij. }
      split; [|split]; auto.
      + intros j Hj. destruct (Forall2_In_r _ _ _ _ F' Hj) as [i [_ Hij]]. apply fi_pos in Hij. unfold PAD_VALUE. lia.
      + unfold h. rewrite Hd. auto.
    - exists []. split; [intros j []|]. rewrite (proj2 (rows_of_none u P) N). split; [constructor|].
      destruct (dget x h) eqn:E; [|auto]. exfalso. assert (0 <= x < nusers st) by (apply (h_keys _ _ W); unfold h in E; congruence).
      apply N, O. lia.
  Qed.
  Lemma hist_after u x : fu' u = Some x -> exists d l, dget x h' = Some d /\ dq_items d = lastn L (repeat PAD_VALUE L ++ l) /\
    Forall2 (fun i j => fi' i = Some j) (map r_item (rows_of u (P ++ K))) l /\ nopad l.
  Proof.
    intros Hu. destruct (hist_before u x Hu) as [l [N [F B]]]. pose proof (chunk_items u x Hu) as FC.
    assert (NC : nopad (l ++ items_of x T)).
    { intros j Hj. apply in_app_or in Hj as [Hj|Hj]; [auto|]. destruct (Forall2_In_r _ _ _ _ FC Hj) as [i [_ Hij]].
      apply fi_pos in Hij. unfold PAD_VALUE. lia. }
    assert (FF : Forall2 (fun i j => fi' i = Some j) (map r_item (rows_of u (P ++ K))) (l ++ items_of x T)).
    { rewrite rows_of_app, map_app. apply Forall2_app; auto. }
    pose proof (h'_eq L st W chunk x) as E. fold T h h' in E. destruct (dget x h) as [d|].
    - exists (mkDeque L (lastn L (dq_items d ++ items_of x T))), (l ++ items_of x T). split; auto. cbn [dq_items].
      destruct B as [_ B]. rewrite B, lastn_more, app_assoc. auto.
    - destruct B as [B ->]. cbn [app] in *. destruct (items_of x T) as [|j is] eqn:EI.
      + exfalso. assert (Hk : In u (map r_user (P ++ K))) by (apply known_u; congruence).
        rewrite map_app, in_app_iff in Hk. destruct Hk as [Hk|Hk]; [auto|]. apply (rows_of_none u K); auto.
        apply Forall2_len in FC. rewrite map_length in FC. destruct (rows_of u K); [auto|discriminate].
      + eexists _, (j :: is). split; [exact E|]. auto.
  Qed.

  (** The cells of the delta. *)
  Lemma h_old_new u l0 : dget u (hist_lists h) = Some l0 -> exists l', dget u (hist_lists h') = Some l' /\ length l' = length l0.
  Proof.
    rewrite !dget_hist_lists. pose proof (h'_eq L st W chunk u) as E. fold T h h' in E. destruct (dget u h) as [d|] eqn:Ed; [|discriminate].
    cbn [option_map]. intros H. injection H as <-. rewrite E. cbn [option_map dq_items]. eexists. split; [reflexivity|].
    destruct W as [_ [_ [_ [_ [_ [_ [_ [_ [_ Q]]]]]]]]]. destruct (Q u d Ed) as [_ [Hl _]]. rewrite lastn_length, app_length, Hl. lia.
  Qed.
  Lemma NoDup_h' : NoDup (dkeys (hist_lists h')).
  Proof. rewrite dkeys_hist_lists. apply (wf_update T h L (wfh L st W)). Qed.
  Lemma D_cells c : (exists z, In (c, z) D) <-> hist_cell c (hist_lists h') <> hist_cell c (hist_lists h).
  Proof.
    pose proof (calculate_delta_cell (hist_lists h') (hist_lists h) c NoDup_h' h_old_new) as E.
    change (calculate_delta (hist_lists h') (hist_lists h)) with D in E. split.
    - intros [z Hz]. pose proof (calculate_delta_NoDup (hist_lists h') (hist_lists h) NoDup_h') as ND.
      change (calculate_delta (hist_lists h') (hist_lists h)) with D in ND. rewrite (cell_NoDup _ _ _ ND Hz) in E.
      destruct (calculate_delta_vals (hist_lists h') (hist_lists h) c z Hz) as [[-> | ->] _]; lia.
    - intros N. apply cell_In. lia.
  Qed.
  Lemma D_user c z : In (c, z) D -> exists u, fu' u = Some (t_user c).
  Proof.
    intros H. destruct (D_range L st data s W chunk0 chunk ms' ku ki PP _ H) as [Hr _].
    destruct (pp_bu _ _ _ _ _ _ _ _ _ PP) as [_ [FG R]]. destruct (proj2 (R (t_user c))) as [k Hk].
    - rewrite (pp_nu _ _ _ _ _ _ _ _ _ PP). destruct W as [_ [_ [EU _]]]. unfold e_user in Hr. cbn [fst] in Hr. lia.
    - exists k. now apply FG.
  Qed.
  Lemma D_item c z : In (c, z) D -> exists i, fi' i = Some (t_item c).
  Proof.
    intros H. destruct (D_range L st data s W chunk0 chunk ms' ku ki PP _ H) as [_ [Hr _]].
    destruct (pp_bi _ _ _ _ _ _ _ _ _ PP) as [_ [FG R]]. destruct (proj2 (R (t_item c))) as [k Hk].
    - rewrite (pp_ni _ _ _ _ _ _ _ _ _ PP). destruct W as [_ [_ [_ [EI _]]]]. unfold e_item in Hr. cbn [fst] in Hr. lia.
    - exists k. now apply FG.
  Qed.

  Lemma recent_before u l : Forall2 (fun i j => fi' i = Some j) (map r_item (rows_of u P)) l ->
    Forall2 (fun i j => fi' i = Some j) (recent L P u) (lastn L l).
  Proof. apply Forall2_lastn. Qed.

  Lemma D_nonempty : D <> [] <-> exists u, recent L (P ++ K) u <> recent L P u.
  Proof.
    split.
    - intros N. destruct D as [|[c z] D'] eqn:ED; [congruence|]. assert (Hc : In (c, z) D) by (rewrite ED; now left).
      clear N. destruct (D_user _ _ Hc) as [u Hu]. exists u. intros E.
      assert (Nc : hist_cell c (hist_lists h') <> hist_cell c (hist_lists h)) by (apply D_cells; eauto). apply Nc.
      rewrite !hist_cell_at_pos, !dget_hist_lists.
      destruct (hist_before u _ Hu) as [l [Nl [F B]]]. destruct (hist_after u _ Hu) as [d' [l' [E' [I' [F' Nl']]]]].
      rewrite E'. cbn [option_map]. pose proof (Forall2_lastn _ L _ _ F) as G. pose proof (Forall2_lastn _ L _ _ F') as G'.
      fold (recent L P u) in G. fold (recent L (P ++ K) u) in G'.
      assert (X : lastn L l' = lastn L l).
      { eapply (Forall2_fun (fun i j => fi' i = Some j)); [|exact G'|exact G|exact E]. intros; congruence. }
      apply pad_inj in X; auto. rewrite I', X. destruct (dget _ h) as [d|].
      + cbn [option_map]. now rewrite (proj2 B).
      + destruct B as [B ->]. exfalso.
        assert (Hk : In u (map r_user (P ++ K))) by (apply known_u; congruence).
        assert (Zz : recent L (P ++ K) u <> []).
        { unfold recent. intros Y. apply (f_equal (@length _)) in Y. rewrite lastn_length, map_length in Y. cbn in Y.
          assert (rows_of u (P ++ K) = []) by (destruct (rows_of u (P ++ K)); [auto|cbn in Y; lia]).
          now apply (rows_of_none u (P ++ K)). }
        apply Zz. rewrite E. unfold recent. rewrite (proj2 (rows_of_none u P) B). destruct L; reflexivity.
    - intros [u Hn] ED. apply Hn.
      assert (EQ : forall c, hist_cell c (hist_lists h') = hist_cell c (hist_lists h)).
      { intros c. destruct (Z.eq_dec (hist_cell c (hist_lists h')) (hist_cell c (hist_lists h))) as [E|N]; auto.
        apply D_cells in N as [z Hz]. rewrite ED in Hz. destruct Hz. }
      destruct (in_dec Z.eq_dec u (map r_user (P ++ K))) as [Hk|Hk].
      + destruct (get_u _ Hk) as [x Hu].
        destruct (hist_before u _ Hu) as [l [Nl [F B]]]. destruct (hist_after u _ Hu) as [d' [l' [E' [I' [F' Nl']]]]].
        assert (EQ' : forall p i, at_pos 0 p i (dq_items d') = match dget x h with Some d => at_pos 0 p i (dq_items d) | None => 0 end).
        { intros p i. specialize (EQ (x, i, p)). rewrite !hist_cell_at_pos, !dget_hist_lists in EQ.
          unfold t_user, t_item, t_pos in EQ. cbn [fst snd] in EQ. rewrite E' in EQ. cbn [option_map] in EQ. rewrite EQ.
          destruct (dget x h); reflexivity. }
        assert (LL : length (dq_items d') = L) by (rewrite I', lastn_length, app_length, repeat_length; lia).
        destruct (dget x h) as [d|] eqn:Ed.
        * assert (LD : length (dq_items d) = L) by (rewrite (proj2 B), lastn_length, app_length, repeat_length; lia).
          assert (X : dq_items d' = dq_items d) by (apply at_pos_ext; [lia|auto]).
          rewrite I', (proj2 B) in X. apply (proj1 (pad_inj L l' l Nl' Nl)) in X.
          eapply (Forall2_inj (fun i j => fi' i = Some j)); [exact inj_i|apply (Forall2_lastn _ L _ _ F')|apply (Forall2_lastn _ L _ _ F)|exact X].
        * destruct B as [B ->]. exfalso. apply (rows_of_none u (P ++ K)); auto.
          assert (l' = []).
          { destruct l' as [|j l'] using rev_ind; auto. exfalso.
            assert (Nj : j <> PAD_VALUE) by (apply Nl', in_or_app; right; now left).
            assert (Hj : In j (dq_items d')).
            { rewrite I', app_assoc, lastn_app_le by (cbn [length]; lia). apply in_or_app. right. now left. }
            apply (at_pos_In _ _ Nj) in Hj as [p Hp]. apply Hp, EQ'. }
          subst. inversion F'. destruct (rows_of u (P ++ K)); [auto|discriminate].
      + unfold recent. rewrite (proj2 (rows_of_none u (P ++ K)) Hk).
        assert (Hp : ~ In u (map r_user P)) by (intros H; apply Hk; rewrite map_app; apply in_or_app; auto).
        now rewrite (proj2 (rows_of_none u P) Hp).
  Qed.

  (** Entries with a new user or a new item are those of the chunk. *)
  Lemma D_new u i x j : fu' u = Some x -> fi' i = Some j -> ~ In u (map r_user P) \/ ~ In i (map r_item P) ->
    ((exists p z, In ((x, j, p), z) D) <-> exists r, In r K /\ r_user r = u /\ r_item r = i).
  Proof.
    intros Hu Hi New. destruct (hist_before u _ Hu) as [l [Nl [F B]]]. pose proof (chunk_items u x Hu) as FC.
    destruct (hist_after u _ Hu) as [d' [l'' [E' [I'' [F'' Nl'']]]]].
    assert (E2 : l'' = l ++ items_of x T).
    { eapply (Forall2_fun (fun i j => fi' i = Some j)); [intros; congruence|exact F''| |reflexivity].
      rewrite rows_of_app, map_app. apply Forall2_app; auto. }
    assert (Nj : j <> PAD_VALUE) by (apply fi_pos in Hi; unfold PAD_VALUE; lia).
    assert (NL : ~ In j l).
    { intros Hj. destruct (Forall2_In_r _ _ _ _ F Hj) as [i' [Hi' E]]. assert (i' = i) by (eapply inj_i; eauto). subst i'.
      apply in_map_iff in Hi' as [r [Er Hr]]. apply filter_In in Hr as [Hr Eu]. apply Z.eqb_eq in Eu.
      destruct New as [N|N]; apply N; [rewrite <- Eu|rewrite <- Er]; apply in_map; auto. }
    assert (OLD : forall p, hist_cell (x, j, p) (hist_lists h) = 0).
    { intros p. rewrite hist_cell_at_pos, dget_hist_lists. unfold t_user, t_item, t_pos; cbn [fst snd].
      destruct (dget x h) as [d|]; cbn [option_map]; auto. destruct (Z.eq_dec (at_pos 0 p j (dq_items d)) 0) as [E|N]; auto. exfalso.
      assert (Hj : In j (dq_items d)) by (apply (at_pos_In _ _ Nj); eauto). rewrite (proj2 B) in Hj.
      apply (proj1 (pad_In L l j Nj)) in Hj. apply NL. eapply lastn_incl; eauto. }
    transitivity (In j (items_of x T)).
    - transitivity (exists p, at_pos 0 p j (dq_items d') <> 0).
      + split.
        * intros [p [z Hz]]. exists p. assert (N : hist_cell (x, j, p) (hist_lists h') <> hist_cell (x, j, p) (hist_lists h)) by (apply D_cells; eauto).
          rewrite OLD, hist_cell_at_pos, dget_hist_lists in N. unfold t_user, t_item, t_pos in N; cbn [fst snd] in N. now rewrite E' in N.
        * intros [p N]. exists p. apply D_cells. rewrite OLD, hist_cell_at_pos, dget_hist_lists. unfold t_user, t_item, t_pos; cbn [fst snd].
          now rewrite E'.
      + rewrite <- (at_pos_In _ _ Nj), I'', (pad_In _ _ _ Nj), E2. rewrite lastn_app_le by apply (shortT L st data s chunk0 chunk ms' ku ki PP).
        rewrite in_app_iff. split; [|auto]. intros [H|H]; auto. exfalso. apply NL. eapply lastn_incl; eauto.
    - split.
      + intros Hj. destruct (Forall2_In_r _ _ _ _ FC Hj) as [i' [Hi' E]]. assert (i' = i) by (eapply inj_i; eauto). subst i'.
        apply in_map_iff in Hi' as [r [Er Hr]]. apply filter_In in Hr as [Hr Eu]. apply Z.eqb_eq in Eu. eauto.
      + intros [r [Hr [Eu Ei]]]. assert (H : In i (map r_item (rows_of u K))).
        { apply in_map_iff. exists r. split; auto. apply filter_In. split; auto. now apply Z.eqb_eq. }
        destruct (Forall2_In_l _ _ _ _ FC H) as [j' [Hj' E]]. assert (j' = j) by congruence. now subst.
  Qed.

  (** Rows of the chunk and entries of the delta, where one of the two is new. *)
  Let nu := nusers st.
  Let ni := nitems st.
  Definition corr (r : row) (e : entry) : Prop := fu' (r_user r) = Some (e_user e) /\ fi' (r_item r) = Some (e_item e).
  Lemma corr_u r e : corr r e -> new_user P r = new_u nu e.
  Proof.
    intros [A _]. pose proof (old_u _ _ A) as O. unfold new_user, new_u, nu.
    destruct (memZ (r_user r) (map r_user P)) eqn:E.
    - apply memZ_spec, O in E. cbn. symmetry. apply Z.leb_gt. lia.
    - cbn. symmetry. apply Z.leb_le. destruct (Z_lt_le_dec (e_user e) (nusers st)) as [Lt|]; auto.
      apply O, memZ_spec in Lt. congruence.
  Qed.
  Lemma corr_i r e : corr r e -> new_item P r = new_i ni e.
  Proof.
    intros [_ A]. pose proof (old_i _ _ A) as O. unfold new_item, new_i, ni.
    destruct (memZ (r_item r) (map r_item P)) eqn:E.
    - apply memZ_spec, O in E. cbn. symmetry. apply Z.leb_gt. lia.
    - cbn. symmetry. apply Z.leb_le. destruct (Z_lt_le_dec (e_item e) (nitems st)) as [Lt|]; auto.
      apply O, memZ_spec in Lt. congruence.
  Qed.
  Lemma new_out r : new_user P r || new_item P r = true -> ~ In (r_user r) (map r_user P) \/ ~ In (r_item r) (map r_item P).
  Proof.
    unfold new_user, new_item. rewrite orb_true_iff, !negb_true_iff. rewrite <- !memZ_spec.
    intros [H|H]; [left|right]; congruence.
  Qed.
  Lemma row_entry r : In r K -> new_user P r || new_item P r = true -> exists e, In e D /\ corr r e.
  Proof.
    intros Hr N. destruct (get_u (r_user r)) as [x Hx]; [rewrite map_app, in_app_iff; right; now apply in_map|].
    destruct (get_i (r_item r)) as [j Hj]; [rewrite map_app, in_app_iff; right; now apply in_map|].
    destruct (proj2 (D_new _ _ _ _ Hx Hj (new_out _ N))) as [p [z Hz]]; [eauto|]. exists ((x, j, p), z). split; auto. split; auto.
  Qed.
  Lemma entry_row e : In e D -> new_u nu e || new_i ni e = true -> exists r, In r K /\ corr r e.
  Proof.
    intros He N. destruct e as [c z]. destruct (D_user _ _ He) as [u Hu]. destruct (D_item _ _ He) as [i Hi].
    assert (C : corr (mkRow u i 0 0) (c, z)) by (split; auto). rewrite <- (corr_u _ _ C), <- (corr_i _ _ C) in N.
    apply new_out in N. cbn [r_user r_item] in N. destruct (proj1 (D_new _ _ _ _ Hu Hi N)) as [r [Hr [E1 E2]]].
    - exists (t_pos c), z. destruct c as [[x j] p]. exact He.
    - exists r. split; auto. unfold corr. rewrite E1, E2. auto.
  Qed.
  Definition matched (A : list row) (B : list entry) : Prop :=
    (forall r, In r A -> exists e, In e B /\ corr r e) /\ (forall e, In e B -> exists r, In r A /\ corr r e).
  Lemma matched_count A B : matched A B -> ndistinct (map r_user A) = ndistinct (map e_user B) /\ ndistinct (map r_item A) = ndistinct (map e_item B).
  Proof.
    intros [M1 M2]. split.
    - apply (count_by fu'); [exact inj_u| |].
      + intros a Ha. apply in_map_iff in Ha as [r [<- Hr]]. destruct (M1 r Hr) as [e [He [C _]]]. exists (e_user e). split; auto. now apply in_map.
      + intros b Hb. apply in_map_iff in Hb as [e [<- He]]. destruct (M2 e He) as [r [Hr [C _]]]. exists (r_user r). split; auto. now apply in_map.
    - apply (count_by fi'); [exact inj_i| |].
      + intros a Ha. apply in_map_iff in Ha as [r [<- Hr]]. destruct (M1 r Hr) as [e [He [_ C]]]. exists (e_item e). split; auto. now apply in_map.
      + intros b Hb. apply in_map_iff in Hb as [e [<- He]]. destruct (M2 e He) as [r [Hr [_ C]]]. exists (r_item r). split; auto. now apply in_map.
  Qed.
  Lemma matched_mem_u A B r e : matched A B -> corr r e -> memZ (r_user r) (map r_user A) = memZ (e_user e) (map e_user B).
  Proof.
    intros [M1 M2] [C _]. apply eq_true_iff_eq. rewrite !memZ_spec. split; intros H; apply in_map_iff in H as [y [E H]].
    - destruct (M1 _ H) as [e' [He' [C' _]]]. assert (e_user e' = e_user e) by congruence. rewrite <- H0. now apply in_map.
    - destruct (M2 _ H) as [r' [Hr' [C' _]]]. assert (r_user r' = r_user r) by (eapply inj_u; [exact C'|congruence]). rewrite <- H0. now apply in_map.
  Qed.
  Lemma matched_mem_i A B r e : matched A B -> corr r e -> memZ (r_item r) (map r_item A) = memZ (e_item e) (map e_item B).
  Proof.
    intros [M1 M2] [_ C]. apply eq_true_iff_eq. rewrite !memZ_spec. split; intros H; apply in_map_iff in H as [y [E H]].
    - destruct (M1 _ H) as [e' [He' [_ C']]]. assert (e_item e' = e_item e) by congruence. rewrite <- H0. now apply in_map.
    - destruct (M2 _ H) as [r' [Hr' [_ C']]]. assert (r_item r' = r_item r) by (eapply inj_i; [exact C'|congruence]). rewrite <- H0. now apply in_map.
  Qed.
  Lemma matched_filter (f : row -> bool) (g : entry -> bool) :
    (forall r e, corr r e -> f r = g e) -> (forall r, f r = true -> new_user P r || new_item P r = true) ->
    (forall e, g e = true -> new_u nu e || new_i ni e = true) -> matched (filter f K) (filter g D).
  Proof.
    intros FG NF NG. split.
    - intros r Hr. apply filter_In in Hr as [Hr Fr]. destruct (row_entry r Hr (NF _ Fr)) as [e [He C]]. exists e. split; auto.
      apply filter_In. split; auto. now rewrite <- (FG _ _ C).
    - intros e He. apply filter_In in He as [He Ge]. destruct (entry_row e He (NG _ Ge)) as [r [Hr C]]. exists r. split; auto.
      apply filter_In. split; auto. now rewrite (FG _ _ C).
  Qed.
  Lemma matched_pairs : matched (new_pairs P K) (q_new nu ni D).
  Proof.
    apply matched_filter.
    - intros r e C. now rewrite (corr_u _ _ C), (corr_i _ _ C).
    - intros r. destruct (new_user P r); cbn; auto. discriminate.
    - intros r. destruct (new_u nu r); cbn; auto. discriminate.
  Qed.
  Lemma matched_users : matched (new_users_only P K) (q_new_users nu ni D).
  Proof.
    apply matched_filter.
    - intros r e C. now rewrite (corr_u _ _ C), (matched_mem_u _ _ _ _ matched_pairs C).
    - intros r. destruct (new_user P r); cbn; auto. discriminate.
    - intros r. destruct (new_u nu r); cbn; auto. discriminate.
  Qed.
  Lemma matched_items : matched (new_items_only P K) (q_new_items nu ni D).
  Proof.
    apply matched_filter.
    - intros r e C. now rewrite (corr_i _ _ C), (matched_mem_i _ _ _ _ matched_pairs C).
    - intros r. destruct (new_item P r); rewrite ?orb_true_r; auto. discriminate.
    - intros r. destruct (new_i ni r); rewrite ?orb_true_r; auto. discriminate.
  Qed.
  Lemma fits_sizes : ti_fits v L nu ni D <-> (v = VTIRec ->
   n_users_in (new_users_only P K) <= (n_items_in P + n_items_in (new_pairs P K)) * Z.of_nat L /\
   n_items_in (new_items_only P K)
     <= (n_users_in P + n_users_in (new_pairs P K) + n_users_in (new_users_only P K)) * Z.of_nat L).
  Proof.
    destruct (sinv_counts _ _ _ I) as [CU CI]. unfold ti_fits, n_users_in, n_items_in in *. fold nu in CU. fold ni in CI. rewrite CU, CI.
    destruct (matched_count _ _ matched_pairs) as [M1 M2]. destruct (matched_count _ _ matched_users) as [M3 M4].
    destruct (matched_count _ _ matched_items) as [M5 M6]. rewrite <- CU, <- CI, M1, M2, M3, M6. tauto.
  Qed.

  (** The state after. *)
  Lemma good_seq st' : good_ti v L st chunk ms' ku ki st' -> seq_inv L st' (P ++ K).
  Proof.
    intros [GM [_ [_ [_ [GS _]]]]] u x Hu. unfold tu, tit in *. rewrite GM in *. rewrite GS.
    destruct (hist_after u x Hu) as [d [l [E [Hi [F _]]]]]. exists d, l. auto.
  Qed.
End Upd.

(** ** Cropping, training and updating *)
Lemma crop_keep L s keep c out : crops L s keep -> get_df_with_cropped_pos_column c L s = Ok out ->
  forall u, rows_of u (map p_row out) = rows_of u (keep c).
Proof.
  intros HC E u. destruct (crop_ok_hyps _ _ _ _ E) as [HL NE]. destruct (crop_main c L s HL NE) as [out' [E' [_ H]]].
  assert (out' = out) by congruence. subst out'. destruct (H u) as [x [Hx Fx]].
  assert (E1 : rows_of u (map p_row out) = lastn L x).
  { unfold rows_of. rewrite filter_map_comm. cbn. rewrite Fx. apply map_fst_combine.
    unfold zrange. rewrite map_length, seq_length, lastn_length. lia. }
  rewrite E1. specialize (HC c u). unfold kept_rows in HC. destruct HC as [y [Hy ->]].
  destruct s; [|congruence]. f_equal. eapply StableSorted_unique; eauto.
Qed.
