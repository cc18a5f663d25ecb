(** Training tensor versus history tensor, and assembly of C07-C11. *)
From Coq Require Import ZArith List Bool Lia Permutation Sorted.
From Verif Require Import Prelude Prelude_proofs DataPrep_model DataPrep_spec DataPrep_proofs DataPrep_main.
From Verif Require Import History_model History_spec History_proofs.
Import ListNotations.
Open Scope Z_scope.

Lemma crop_ok_hyps df L s out :
  get_df_with_cropped_pos_column df L s = Ok out -> (1 <= L)%nat /\ df <> [].
Proof.
  intros E. destruct df as [|r df].
  - destruct s; discriminate.
  - split; [|discriminate]. destruct L; [|lia].
    rewrite crop_zero in E by discriminate. discriminate.
Qed.

Lemma Forall2_filter {A B} (P : A -> B -> Prop) (f : A -> bool) (g : B -> bool) l l' :
  Forall2 P l l' -> (forall a b, P a b -> f a = g b) ->
  Forall2 P (filter f l) (filter g l').
Proof.
  intros F H. induction F as [|a b l l' Hab F IH]; simpl; auto.
  rewrite (H _ _ Hab). destruct (g b); auto.
Qed.

Lemma filter_map_comm {A B} (f : A -> B) (p : B -> bool) l :
  filter p (map f l) = map f (filter (fun x => p (f x)) l).
Proof. induction l; simpl; auto. rewrite IHl. destruct (p (f a)); auto. Qed.

Lemma Forall2_length_eq {A B} (P : A -> B -> Prop) l l' : Forall2 P l l' -> length l = length l'.
Proof. induction 1; simpl; auto. Qed.

Lemma Forall2_pos (R : row -> row -> Prop) (data : list prow) rows :
  Forall2 R (map p_row data) rows ->
  Forall2 (fun p q => R (p_row p) (p_row q) /\ p_pos p = p_pos q) data
          (combine rows (map p_pos data)).
Proof.
  revert rows. induction data as [|[r p] data IH]; intros rows F; inversion F; subst; simpl; auto.
Qed.

Lemma prepare_initial data seq L td :
  tdrec_prepare data seq L = Ok td ->
  exists initial,
    let ms := td_mappings td in
    get_df_with_updated_indices (map p_row data) = Ok (map p_row initial, ms)
    /\ Forall2 (fun p q => reindexed (f_of (m_users ms)) (f_of (m_items ms))
                          (g_of (m_users ms)) (g_of (m_items ms)) (p_row p) (p_row q)
                          /\ p_pos p = p_pos q) data initial
    /\ bij (m_users ms) 0 /\ bij (m_items ms) 0
    /\ td_inds td = sort_stable user_pos_leb (map triple_of initial)
    /\ td_vals td = map (fun p => r_rel (p_row p)) initial
    /\ td_history td = map (fun p => (r_user (p_row p), r_item (p_row p))) initial
    /\ td_seq td = update_user_seq_history (td_inds td) seq L.
Proof.
  unfold tdrec_prepare. intros H.
  destruct (get_df_with_updated_indices (map p_row data)) as [[rows ms]|e] eqn:E; [|discriminate].
  cbn [bind] in H.
  destruct (maxZ _) as [mu|]; [|discriminate]. cbn [bind] in H.
  destruct (maxZ _) as [mi|]; [|discriminate]. cbn [bind] in H.
  destruct (maxZ _) as [mp|]; [|discriminate]. cbn [bind] in H.
  inversion H; subst; clear H. simpl.
  exists (combine rows (map p_pos data)).
  pose proof (reindex_maps _ _ _ E) as [U [I F]].
  assert (LEN : length rows = length data).
  { apply Forall2_length_eq in F. rewrite map_length in F. auto. }
  split.
  { f_equal. f_equal.
    clear E U I F. revert rows LEN. induction data as [|p data IH]; intros [|r rows] LEN;
      simpl in *; try discriminate; auto. f_equal. apply IH. lia. }
  split; [apply Forall2_pos; auto|].
  split; [rewrite U; apply get_bij_iff, unique_NoDup|].
  split; [rewrite I; apply get_bij_iff, unique_NoDup|].
  auto.
Qed.

Definition ones (inds : list triple) : list entry := map (fun t => (t, 1)) inds.

Lemma cell_ones_filter c inds :
  cell c (ones inds) = cell c (ones (filter (fun t => t_user t =? t_user c) inds)).
Proof.
  induction inds as [|t inds IH]; simpl; auto.
  rewrite IH, (Z.eqb_sym (t_user t)).
  destruct (t_user c =? t_user t) eqn:E; simpl; rewrite ?E; auto.
Qed.

Lemma combine_ones inds vals :
  length inds = length vals -> (forall v, In v vals -> v = 1) -> combine inds vals = ones inds.
Proof.
  revert vals. induction inds as [|t inds IH]; intros [|v vals] HL H; simpl in *; try discriminate; auto.
  rewrite (H v) by auto. unfold ones in *; simpl. f_equal. apply IH; auto.
Qed.

Lemma cell_ones_enum ui i p : forall is s,
  (forall j, In j is -> j <> PAD_VALUE) ->
  cell (ui, i, p) (ones (map (fun pi => (ui, snd pi, fst pi)) (enumerate s is))) = at_pos s p i is.
Proof.
  intros is s H. rewrite <- (cell_new_user ui i p is s). f_equal.
  revert s H. induction is as [|j is IH]; intros s H; auto.
  cbn [enumerate map ones flat_map fst snd].
  assert ((j =? PAD_VALUE) = false) as -> by (apply Z.eqb_neq, H; left; auto).
  cbn [negb app]. f_equal. apply IH. intros; apply H; right; auto.
Qed.

Lemma triples_of_positions ui : forall (F : list prow) s,
  (forall p, In p F -> r_user (p_row p) = ui) ->
  map p_pos F = map fst (enumerate s (map (fun p => r_item (p_row p)) F)) ->
  map triple_of F
  = map (fun pi => (ui, snd pi, fst pi)) (enumerate s (map (fun p => r_item (p_row p)) F)).
Proof.
  induction F as [|p F IH]; intros s Hu HP; simpl in *; auto.
  injection HP as H1 H2. f_equal.
  - rewrite <- (Hu p), <- H1 by auto. reflexivity.
  - apply IH; auto.
Qed.

Lemma enumerate_sorted ui : forall (is : list Z) s,
  StronglySorted (fun a b => user_pos_leb a b = true)
    (map (fun pi => (ui, snd pi, fst pi)) (enumerate s is)).
Proof.
  induction is as [|j is IH]; intros s; simpl; constructor; auto.
  apply Forall_forall. intros t Ht. apply in_map_iff in Ht as [[q i] [<- Hq]].
  apply (in_map fst) in Hq. rewrite enumerate_fst in Hq. apply in_map_iff in Hq as [k [Hk _]].
  simpl in Hk. unfold user_pos_leb, t_user, t_pos; simpl.
  rewrite Z.ltb_irrefl, Z.eqb_refl. simpl. apply Z.leb_le. lia.
Qed.

Lemma StableSorted_length {A} (key : A -> Z) l l' : StableSorted key l l' -> length l' = length l.
Proof. intros [_ [P _]]. symmetry. apply Permutation_length; auto. Qed.

Lemma map_p_pos_combine (a : list row) b :
  length a = length b -> map p_pos (combine a b) = b.
Proof.
  revert b. induction a as [|r a IH]; intros [|x b] H; simpl in *; try discriminate; auto.
  f_equal; auto.
Qed.

Lemma train_user_entries df L s out seq td u ui :
  get_df_with_cropped_pos_column df L s = Ok out ->
  tdrec_prepare out seq L = Ok td ->
  f_of (m_users (td_mappings td)) u = Some ui ->
  exists is,
    length is = Nat.min (length (rows_of u df)) L
    /\ (0 < length is)%nat
    /\ (forall i, In i is -> i <> PAD_VALUE)
    /\ filter (fun t => t_user t =? ui) (td_inds td)
       = map (fun pi => (ui, snd pi, fst pi)) (enumerate 0 is).
Proof.
  intros EC EP Hu.
  destruct (crop_ok_hyps _ _ _ _ EC) as [HL Hne].
  destruct (crop_main df L s HL Hne) as [out' [EC' [_ HC]]].
  rewrite EC in EC'; inversion EC'; subst out'; clear EC'.
  destruct (HC u) as [x [Hx Fx]].
  assert (Lx : length x = length (rows_of u df)).
  { destruct s; [apply StableSorted_length with (key := r_ts); auto|subst; auto]. }
  destruct (prepare_initial _ _ _ _ EP) as [ini [EM [F [Bu [Bi [EI _]]]]]].
  set (ms := td_mappings td) in *.
  set (Fi := filter (fun p => r_user (p_row p) =? ui) ini).
  assert (FF : Forall2 (fun p q => reindexed (f_of (m_users ms)) (f_of (m_items ms))
                          (g_of (m_users ms)) (g_of (m_items ms)) (p_row p) (p_row q)
                          /\ p_pos p = p_pos q)
                 (filter (fun p => r_user (p_row p) =? u) out) Fi).
  { apply (Forall2_filter _ (fun p => r_user (p_row p) =? u) (fun p => r_user (p_row p) =? ui)); auto. intros a b [[A1 [A2 _]] _]. cbv beta.
    destruct (Z.eqb_spec (r_user (p_row a)) u) as [E|N].
    - rewrite E, Hu in A1. inversion A1. symmetry. apply Z.eqb_refl.
    - symmetry. apply Z.eqb_neq. intros E. rewrite E in A2.
      destruct Bu as [_ [Bu _]]. apply Bu in Hu. congruence. }
  exists (map (fun p => r_item (p_row p)) Fi).
  assert (LF : length Fi = Nat.min (length (rows_of u df)) L).
  { apply Forall2_length_eq in FF. rewrite <- FF, Fx.
    etransitivity; [apply combine_length|]. rewrite lastn_length, zrange_length, Lx. lia. }
  rewrite map_length.
  split; [exact LF|]. split.
  { assert (Hin : In u (map r_user (map p_row out))).
    { pose proof (reindex_maps _ _ _ EM) as [U _].
      rewrite U in Hu. rewrite <- unique_In.
      destruct (in_dec Z.eq_dec u (unique (map r_user (map p_row out)))) as [|N]; auto.
      exfalso. apply (proj2 (f_get_None (unique (map r_user (map p_row out))) 0 u)) in N.
      congruence. }
    rewrite map_map in Hin. apply in_map_iff in Hin as [p [Hp Hin]].
    apply Forall2_length_eq in FF. rewrite <- FF.
    destruct (filter (fun p => r_user (p_row p) =? u) out) eqn:EF; simpl; [|lia].
    assert (In p []) by (rewrite <- EF; apply filter_In; split; auto; apply Z.eqb_eq; auto).
    destruct H. }
  split.
  { intros i Hi. apply in_map_iff in Hi as [q [<- Hq]]. apply filter_In in Hq as [Hq _].
    assert (exists p, In p out /\ reindexed (f_of (m_users ms)) (f_of (m_items ms))
                          (g_of (m_users ms)) (g_of (m_items ms)) (p_row p) (p_row q)) as [p [_ R]].
    { clear - F Hq. induction F as [|a b l l' Hab F IH]; [destruct Hq|].
      destruct Hq as [->|Hq]; [exists a; split; [left; auto|apply Hab]|].
      destruct (IH Hq) as [p [Hp R]]. exists p; split; auto. right; auto. }
    destruct R as [_ [_ [R _]]]. apply bij_f_nonneg in R; auto. unfold PAD_VALUE. lia. }
  rewrite EI, (filter_sort _ user_pos_total user_pos_trans), filter_map_comm.
  change (filter (fun x0 => t_user (triple_of x0) =? ui) ini) with Fi.
  rewrite (triples_of_positions ui Fi 0).
  - apply sort_stable_id, enumerate_sorted.
  - intros p Hp. apply filter_In in Hp as [_ Hp]. apply Z.eqb_eq; auto.
  - assert (HP : map p_pos Fi = map p_pos (filter (fun p => r_user (p_row p) =? u) out)).
    { clear - FF. induction FF as [|a b l l' [_ Hab] F IH]; simpl; congruence. }
    rewrite HP, Fx, map_p_pos_combine, enumerate_fst, map_length, LF, <- Lx.
    + unfold zrange. apply map_ext. intros; lia.
    + rewrite lastn_length, zrange_length. lia.
Qed.

Lemma prepare_vals_ones df L s out seq td :
  get_df_with_cropped_pos_column df L s = Ok out ->
  tdrec_prepare out seq L = Ok td ->
  (forall r, In r df -> r_rel r = 1) ->
  combine (td_inds td) (td_vals td) = ones (td_inds td).
Proof.
  intros EC EP H1.
  destruct (crop_ok_hyps _ _ _ _ EC) as [HL Hne].
  destruct (crop_main df L s HL Hne) as [out' [EC' [_ HC]]].
  rewrite EC in EC'; inversion EC'; subst out'; clear EC'.
  destruct (prepare_initial _ _ _ _ EP) as [ini [_ [F [_ [_ [EI [EV _]]]]]]].
  apply combine_ones.
  - rewrite EI, EV. rewrite <- (Permutation_length (sort_stable_perm user_pos_leb _)).
    rewrite !map_length. reflexivity.
  - intros v Hv. rewrite EV in Hv. apply in_map_iff in Hv as [q [<- Hq]].
    assert (exists p, In p out /\ r_rel (p_row q) = r_rel (p_row p)) as [p [Hp ->]].
    { clear - F Hq. induction F as [|a b l l' Hab F IH]; [destruct Hq|].
      destruct Hq as [->|Hq]; [exists a; split; [left; auto|apply Hab]|].
      destruct (IH Hq) as [p [Hp R]]. exists p; split; auto. right; auto. }
    apply H1. destruct (HC (r_user (p_row p))) as [x [Hx Fx]].
    assert (Hin : In p (combine (lastn L x) (zrange (Nat.min (length x) L)))).
    { rewrite <- Fx. apply filter_In. split; auto. apply Z.eqb_refl. }
    destruct p as [r pos]. apply in_combine_l in Hin. simpl.
    assert (Hrx : In r x) by (destruct (lastn_suffix L x) as [pre ->]; apply in_or_app; right; auto).
    assert (In r (rows_of (r_user r) df)).
    { destruct s; [|subst; auto]. destruct Hx as [_ [P _]].
      eapply Permutation_in; [symmetry; exact P|auto]. }
    apply filter_In in H; tauto.
Qed.

Lemma td_seq_user ui is td L :
  td_seq td = update_user_seq_history (td_inds td) [] L ->
  filter (fun t => t_user t =? ui) (td_inds td) = map (fun pi => (ui, snd pi, fst pi)) (enumerate 0 is) ->
  (0 < length is)%nat ->
  dget ui (hist_lists (td_seq td)) = Some (lastn L (repeat PAD_VALUE L ++ is)).
Proof.
  intros ES HF Hn. rewrite dget_hist_lists, ES, dget_update by apply wf_nil.
  assert (items_of ui (td_inds td) = is) as ->.
  { unfold items_of. rewrite HF, map_map. simpl. apply enumerate_snd. }
  destruct is; [simpl in Hn; lia|]. reflexivity.
Qed.

Lemma training_vs_history_main df L s out td u ui :
  get_df_with_cropped_pos_column df L s = Ok out ->
  tdrec_prepare out [] L = Ok td ->
  (forall r, In r df -> r_rel r = 1) ->
  f_of (m_users (td_mappings td)) u = Some ui ->
  forall chunks,
  let '(h, deltas) := stream_deltas L (td_seq td) chunks in
  (forall i p, cell (ui, i, p) (combine (td_inds td) (td_vals td) ++ deltas)
               = hist_cell (ui, i, p) (hist_lists h))
  <-> (L <= length (rows_of u df))%nat.
Proof.
  intros EC EP H1 Hu chunks.
  destruct (train_user_entries _ _ _ _ _ _ _ _ EC EP Hu) as [is [Lis [Pis [Nis Fis]]]].
  pose proof (prepare_vals_ones _ _ _ _ _ _ EC EP H1) as HV.
  destruct (prepare_initial _ _ _ _ EP) as [ini [_ [_ [_ [_ [_ [_ [_ ES]]]]]]]].
  destruct (crop_ok_hyps _ _ _ _ EC) as [HL Hne].
  assert (W : wf_hist (td_seq td)) by (rewrite ES; apply wf_update, wf_nil).
  pose proof (fun c => stream_deltas_cell L c chunks (td_seq td) W) as HS.
  destruct (stream_deltas L (td_seq td) chunks) as [h deltas]. simpl in HS.
  pose proof (td_seq_user _ _ _ _ ES Fis Pis) as HQ.
  assert (EQ : forall i p, cell (ui, i, p) (combine (td_inds td) (td_vals td) ++ deltas)
                           = hist_cell (ui, i, p) (hist_lists h)
               <-> at_pos 0 p i is = at_pos 0 p i (lastn L (repeat PAD_VALUE L ++ is))).
  { intros i p. rewrite cell_app, HS, HV, cell_ones_filter.
    change (t_user (ui, i, p)) with ui. rewrite Fis, cell_ones_enum by auto.
    rewrite (hist_cell_at_pos _ (hist_lists (td_seq td))).
    change (t_user (ui, i, p)) with ui. rewrite HQ.
    change (t_pos (ui, i, p)) with p. change (t_item (ui, i, p)) with i. lia. }
  split.
  - intros H. destruct (le_lt_dec L (length (rows_of u df))) as [|N]; auto. exfalso.
    assert (LL : length is = length (rows_of u df)) by lia.
    destruct is as [|i0 is']; [simpl in Pis; lia|].
    specialize (H i0 0). apply EQ in H.
    rewrite lastn_app_le in H by lia.
    assert (H0 : (L - length (i0 :: is') > 0)%nat) by lia.
    unfold at_pos in H. simpl in H. rewrite Z.eqb_refl in H.
    assert ((i0 =? PAD_VALUE) = false) as E0 by (apply Z.eqb_neq, Nis; left; auto).
    rewrite E0 in H. simpl in H.
    assert (HPad : exists k, lastn (L - S (length is')) (repeat PAD_VALUE L) = PAD_VALUE :: k).
    { unfold lastn. rewrite repeat_length.
      replace (L - (L - S (length is')))%nat with (S (length is')) by (simpl in *; lia).
      assert (G : forall a b, (a < b)%nat -> exists k, skipn a (repeat PAD_VALUE b) = PAD_VALUE :: k).
      { induction a as [|a IH]; intros [|b] Hab; try lia; simpl; [eexists; reflexivity|].
        apply IH; lia. }
      apply G. simpl in *; lia. }
    destruct HPad as [k Hk]. rewrite Hk in H. simpl in H.
    rewrite andb_false_r in H. discriminate.
  - intros HLn i p. apply EQ. f_equal.
    rewrite lastn_app_ge by lia. rewrite lastn_all by lia. reflexivity.
Qed.

Lemma training_vs_history_new_main df L s out td ui :
  get_df_with_cropped_pos_column df L s = Ok out ->
  tdrec_prepare out [] L = Ok td ->
  g_of (m_users (td_mappings td)) ui = None ->
  forall chunks,
  let '(h, deltas) := stream_deltas L (td_seq td) chunks in
  forall i p, cell (ui, i, p) (combine (td_inds td) (td_vals td) ++ deltas)
              = hist_cell (ui, i, p) (hist_lists h).
Proof.
  intros EC EP Hu chunks.
  destruct (prepare_initial _ _ _ _ EP) as [ini [_ [F [_ [_ [EI [_ [_ ES]]]]]]]].
  assert (W : wf_hist (td_seq td)) by (rewrite ES; apply wf_update, wf_nil).
  pose proof (fun c => stream_deltas_cell L c chunks (td_seq td) W) as HS.
  destruct (stream_deltas L (td_seq td) chunks) as [h deltas]. simpl in HS.
  assert (HN : forall t, In t (td_inds td) -> t_user t <> ui).
  { intros t Ht. rewrite EI in Ht.
    eapply Permutation_in in Ht; [|symmetry; apply sort_stable_perm].
    apply in_map_iff in Ht as [q [<- Hq]].
    intros E. clear - F Hq Hu E. induction F as [|a b l l' Hab F IH]; [destruct Hq|].
    destruct Hq as [->|Hq]; auto. destruct Hab as [[_ [A _]] _].
    unfold triple_of, t_user in E; simpl in E. unfold p_row in A. congruence. }
  intros i p. rewrite cell_app, HS.
  rewrite (cell_zero_user _ (combine (td_inds td) (td_vals td))).
  - rewrite (hist_cell_at_pos _ (hist_lists (td_seq td))).
    change (t_user (ui, i, p)) with ui.
    rewrite dget_hist_lists, ES, dget_update by apply wf_nil.
    assert (items_of ui (td_inds td) = []) as ->.
    { unfold items_of. rewrite filter_none; auto. intros t Ht. apply Z.eqb_neq, HN; auto. }
    simpl. lia.
  - intros [t v] He. apply in_combine_l in He. simpl. apply HN; auto.
Qed.

Lemma history_is_last_L_main (batches : list (list triple)) (L : nat) :
  let h := fold_left (fun h b => update_user_seq_history b h L) batches [] in
  h = update_user_seq_history (concat batches) [] L
  /\ forall u,
     dget u (hist_lists h)
     = match items_of u (concat batches) with
       | [] => None
       | is => Some (lastn L (repeat PAD_VALUE L ++ is))
       end.
Proof.
  simpl. rewrite update_batches. split; auto. intros u.
  rewrite dget_hist_lists, dget_update by apply wf_nil. simpl.
  destruct (items_of u (concat batches)); reflexivity.
Qed.

Lemma delta_is_difference_main (h_new h_old : dict (list Z)) :
  NoDup (dkeys h_new) ->
  (forall u l, dget u h_old = Some l ->
     exists l', dget u h_new = Some l' /\ length l' = length l) ->
  (forall c, cell c (calculate_delta h_new h_old) = hist_cell c h_new - hist_cell c h_old)
  /\ NoDup (map fst (calculate_delta h_new h_old))
  /\ (forall c v, In (c, v) (calculate_delta h_new h_old) ->
        (v = 1 \/ v = -1) /\ t_item c <> PAD_VALUE).
Proof.
  intros ND H. split; [|split].
  - intros c. apply calculate_delta_cell; auto.
  - apply calculate_delta_NoDup; auto.
  - apply calculate_delta_vals.
Qed.

Lemma deltas_telescope_main (L : nat) (chunks0 chunks : list (list triple)) :
  let h0 := fold_left (fun h b => update_user_seq_history b h L) chunks0 [] in
  let '(h, deltas) := stream_deltas L h0 chunks in
  forall c, cell c deltas = hist_cell c (hist_lists h) - hist_cell c (hist_lists h0).
Proof.
  intros h0.
  assert (W : wf_hist h0) by (unfold h0; rewrite update_batches; apply wf_update, wf_nil).
  pose proof (fun c => stream_deltas_cell L c chunks h0 W) as H.
  destruct (stream_deltas L h0 chunks). exact H.
Qed.
