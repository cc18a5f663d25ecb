(** Assembly of C25-C27 and C53. *)
From Coq Require Import ZArith QArith List Bool Lia Permutation Sorted.
From Verif Require Import Prelude Prelude_proofs DataPrep_model DataPrep_spec DataPrep_proofs DataPrep_main
  History_model History_spec History_proofs History_main Eval_model Recommend_model Recommend_main
  Psi_model Psi_spec Tirec_model Tirec_spec Tirec_proofs Tirec_stream Retrain_model Retrain_spec Retrain_proofs.
From Verif Require Eval_main Psi_main Tirec_assembly.
Import ListNotations.
Open Scope Z_scope.

(** * TDRecRe *)

Lemma extend_spec ms rows :
  bij (m_users ms) 0 -> bij (m_items ms) 0 ->
  let ms' := extend_mappings ms rows in
  bij (m_users ms') 0 /\ bij (m_items ms') 0
  /\ (forall k v, f_of (m_users ms) k = Some v -> f_of (m_users ms') k = Some v)
  /\ (forall k v, f_of (m_items ms) k = Some v -> f_of (m_items ms') k = Some v)
  /\ (forall k, f_of (m_users ms') k <> None <-> f_of (m_users ms) k <> None \/ In k (map r_user rows))
  /\ (forall k, f_of (m_items ms') k <> None <-> f_of (m_items ms) k <> None \/ In k (map r_item rows)).
Proof.
  intros BU BI ms'. unfold ms', extend_mappings; cbn [m_users m_items].
  split; [apply extended_bij; auto|]. split; [apply extended_bij; auto|].
  split; [intros; apply extended_keeps; auto|]. split; [intros; apply extended_keeps; auto|].
  split; intros; apply extended_known.
Qed.

Lemma maxZ_ok l : l <> [] -> exists m, maxZ l = Ok m.
Proof.
  induction l as [|a l IH]; intros N; [congruence|].
  destruct l as [|b l]; [exists a; auto|].
  destruct IH as [m Hm]; [discriminate|]. exists (Z.max a m).
  change (maxZ (a :: b :: l)) with (do m <- maxZ (b :: l); Ok (Z.max a m)). rewrite Hm. auto.
Qed.

Lemma prepare_tensor_ok rows poss ms seq L :
  rows <> [] -> length rows = length poss ->
  exists mu mi mp,
    let inds := sort_stable user_pos_leb (map triple_of (combine rows poss)) in
    prepare_tensor rows poss ms seq L
    = Ok (mkTrain ms inds (map (fun p => r_rel (p_row p)) (combine rows poss))
            (mu + 1, mi + 1, mp + 1)
            (map (fun p => (r_user (p_row p), r_item (p_row p))) (combine rows poss))
            (update_user_seq_history inds seq L))
    /\ maxZ (map t_user inds) = Ok mu /\ maxZ (map t_item inds) = Ok mi /\ maxZ (map t_pos inds) = Ok mp.
Proof.
  intros N HL. set (inds := sort_stable user_pos_leb (map triple_of (combine rows poss))).
  assert (NI : inds <> []).
  { intros E. pose proof (sort_stable_perm user_pos_leb (map triple_of (combine rows poss))) as P.
    fold inds in P. rewrite E in P. apply Permutation_sym, Permutation_nil in P.
    destruct rows as [|r rows], poss as [|q poss]; simpl in *; congruence. }
  destruct (maxZ_ok (map t_user inds)) as [mu M1]. { intros E. apply map_eq_nil in E. auto. }
  destruct (maxZ_ok (map t_item inds)) as [mi M2]. { intros E. apply map_eq_nil in E. auto. }
  destruct (maxZ_ok (map t_pos inds)) as [mp M3]. { intros E. apply map_eq_nil in E. auto. }
  exists mu, mi, mp. simpl. split; auto.
  unfold prepare_tensor. fold inds. rewrite M1, M2, M3. reflexivity.
Qed.

Lemma reprepare_spec data seq L ms :
  bij (m_users ms) 0 -> bij (m_items ms) 0 -> data <> [] ->
  let ms' := extend_mappings ms (map p_row data) in
  exists td initial mu mi mp,
    tdrecre_prepare data seq L (Some ms) = Ok td
    /\ td_mappings td = ms'
    /\ Forall2 (prow_rel ms') data initial
    /\ td_inds td = sort_stable user_pos_leb (map triple_of initial)
    /\ td_vals td = map (fun p => r_rel (p_row p)) initial
    /\ td_history td = map (fun p => (r_user (p_row p), r_item (p_row p))) initial
    /\ td_seq td = update_user_seq_history (td_inds td) seq L
    /\ td_shape td = (mu + 1, mi + 1, mp + 1)
    /\ maxZ (map t_user (td_inds td)) = Ok mu /\ maxZ (map t_item (td_inds td)) = Ok mi
    /\ maxZ (map t_pos (td_inds td)) = Ok mp.
Proof.
  intros BU BI N ms'. destruct (extend_spec ms (map p_row data) BU BI) as [BU' [BI' [KU [KI [NU NI]]]]].
  fold ms' in BU', BI', KU, KI, NU, NI.
  destruct (map_df_columns_total (map p_row data) ms') as [rows ER].
  { intros r Hr. apply in_map with (f := r_user) in Hr as H1. apply in_map with (f := r_item) in Hr as H2.
    split; [apply NU|apply NI]; auto. }
  destruct (map_df_columns_main (map p_row data) ms' BU' BI') as [_ [_ M]].
  assert (F : Forall2 (reindexed (f_of (m_users ms')) (f_of (m_items ms'))
                 (g_of (m_users ms')) (g_of (m_items ms'))) (map p_row data) rows) by (apply M; auto).
  pose proof (Forall2_len _ _ _ F) as LEN. rewrite map_length in LEN.
  assert (NR : rows <> []) by (intros ->; destruct data; [congruence|discriminate]).
  destruct (prepare_tensor_ok rows (map p_pos data) ms' seq L NR) as [mu [mi [mp [E [M1 [M2 M3]]]]]].
  { rewrite map_length. lia. }
  eexists _, (combine rows (map p_pos data)), mu, mi, mp.
  split.
  - unfold tdrecre_prepare. fold ms'. rewrite ER. cbn [bind]. exact E.
  - cbn [td_mappings td_inds td_vals td_history td_seq td_shape].
    repeat (split; [reflexivity || (apply Forall2_pos; exact F) || auto|]). auto.
Qed.

Lemma inds_users ms data initial x :
  Forall2 (prow_rel ms) data initial ->
  (In x (map t_user (sort_stable user_pos_leb (map triple_of initial)))
   <-> exists k, In k (map r_user (map p_row data)) /\ f_of (m_users ms) k = Some x).
Proof.
  intros F.
  assert (Q : In x (map t_user (sort_stable user_pos_leb (map triple_of initial))) <-> In x (map t_user (map triple_of initial))).
  { split; apply Permutation_in; apply Permutation_map; [apply Permutation_sym|]; apply sort_stable_perm. }
  rewrite Q, map_map. split.
  - intros Hx. apply in_map_iff in Hx as [q [<- Hq]]. destruct (Forall2_In_r _ _ _ _ F Hq) as [p [Hp [[R1 _] _]]].
    exists (r_user (p_row p)). split; [apply in_map, in_map; auto|]. exact R1.
  - intros [k [Hk Hf]]. rewrite map_map in Hk. apply in_map_iff in Hk as [p [<- Hp]].
    destruct (Forall2_In_l _ _ _ _ F Hp) as [q [Hq [[R1 _] _]]].
    apply in_map_iff. exists q. split; auto. unfold triple_of, t_user; cbn [fst]. fold (p_row q). congruence.
Qed.

Lemma inds_items ms data initial x :
  Forall2 (prow_rel ms) data initial ->
  (In x (map t_item (sort_stable user_pos_leb (map triple_of initial)))
   <-> exists k, In k (map r_item (map p_row data)) /\ f_of (m_items ms) k = Some x).
Proof.
  intros F.
  assert (Q : In x (map t_item (sort_stable user_pos_leb (map triple_of initial))) <-> In x (map t_item (map triple_of initial))).
  { split; apply Permutation_in; apply Permutation_map; [apply Permutation_sym|]; apply sort_stable_perm. }
  rewrite Q, map_map. split.
  - intros Hx. apply in_map_iff in Hx as [q [<- Hq]]. destruct (Forall2_In_r _ _ _ _ F Hq) as [p [Hp [[_ [_ [R1 _]]] _]]].
    exists (r_item (p_row p)). split; [apply in_map, in_map; auto|]. exact R1.
  - intros [k [Hk Hf]]. rewrite map_map in Hk. apply in_map_iff in Hk as [p [<- Hp]].
    destruct (Forall2_In_l _ _ _ _ F Hp) as [q [Hq [[_ [_ [R1 _]]] _]]].
    apply in_map_iff. exists q. split; auto. unfold triple_of, t_item; cbn [fst snd]. fold (p_row q). congruence.
Qed.

Lemma inds_pos ms data initial x :
  Forall2 (prow_rel ms) data initial ->
  (In x (map t_pos (sort_stable user_pos_leb (map triple_of initial))) <-> In x (map p_pos data)).
Proof.
  intros F.
  assert (Q : In x (map t_pos (sort_stable user_pos_leb (map triple_of initial))) <-> In x (map t_pos (map triple_of initial))).
  { split; apply Permutation_in; apply Permutation_map; [apply Permutation_sym|]; apply sort_stable_perm. }
  rewrite Q, map_map.
  replace (map (fun x0 => t_pos (triple_of x0)) initial) with (map p_pos data); [tauto|].
  clear Q. induction F as [|p q l l' [_ H] F IH]; simpl; auto. rewrite IH, H. reflexivity.
Qed.

(** Largest index of the extended mapping reached by the table. *)
Lemma max_reached (m : mapping) (vals : list Z) (n mx : Z) (ids : list Z) :
  bij m 0 -> n = n_indices m -> 
  let m' := update_cont_mapping_struct m (new_entities m vals) in
  (forall x, In x ids <-> exists k, In k vals /\ f_of m' k = Some x) ->
  maxZ ids = Ok mx ->
  (n <= mx + 1 <-> exists k, In k vals /\ (f_of m k = None \/ f_of m k = Some (n - 1)))
  /\ (n <= mx + 1 -> mx + 1 = n_indices m').
Proof.
  intros B En m' HI HM. apply maxZ_spec in HM as [H1 H2].
  assert (B' : bij m' 0) by (apply extended_bij; auto).
  assert (NN : n_indices m' = n_indices m + Z.of_nat (length (new_entities m vals))) by apply n_update.
  assert (A : (exists k, In k vals /\ (f_of m k = None \/ f_of m k = Some (n - 1))) -> mx + 1 = n_indices m').
  { intros [k [Hk H]].
    apply HI in H1 as [k1 [Hk1 Hf1]]. pose proof (bij_f_nonneg _ _ _ B' Hf1).
    assert (G : exists k', In k' vals /\ f_of m' k' = Some (n_indices m' - 1)).
    { destruct (list_eq_dec Z.eq_dec (new_entities m vals) []) as [EE|NE];
        [|destruct (exists_last NE) as [es [e EE]]].
      - destruct H as [H|H].
        + exfalso. assert (Hx : In k (new_entities m vals)) by (apply new_entities_In; auto). rewrite EE in Hx. destruct Hx.
        + exists k. split; auto. rewrite NN, EE. simpl. replace (n_indices m + 0 - 1) with (n - 1) by lia.
          apply extended_keeps; auto.
      - exists e. 
        assert (Hin : In e (new_entities m vals)) by (rewrite EE; apply in_or_app; right; left; auto).
        split; [apply new_entities_In in Hin; tauto|].
        assert (HN : nth_error (new_entities m vals) (length es) = Some e).
        { rewrite EE, nth_error_app2, Nat.sub_diag; auto. }
        unfold m'. rewrite (f_update_new m _ _ _ (new_entities_NoDup m vals) HN).
        f_equal. fold m'. rewrite NN, EE, app_length. simpl. lia. }
    apply HI in G. apply H2 in G. lia. }
  split; [split|].
  - intros H. apply HI in H1 as [k [Hk Hf]].
    exists k. split; auto.
    destruct (f_of m k) as [v|] eqn:E; [right|left; auto].
    pose proof (extended_keeps m vals _ _ E) as E'. fold m' in E'. rewrite Hf in E'. injection E' as ->.
    pose proof (bij_f_nonneg _ _ _ B E). f_equal. lia.
  - intros H. rewrite (A H), NN. lia.
  - intros H. apply A. apply HI in H1 as [k [Hk Hf]]. exists k. split; auto.
    destruct (f_of m k) as [v|] eqn:E; [right|left; auto].
    pose proof (extended_keeps m vals _ _ E) as E'. fold m' in E'. rewrite Hf in E'. injection E' as ->.
    pose proof (bij_f_nonneg _ _ _ B E). f_equal. lia.
Qed.

Lemma hist_fresh_iff L (is1 is2 : list Z) seq1 ui :
  (1 <= L)%nat ->
  dget ui seq1 = match is1 with
                 | [] => None
                 | z :: l => Some (mkDeque L (lastn L (repeat PAD_VALUE L ++ z :: l)))
                 end ->
  (forall j, In j is1 -> j <> PAD_VALUE) ->
  forall inds, items_of ui inds = is2 -> wf_hist seq1 ->
  (dget ui (hist_lists (update_user_seq_history inds seq1 L))
   = dget ui (hist_lists (update_user_seq_history inds [] L))
   <-> (L <= length is2)%nat \/ is1 = []).
Proof.
  intros HL E1 NP inds E2 W.
  rewrite !dget_hist_lists, !dget_update by (auto using wf_nil). rewrite E2, E1. simpl dget.
  destruct is1 as [|j1 is1].
  - split; auto.
  - set (A := j1 :: is1) in *.
    destruct is2 as [|j2 is2].
    { simpl. split; [discriminate|]. intros [H|H]; [lia|discriminate]. }
    set (B := j2 :: is2) in *. simpl.
    transitivity (lastn L (lastn L (repeat PAD_VALUE L ++ A) ++ B) = lastn L (repeat PAD_VALUE L ++ B)).
    { split; [intros H; injection H; auto|intros ->; auto]. }
    assert (NA : lastn L (repeat PAD_VALUE L ++ A) <> []).
    { intros E0. apply (f_equal (@length Z)) in E0. rewrite lastn_length, app_length, repeat_length in E0.
      simpl in E0. lia. }
    rewrite (lastn_eq_iff L (length B) _ B (last A PAD_VALUE)); auto.
    + split; auto. intros [H|H]; auto. discriminate.
    + rewrite lastn_length, app_length, repeat_length. lia.
    + destruct (lastn_suffix L (repeat PAD_VALUE L ++ A)) as [pre Hp].
      rewrite <- (last_app_ne pre _ _ NA), <- Hp. apply last_app_ne. discriminate.
    + apply NP. apply last_in. discriminate.
Qed.

Lemma first_train_hist d1 L td1 ui :
  tdrec_prepare d1 [] L = Ok td1 ->
  wf_hist (td_seq td1)
  /\ dget ui (td_seq td1)
     = match items_of ui (td_inds td1) with
       | [] => None | is => Some (mkDeque L (lastn L (repeat PAD_VALUE L ++ is))) end.
Proof.
  intros H. destruct (prepare_rel _ _ _ _ H) as [i1 [_ [_ [_ [_ [_ ES1]]]]]].
  rewrite ES1. split; [apply wf_update, wf_nil|].
  rewrite dget_update by apply wf_nil. simpl dget. destruct (items_of ui (td_inds td1)); reflexivity.
Qed.

Lemma reinit_history_iff_main L d1 d2 td1 td2 fresh u ui :
  (1 <= L)%nat -> d2 <> [] ->
  tdrec_prepare d1 [] L = Ok td1 ->
  tdrecre_prepare d2 (td_seq td1) L (Some (td_mappings td1)) = Ok td2 ->
  tdrecre_prepare d2 [] L (Some (td_mappings td1)) = Ok fresh ->
  f_of (m_users (td_mappings td2)) u = Some ui ->
  (td_mappings td2 = td_mappings fresh /\ td_inds td2 = td_inds fresh
   /\ td_vals td2 = td_vals fresh /\ td_history td2 = td_history fresh)
  /\ (dget ui (hist_lists (td_seq td2)) = dget ui (hist_lists (td_seq fresh))
      <-> (L <= length (prows_of u d2))%nat \/ f_of (m_users (td_mappings td1)) u = None).
Proof.
  intros HL N H1 H2 HF Hu.
  destruct (prepare_rel _ _ _ _ H1) as [i1 [_ [BU1 [BI1 _]]]].
  pose proof (extend_spec _ (map p_row d2) BU1 BI1) as [BU' [BI' [KU [KI [NU NI]]]]].
  destruct (reprepare_spec d2 (td_seq td1) L _ BU1 BI1 N)
    as [t [ini [mu [mi [mp [E [EM [F [EI [EV [EH [ES _]]]]]]]]]]]].
  rewrite H2 in E. injection E as <-.
  destruct (reprepare_spec d2 [] L _ BU1 BI1 N)
    as [t [ini' [mu' [mi' [mp' [E [EM' [F' [EI' [EV' [EH' [ES' _]]]]]]]]]]]].
  rewrite HF in E. injection E as <-.
  set (ms' := extend_mappings (td_mappings td1) (map p_row d2)) in *.
  assert (II : td_inds td2 = td_inds fresh /\ td_vals td2 = td_vals fresh /\ td_history td2 = td_history fresh).
  { unfold tdrecre_prepare in H2, HF. fold ms' in H2, HF.
    destruct (map_df_columns (map p_row d2) ms') as [rows|]; [|discriminate]. cbn [bind] in H2, HF.
    unfold prepare_tensor in H2, HF.
    destruct (maxZ _) in H2, HF; [|discriminate]. cbn [bind] in H2, HF.
    destruct (maxZ _) in H2, HF; [|discriminate]. cbn [bind] in H2, HF.
    destruct (maxZ _) in H2, HF; [|discriminate]. cbn [bind] in H2, HF.
    injection H2 as <-. injection HF as <-. auto. }
  split; [rewrite EM, EM'; tauto|].
  rewrite ES, ES'. destruct II as [<- _].
  destruct (first_train_hist _ _ _ ui H1) as [W E1].
  rewrite EM in Hu.
  rewrite (hist_fresh_iff L _ _ _ ui HL E1 (fun j Hj => nonpad_items _ _ _ _ _ _ H1 Hj) (td_inds td2) eq_refl W).
  assert (C : length (items_of ui (td_inds td2)) = length (prows_of u d2)).
  { pose proof (contributes_items ms' d2 ini ui BU' F) as C. rewrite <- EI in C. unfold contributes in C.
    apply (proj1 (proj2 BU')) in Hu. rewrite Hu in C.
    destruct C as [x [[_ [P _]] F2]]. apply Forall2_len in F2. apply Permutation_length in P. lia. }
  rewrite C.
  assert (G : items_of ui (td_inds td1) = [] <-> f_of (m_users (td_mappings td1)) u = None).
  { rewrite <- (g_inds _ _ _ _ ui H1). destruct BU1 as [_ [B1 _]]. destruct BU' as [_ [B' _]]. split; intros G.
    - destruct (f_of (m_users (td_mappings td1)) u) as [v|] eqn:Ev; auto.
      pose proof (KU _ _ Ev) as Ev'. rewrite Hu in Ev'. injection Ev' as <-. apply B1 in Ev. congruence.
    - destruct (g_of (m_users (td_mappings td1)) ui) as [k|] eqn:Ek; auto.
      apply B1 in Ek. pose proof (KU _ _ Ek) as Ek'. apply B' in Ek', Hu. congruence. }
  rewrite G. reflexivity.
Qed.

(** When TDRecRe.train succeeds (C53). *)
Lemma reinit_outcome_main L rank st data seq :
  sized st -> data <> [] ->
  let ms' := extend_mappings (ti_maps st) (map p_row data) in
  let '(r0, r1, r2) := rank in
  ((exists st', tdrecre_train L rank data (Some st) seq = Ok st')
   <-> tucker_rank_is_valid rank = true
       /\ (exists k, In k (map r_user (map p_row data)) /\ (tu st k = None \/ tu st k = Some (nusers st - 1)))
       /\ (exists k, In k (map r_item (map p_row data)) /\ (tit st k = None \/ tit st k = Some (nitems st - 1)))
       /\ r0 <= n_indices (m_users ms') /\ r1 <= n_indices (m_items ms') /\ r2 <= Z.of_nat L
       /\ maxZ (map p_pos data) = Ok (Z.of_nat L - 1))
  /\ (forall e, tdrecre_train L rank data (Some st) seq = Err e ->
        e = RuntimeError /\ tucker_rank_is_valid rank = false \/ e = ValueError /\ tucker_rank_is_valid rank = true)
  /\ (forall st', tdrecre_train L rank data (Some st) seq = Ok st' ->
        ti_maps st' = ms' /\ sized st' /\ rows_aligned st').
Proof.
  intros [BU [BI [NU NI]]] N ms'. destruct rank as [[r0 r1] r2].
  destruct (extend_spec _ (map p_row data) BU BI) as [BU' [BI' [KU [KI [XU XI]]]]].
  fold ms' in BU', BI', KU, KI, XU, XI.
  destruct (reprepare_spec data seq L _ BU BI N)
    as [td [ini [mu [mi [mp [E [EM [F [EI [EV [EH [ES [SH [M1 [M2 M3]]]]]]]]]]]]]]].
  fold ms' in EM, F.
  assert (RU := max_reached (m_users (ti_maps st)) (map r_user (map p_row data)) (nusers st) mu
                  (map t_user (td_inds td)) BU NU
                  (fun x => eq_ind_r (fun l => In x (map t_user l) <-> _) (inds_users ms' _ _ x F) EI) M1).
  assert (RI := max_reached (m_items (ti_maps st)) (map r_item (map p_row data)) (nitems st) mi
                  (map t_item (td_inds td)) BI NI
                  (fun x => eq_ind_r (fun l => In x (map t_item l) <-> _) (inds_items ms' _ _ x F) EI) M2).
  assert (RP : maxZ (map p_pos data) = Ok mp).
  { destruct (maxZ_ok (map p_pos data)) as [m Hm]. { intros E0. apply map_eq_nil in E0. auto. }
    rewrite Hm. apply maxZ_spec in M3 as [A1 A2]. apply maxZ_spec in Hm as [B1 B2].
    rewrite EI in A1. apply (inds_pos ms' _ _ _ F) in A1.
    assert (In m (map t_pos (td_inds td))) by (rewrite EI; apply (inds_pos ms' _ _ _ F); auto).
    specialize (A2 _ H). specialize (B2 _ A1). f_equal. lia. }
  change (update_cont_mapping_struct (m_users (ti_maps st)) (new_entities (m_users (ti_maps st)) (map r_user (map p_row data))))
    with (m_users ms') in RU.
  change (update_cont_mapping_struct (m_items (ti_maps st)) (new_entities (m_items (ti_maps st)) (map r_item (map p_row data))))
    with (m_items ms') in RI.
  destruct RU as [RU1 RU2], RI as [RI1 RI2].
  unfold tdrecre_train. cbn [option_map]. rewrite E. cbn [bind]. rewrite SH.
  fold (nusers st) (nitems st).
  fold (tu st) in RU1. fold (tit st) in RI1. fold (tu st) (tit st).
  destruct (tucker_rank_is_valid (r0, r1, r2)); cbn [negb].
  2:{ split; [|split]; [|intros e H; injection H as <-; auto|intros; discriminate].
      split; [intros [x H]; discriminate|intros [H _]; discriminate]. }
  set (b := (nusers st <=? mu + 1) && (nitems st <=? mi + 1) && (r0 <=? mu + 1) && (r1 <=? mi + 1)
            && (r2 <=? mp + 1) && (mp + 1 =? Z.of_nat L)).
  assert (HB : b = true <-> nusers st <= mu + 1 /\ nitems st <= mi + 1 /\ r0 <= mu + 1 /\ r1 <= mi + 1
                            /\ r2 <= mp + 1 /\ mp + 1 = Z.of_nat L).
  { unfold b. rewrite !andb_true_iff, !Z.leb_le, Z.eqb_eq. tauto. }
  destruct b.
  - destruct (proj1 HB eq_refl) as [G1 [G2 [G3 [G4 [G5 G6]]]]].
    rewrite RU2 in G3 by auto. rewrite RI2 in G4 by auto.
    split; [|split]; [|intros; discriminate|].
    + split; [|eexists; reflexivity]. intros _. rewrite RP.
      split; auto. split; [apply RU1; auto|]. split; [apply RI1; auto|].
      split; auto. split; auto. split; [lia|]. f_equal. lia.
    + intros st' H. injection H as <-. cbn [ti_maps].
      rewrite EM. split; auto. unfold sized, rows_aligned, nusers, nitems. cbn [ti_maps ti_urows ti_irows].
      rewrite !zrange_length. rewrite !RU2, !RI2 by auto.
      pose proof (proj1 BU') as PU. pose proof (proj1 BI') as PI.
      rewrite !Z2Nat.id by auto.
      split; [split; [exact BU'|split; [exact BI'|split; reflexivity]]|split; reflexivity].
  - split; [|split]; [|intros e H; injection H as <-; auto|intros; discriminate].
    split; [intros [x H]; discriminate|].
    intros [_ [H1 [H2 [H3 [H4 [H5 H6]]]]]]. exfalso.
    apply RU1 in H1. apply RI1 in H2. rewrite RP in H6. injection H6 as ->.
    rewrite <- RU2 in H3 by auto. rewrite <- RI2 in H4 by auto.
    assert (false = true) by (apply HB; lia). discriminate.
Qed.

Lemma crop_users df L s out u :
  get_df_with_cropped_pos_column df L s = Ok out ->
  (In u (map r_user (map p_row out)) <-> In u (map r_user df)).
Proof.
  intros H. destruct (crop_ok_hyps _ _ _ _ H) as [HL HN].
  destruct (crop_main df L s HL HN) as [out' [E [_ P]]].
  rewrite H in E. injection E as <-. destruct (P u) as [x [HX EX]].
  assert (LX : length x = length (rows_of u df)).
  { destruct s; [apply StableSorted_length in HX; auto|subst; auto]. }
  assert (Q : In u (map r_user (map p_row out)) <-> filter (fun p => r_user (p_row p) =? u) out <> []).
  { rewrite map_map, in_map_iff. split.
    - intros [p [<- Hp]] E0. assert (In p []) by (rewrite <- E0; apply filter_In; split; auto; apply Z.eqb_refl). auto.
    - intros E0. destruct (filter _ out) as [|p l] eqn:EF; [congruence|].
      assert (Hp : In p (filter (fun p => r_user (p_row p) =? u) out)) by (rewrite EF; left; auto).
      apply filter_In in Hp as [Hp Hu]. apply Z.eqb_eq in Hu. eauto. }
  rewrite Q, EX.
  assert (Q2 : In u (map r_user df) <-> rows_of u df <> []).
  { rewrite in_map_iff. split.
    - intros [r [<- Hr]] E0. assert (In r []) by (rewrite <- E0; apply filter_In; split; auto; apply Z.eqb_refl). auto.
    - intros E0. destruct (rows_of u df) as [|r l] eqn:EF; [congruence|].
      assert (Hr : In r (rows_of u df)) by (rewrite EF; left; auto).
      apply filter_In in Hr as [Hr Hu]. apply Z.eqb_eq in Hu. eauto. }
  rewrite Q2. split; intros E0 Z0.
  - apply E0. rewrite Z0 in LX. destruct x; [|discriminate]. reflexivity.
  - apply E0. pose proof (eq_trans (eq_sym (combine_length (lastn L x) (zrange (Nat.min (length x) L))))
                  (f_equal (@length (row * Z)) Z0)) as Z1.
    rewrite lastn_length, zrange_length in Z1. simpl in Z1. destruct (rows_of u df); auto. simpl in LX. lia.
Qed.

Lemma crop_pos_lt df L s out p :
  get_df_with_cropped_pos_column df L s = Ok out -> In p out -> 0 <= p_pos p < Z.of_nat L.
Proof.
  intros H Hp. destruct (crop_ok_hyps _ _ _ _ H) as [HL HN].
  destruct (crop_main df L s HL HN) as [out' [E [_ P]]].
  rewrite H in E. injection E as <-. destruct (P (r_user (p_row p))) as [x [_ EX]].
  assert (Hf : In p (filter (fun q => r_user (p_row q) =? r_user (p_row p)) out))
    by (apply filter_In; split; auto; apply Z.eqb_refl).
  rewrite EX in Hf. destruct p as [r q]. apply in_combine_r in Hf. apply zrange_nonneg in Hf.
  unfold p_pos; simpl. lia.
Qed.

Lemma extended_n m vals : n_indices m <= n_indices (update_cont_mapping_struct m (new_entities m vals)).
Proof. rewrite n_update. lia. Qed.

Lemma reinit_experiment_main L rank st conc chunk data seq :
  sized st -> 0 < nusers st ->
  (forall k, tu st k <> None -> In k (map r_user (map p_row conc))) ->
  grow_table conc chunk L = Ok data ->
  let '(r0, r1, r2) := rank in
  tucker_rank_is_valid rank = true -> r0 <= nusers st -> r1 <= nitems st -> r2 <= Z.of_nat L ->
  (exists p, In p data /\ p_pos p = Z.of_nat L - 1) ->
  (tdrecre_train L rank data (Some st) seq = Err ValueError
   <-> forall r, In r (map p_row data) -> exists i, tit st (r_item r) = Some i /\ i < nitems st - 1).
Proof.
  intros SZ HU KN HG. destruct rank as [[r0 r1] r2]. intros HV H0 H1 H2 [p [Hp HPp]].
  assert (N : data <> []) by (intros ->; destruct Hp).
  pose proof (reinit_outcome_main L (r0, r1, r2) st data seq SZ N) as [OK [ER _]].
  pose proof SZ as [BU [BI [NU NI]]].
  assert (MP : maxZ (map p_pos data) = Ok (Z.of_nat L - 1)).
  { destruct (maxZ_ok (map p_pos data)) as [m Hm]. { intros E0. apply map_eq_nil in E0. auto. }
    rewrite Hm. apply maxZ_spec in Hm as [B1 B2]. apply in_map_iff in B1 as [q [<- Hq]].
    apply (crop_pos_lt _ _ _ _ _ HG) in Hq. specialize (B2 (p_pos p) (in_map _ _ _ Hp)). f_equal. lia. }
  assert (UK : exists k, In k (map r_user (map p_row data)) /\ (tu st k = None \/ tu st k = Some (nusers st - 1))).
  { destruct BU as [_ [B R]]. destruct (proj2 (R (nusers st - 1))) as [k Hk]; [lia|].
    apply B in Hk. exists k. split; [|right; exact Hk].
    apply (crop_users _ _ _ _ _ HG). rewrite map_app. apply in_or_app. left. apply KN. unfold tu. congruence. }
  pose proof (extended_n (m_users (ti_maps st)) (map r_user (map p_row data))) as XU.
  pose proof (extended_n (m_items (ti_maps st)) (map r_item (map p_row data))) as XI.
  assert (OK' : (exists st', tdrecre_train L (r0, r1, r2) data (Some st) seq = Ok st')
                <-> exists k, In k (map r_item (map p_row data)) /\ (tit st k = None \/ tit st k = Some (nitems st - 1))).
  { rewrite OK. split; [tauto|]. intros HI. unfold extend_mappings; cbn [m_users m_items].
    split; [auto|]. split; [auto|]. split; [auto|]. split; [lia|]. split; [lia|]. auto. }
  split; intros H.
  - intros r Hr. destruct (tit st (r_item r)) as [i|] eqn:Ei.
    + exists i. split; auto.
      pose proof (bij_f_nonneg _ _ _ BI Ei). destruct (Z.eq_dec i (nitems st - 1)) as [->|]; [exfalso|lia].
      destruct (proj2 OK') as [st' H']; [|congruence].
      exists (r_item r). split; [apply in_map; auto|auto].
    + exfalso. destruct (proj2 OK') as [st' H']; [|congruence].
      exists (r_item r). split; [apply in_map; auto|auto].
  - destruct (tdrecre_train L (r0, r1, r2) data (Some st) seq) as [st'|e] eqn:E.
    + exfalso. destruct (proj1 OK') as [k [Hk HK]]; [eauto|].
      apply in_map_iff in Hk as [r [<- Hr]]. destruct (H r Hr) as [i [Hi Hlt]].
      rewrite Hi in HK. destruct HK as [HK|HK]; [discriminate|injection HK as ->; lia].
    + destruct (ER e eq_refl) as [[_ H']|[-> _]]; [congruence|auto].
Qed.

(** * Index spaces (C27) *)

Lemma ids_inj (m : mapping) (r1 r2 ids : list Z) :
  bij m 0 -> Forall2 (fun x k => g_of m x = Some k) r1 ids -> Forall2 (fun x k => g_of m x = Some k) r2 ids ->
  r1 = r2.
Proof.
  intros [_ [B _]] F. revert r2. induction F as [|x k r1 ids Hx F IH]; intros r2 F2; inversion F2 as [|y k' r2' ids' Hy F2']; subst; auto.
  f_equal; auto. apply B in Hx, Hy. congruence.
Qed.

Lemma wji_stable_main (m1 m2 : mapping) (topn : nat) (r1 r2 ids1 ids2 : list Z) :
  bij m1 0 -> bij m2 0 ->
  (forall k v, f_of m1 k = Some v -> f_of m2 k = Some v) ->
  (1 <= topn)%nat -> length r1 = topn -> length r2 = topn -> NoDup r1 -> NoDup r2 ->
  Forall2 (fun x k => g_of m1 x = Some k) r1 ids1 ->
  Forall2 (fun x k => g_of m2 x = Some k) r2 ids2 ->
  exists q, wji_user (Z.to_nat (n_indices m2)) topn r1 r2 = Ok q
    /\ (q == 1 <-> ids1 = ids2)%Q /\ (q == 0 <-> forall k, In k ids1 -> ~ In k ids2)%Q.
Proof.
  intros B1 B2 KE HT L1 L2 N1 N2 F1 F2.
  assert (F1' : Forall2 (fun x k => g_of m2 x = Some k) r1 ids1).
  { eapply Forall2_impl; [|exact F1]. simpl. intros x k H.
    apply (proj1 (proj2 B2)), KE, (proj1 (proj2 B1)), H. }
  assert (RG : forall x, (exists k, g_of m2 x = Some k) -> 0 <= x < Z.of_nat (Z.to_nat (n_indices m2))).
  { intros x Hx. apply (proj2 (proj2 B2)) in Hx. lia. }
  assert (HR : forall x, In x r1 \/ In x r2 -> 0 <= x < Z.of_nat (Z.to_nat (n_indices m2))).
  { intros x [Hx|Hx]; apply RG.
    - destruct (Forall2_In_l _ _ _ _ F1' Hx) as [k [_ Hk]]; eauto.
    - destruct (Forall2_In_l _ _ _ _ F2 Hx) as [k [_ Hk]]; eauto. }
  destruct (Eval_main.wji_user_extremes_main (Z.to_nat (n_indices m2)) topn r1 r2 HT L1 L2 HR)
    as [q [E [_ [Z0 Z1]]]].
  exists q. split; auto. split.
  - rewrite (Z1 N1 N2). split.
    + intros <-. clear - F1' F2. revert ids2 F2. induction F1' as [|x k r1 ids Hx F IH]; intros ids2 F2; inversion F2; subst; auto.
      f_equal; [congruence|auto].
    + intros <-. eapply ids_inj; eauto.
  - rewrite Z0. split; intros H.
    + intros k Hk1 Hk2. destruct (Forall2_In_r _ _ _ _ F1' Hk1) as [x [Hx Hxk]].
      destruct (Forall2_In_r _ _ _ _ F2 Hk2) as [y [Hy Hyk]].
      apply (proj1 (proj2 B2)) in Hxk, Hyk. rewrite Hxk in Hyk. injection Hyk as ->. apply (H y); auto.
    + intros x Hx1 Hx2. destruct (Forall2_In_l _ _ _ _ F1' Hx1) as [k [Hk Hxk]].
      destruct (Forall2_In_l _ _ _ _ F2 Hx2) as [k' [Hk' Hxk']]. rewrite Hxk in Hxk'. injection Hxk' as <-.
      apply (H k); auto.
Qed.

(** Indices of known ids never change. *)
Lemma index_stable_main :
  (forall cfg st data st', aligned st -> psi_update cfg st data = Ok st' ->
     (forall k v, fu st k = Some v -> fu st' k = Some v)
     /\ (forall k v, fi st k = Some v -> fi st' k = Some v))
  /\ (forall v L st data s st', ti_wf L st -> ti_update v L st data s = Ok st' ->
     (forall k x, tu st k = Some x -> tu st' k = Some x)
     /\ (forall k x, tit st k = Some x -> tit st' k = Some x))
  /\ (forall L rank st data seq st', sized st -> data <> [] ->
     tdrecre_train L rank data (Some st) seq = Ok st' ->
     (forall k x, tu st k = Some x -> tu st' k = Some x)
     /\ (forall k x, tit st k = Some x -> tit st' k = Some x)).
Proof.
  split; [|split].
  - intros cfg st data st' A H.
    destruct (Psi_main.psi_update_good _ _ _ _ (Psi_main.aligned_core st A) H) as [_ [X _]]. exact X.
  - intros v L st data s st' W H.
    destruct (Tirec_assembly.ti_update_ok v L st data s st' W H) as [chunk0 [chunk [ms' [ku [ki [P [E [NE [Fi G]]]]]]]]].
    destruct G as [GM _]. destruct P. unfold tu, tit. rewrite GM. auto.
  - intros L rank st data seq st' SZ N H. pose proof (reinit_outcome_main L rank st data seq SZ N) as O.
    destruct rank as [[r0 r1] r2]. destruct O as [_ [_ O]]. destruct (O st' H) as [EM _].
    destruct SZ as [BU [BI _]].
    destruct (extend_spec (ti_maps st) (map p_row data) BU BI) as [_ [_ [KU [KI _]]]].
    unfold tu, tit. rewrite EM. auto.
Qed.

Lemma pairing_after_crop_main df L s out seq td :
  get_df_with_cropped_pos_column df L s = Ok out ->
  tdrec_prepare out seq L = Ok td ->
  own_entries (td_mappings td) out (combine (td_inds td) (td_vals td)).
Proof.
  intros HC H. destruct (own_exists _ _ _ _ H) as [own Hown].
  rewrite (pairing_crop_main _ _ _ _ _ _ _ HC H Hown). exact Hown.
Qed.
