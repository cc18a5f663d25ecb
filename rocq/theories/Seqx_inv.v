(** Training and updating a sequential model in terms of the raw tables. *)
From Coq Require Import ZArith List Bool Lia Permutation Sorted.
From Verif Require Import Prelude Prelude_proofs DataPrep_model DataPrep_spec DataPrep_proofs DataPrep_main
  History_model History_spec History_proofs History_main Recommend_model Recommend_spec Recommend_main Psi_model Psi_spec
  Tirec_model Tirec_spec Tirec_proofs Tirec_main Tirec_assembly Tirec_stream Nti_train Full_spec Seqx_spec Seqx_book Seqx_upd.
Import ListNotations.
Open Scope Z_scope.

Lemma keep_nil L s keep : crops L s keep -> forall u, rows_of u (keep []) = [].
Proof.
  intros C u. destruct (C [] u) as [x [Hx ->]]. cbn in Hx.
  assert (x = []) as ->. { destruct s; auto. apply StableSorted_length in Hx. destruct x; [auto|discriminate]. }
  destruct L; reflexivity.
Qed.

Lemma sinv_update v L s keep st P c : (1 <= L)%nat -> crops L s keep -> sinv L st P ->
  match ti_update v L st c s with
  | Ok st' => seq_fits v L keep P c /\ sinv L st' (P ++ keep c)
  | Err _ => ~ seq_fits v L keep P c
  end.
Proof.
  intros HL C I. pose proof (sinv_wf _ _ _ I) as W. destruct c as [|r c'].
  - rewrite (proj1 (tirec_outcome_main v L st [] s W) eq_refl). intros [[u H] _]. apply H.
    unfold recent. rewrite rows_of_app, (keep_nil _ _ _ C u), app_nil_r. reflexivity.
  - remember (r :: c') as c eqn:Ec. assert (NE : c <> []) by congruence. clear Ec r c'.
    destruct (preprocess_spec L (ti_maps st) c s (proj1 W) (proj1 (proj2 W)) HL NE) as [chunk0 [chunk [ms' [ku [ki PP]]]]].
    assert (HK : forall u, rows_of u (keep c) = rows_of u (map p_row chunk0)).
    { intros u. symmetry. eapply crop_keep; [exact C|]. apply PP. }
    pose proof (ti_update_empty v L st c s W _ _ _ _ _ PP) as EE.
    pose proof (ti_update_cases v L st c s W _ _ _ _ _ PP) as EC.
    pose proof (tfits_iff v L st c s W _ _ _ _ _ PP) as EF.
    pose proof (D_nonempty L st c s P (keep c) HL I chunk0 chunk ms' ku ki PP HK) as ED.
    pose proof (fits_sizes v L st c s P (keep c) HL I chunk0 chunk ms' ku ki PP HK) as ES.
    set (D := snd (get_train_tensor L (ti_seq st) (map triple_of chunk))) in *.
    destruct D as [|e0 D0] eqn:EQ.
    + rewrite (EE eq_refl). intros [F _]. apply ED in F. congruence.
    + assert (ND : e0 :: D0 <> []) by discriminate. specialize (EC ND).
      destruct (tfit2 v L st chunk && tfit3 v L st chunk ku).
      * destruct EC as [st' [E G]]. rewrite E. split.
        { split; [now apply ED|]. apply ES, EF. reflexivity. }
        { split; [|eapply good_seq; eauto]. destruct I as [[P0 [I0 H0]] _].
          destruct (update_ti_inv v L st c s st' P0 I0 E) as [out [Eo [I1 _]]].
          exists (P0 ++ map p_row out). split; auto. intros u. rewrite !rows_of_app, H0. f_equal.
          eapply crop_keep; eauto. }
      * rewrite EC. intros [_ F]. apply ES, EF in F. discriminate.
Qed.

(** ** Training *)
Lemma train_items L s keep table out seq td u x : crops L s keep ->
  get_df_with_cropped_pos_column table L s = Ok out -> tdrec_prepare out seq L = Ok td ->
  f_of (m_users (td_mappings td)) u = Some x ->
  exists is, Forall2 (fun i j => f_of (m_items (td_mappings td)) i = Some j) (map r_item (rows_of u (keep table))) is
    /\ (0 < length is)%nat /\ filter (fun t => t_user t =? x) (td_inds td) = map (fun pi => (x, snd pi, fst pi)) (enumerate 0 is).
Proof.
  intros C EC EP Hu. destruct (train_user_entries _ _ _ _ _ _ _ _ EC EP Hu) as [is [_ [N [_ E]]]]. exists is. split; auto.
  rewrite <- (crop_keep _ _ _ _ _ C EC).
  destruct (prepare_initial _ _ _ _ EP) as [ini [_ [F [Bu [_ [EI _]]]]]].
  set (ms := td_mappings td) in *. set (Fi := filter (fun p => r_user (p_row p) =? x) ini).
  assert (FF : Forall2 (fun p q => reindexed (f_of (m_users ms)) (f_of (m_items ms))
                          (g_of (m_users ms)) (g_of (m_items ms)) (p_row p) (p_row q) /\ p_pos p = p_pos q)
                 (filter (fun p => r_user (p_row p) =? u) out) Fi).
  { apply (Forall2_filter _ (fun p => r_user (p_row p) =? u) (fun p => r_user (p_row p) =? x)); auto. intros a b [[A1 [A2 _]] _]. cbv beta.
    destruct (Z.eqb_spec (r_user (p_row a)) u) as [E'|N'].
    - rewrite E', Hu in A1. inversion A1. symmetry. apply Z.eqb_refl.
    - symmetry. apply Z.eqb_neq. intros E'. rewrite E' in A2. destruct Bu as [_ [Bu _]]. apply Bu in Hu. congruence. }
  destruct (crop_ok_hyps _ _ _ _ EC) as [HL Hne]. destruct (crop_main table L s HL Hne) as [out' [EC' [_ HC]]].
  assert (out' = out) by congruence. subst out'. destruct (HC u) as [y [_ Fx]].
  assert (HP : map p_pos Fi = map p_pos (filter (fun p => r_user (p_row p) =? u) out)).
  { clear - FF. induction FF as [|a b l l' [_ Hab] F IH]; simpl; congruence. }
  assert (LF : length Fi = Nat.min (length y) L).
  { apply Forall2_length_eq in FF. rewrite <- FF, Fx. etransitivity; [apply combine_length|]. rewrite lastn_length, zrange_length. lia. }
  assert (EQ : is = map (fun p => r_item (p_row p)) Fi).
  { rewrite <- (enumerate_snd 0 is). transitivity (map t_item (map (fun pi => (x, snd pi, fst pi)) (enumerate 0 is))); [rewrite map_map; reflexivity|].
    rewrite <- E, EI, (filter_sort _ user_pos_total user_pos_trans), filter_map_comm.
    change (filter (fun x0 => t_user (triple_of x0) =? x) ini) with Fi.
    rewrite (triples_of_positions x Fi 0).
    - rewrite sort_stable_id by apply enumerate_sorted. rewrite map_map. cbn. apply enumerate_snd.
    - intros p Hp. apply filter_In in Hp as [_ Hp]. apply Z.eqb_eq; auto.
    - rewrite HP, Fx, map_p_pos_combine, enumerate_fst, map_length, LF.
      + unfold zrange. apply map_ext. intros; lia.
      + rewrite lastn_length, zrange_length. lia. }
  rewrite EQ. unfold rows_of. rewrite filter_map_comm, map_map. cbv beta.
  clear - FF. revert FF. generalize Fi. generalize (filter (fun p => r_user (p_row p) =? u) out).
  intros l l' FF. induction FF as [|a b l l' [[_ [_ [R _]]] _] F IH]; cbn; constructor; auto.
Qed.

Lemma sinv_train L s keep table data rank st : crops L s keep ->
  get_df_with_cropped_pos_column table L s = Ok data -> tdrec_train L rank data [] = Ok st -> sinv L st (keep table).
Proof.
  intros C EC T. destruct (crop_ok_hyps _ _ _ _ EC) as [HL _]. destruct (train_ti_inv L rank data st HL T) as [I _].
  split. { exists (map p_row data). split; auto. eapply crop_keep; eauto. }
  unfold tdrec_train in T. destruct (tdrec_prepare data [] L) as [td|] eqn:EP; cbn [bind] in T; [|discriminate].
  assert (EQ : ti_maps st = td_mappings td /\ ti_seq st = td_seq td).
  { destruct (td_shape td) as [[n0 n1] n2]. destruct rank as [[r0 r1] r2]. destruct (negb _); [discriminate|].
    destruct (_ && _ && _ && _) in T; [|discriminate]. injection T as <-. split; reflexivity. }
  destruct EQ as [EM ES]. intros u x Hu. unfold tu, tit in *. rewrite EM in *. rewrite ES.
  destruct (train_items _ _ _ _ _ _ _ _ _ C EC EP Hu) as [is [F [N E]]].
  destruct (prepare_initial _ _ _ _ EP) as [ini [_ [_ [_ [_ [_ [_ [_ EH]]]]]]]].
  pose proof (td_seq_user _ _ _ _ EH E N) as Q. rewrite dget_hist_lists in Q.
  destruct (dget x (td_seq td)) as [d|]; [|discriminate]. exists d, is. split; auto. split; auto. cbn in Q. congruence.
Qed.

Lemma last_position L s keep table data td n0 n1 n2 : crops L s keep ->
  get_df_with_cropped_pos_column table L s = Ok data -> tdrec_prepare data [] L = Ok td ->
  td_shape td = (Z.of_nat n0, Z.of_nat n1, Z.of_nat n2) ->
  ((n2 <= L)%nat /\ (n2 = L <-> exists u, length (rows_of u (keep table)) = L)).
Proof.
  intros C EC EP SH. destruct (crop_ok_hyps _ _ _ _ EC) as [HL Hne]. destruct (crop_main table L s HL Hne) as [out' [EC' [_ HC]]].
  assert (out' = data) by congruence. subst out'.
  assert (LEN : forall u, exists m, (m <= L)%nat /\ length (rows_of u (keep table)) = m /\ map p_pos (filter (fun p => r_user (p_row p) =? u) data) = zrange m).
  { intros u. destruct (HC u) as [x [_ Fx]]. exists (Nat.min (length x) L). split; [lia|].
    assert (Q : map p_pos (filter (fun p => r_user (p_row p) =? u) data) = zrange (Nat.min (length x) L)).
    { rewrite Fx. apply map_p_pos_combine. rewrite lastn_length, zrange_length. lia. }
    split; auto. rewrite <- (crop_keep _ _ _ _ _ C EC). unfold rows_of. rewrite filter_map_comm, map_length. cbv beta.
    rewrite <- (map_length p_pos (filter (fun x0 => r_user (p_row x0) =? u) data)), Q. apply zrange_length. }
  assert (MX : (forall p, In p data -> p_pos p <= Z.of_nat n2 - 1) /\ exists p, In p data /\ p_pos p = Z.of_nat n2 - 1).
  { destruct (prepare_initial _ _ _ _ EP) as [ini [E1 [F [_ [_ [EI _]]]]]].
    unfold tdrec_prepare in EP. rewrite E1 in EP. cbn [bind] in EP.
    assert (EQP : map p_pos data = map p_pos ini).
    { clear - F. induction F as [|a b l l' [_ Hab] F IH]; simpl; congruence. }
    assert (EC2 : combine (map p_row ini) (map p_pos data) = ini).
    { rewrite EQP. clear. unfold p_row, p_pos. induction ini as [|[r p] l IH]; cbn [map combine fst snd]; auto. f_equal. exact IH. }
    rewrite EC2 in EP. rewrite <- EI in EP.
    destruct (maxZ (map t_user (td_inds td))) as [mu|] eqn:M1; [|discriminate]. cbn [bind] in EP.
    destruct (maxZ (map t_item (td_inds td))) as [mi|] eqn:M2; [|discriminate]. cbn [bind] in EP.
    destruct (maxZ (map t_pos (td_inds td))) as [mp|] eqn:M3; [|discriminate]. cbn [bind] in EP.
    assert (SH' : td_shape td = (mu + 1, mi + 1, mp + 1)) by (injection EP as <-; reflexivity).
    assert (En : mp = Z.of_nat n2 - 1) by (rewrite SH in SH'; injection SH' as _ _ H; lia). subst mp.
    assert (PI : Permutation (map triple_of ini) (td_inds td)) by (rewrite EI; apply sort_stable_perm).
    assert (PP : Permutation (map p_pos data) (map t_pos (td_inds td))).
    { rewrite EQP. replace (map p_pos ini) with (map t_pos (map triple_of ini)) by (rewrite map_map; reflexivity). now apply Permutation_map. }
    apply maxZ_spec in M3 as [I3 M3]. split.
    - intros p Hp. apply M3. eapply Permutation_in; [exact PP|]. now apply in_map.
    - apply (Permutation_in _ (Permutation_sym PP)) in I3. apply in_map_iff in I3 as [p [E Hp]]. eauto. }
  destruct MX as [MX [p0 [Hp0 Ep0]]].
  assert (POS : forall u m, (m < length (rows_of u (keep table)))%nat -> exists p, In p data /\ p_pos p = Z.of_nat m).
  { intros u m Hm. destruct (LEN u) as [l [_ [El Eq]]]. assert (Hi : In (Z.of_nat m) (zrange l)).
    { unfold zrange. apply in_map_iff. exists m. split; auto. apply in_seq. lia. }
    rewrite <- Eq in Hi. apply in_map_iff in Hi as [p [E Hp]]. apply filter_In in Hp. exists p. tauto. }
  assert (P0 : Z.of_nat n2 - 1 < Z.of_nat (length (rows_of (r_user (p_row p0)) (keep table)))).
  { destruct (LEN (r_user (p_row p0))) as [l [_ [El Eq]]].
    assert (Hi : In (p_pos p0) (zrange l)). { rewrite <- Eq. apply in_map, filter_In. split; auto. apply Z.eqb_refl. }
    unfold zrange in Hi. apply in_map_iff in Hi as [i [E Hi]]. apply in_seq in Hi. lia. }
  destruct (LEN (r_user (p_row p0))) as [l [Ll [El _]]]. split; [lia|]. split.
  - intros ->. exists (r_user (p_row p0)). lia.
  - intros [u Hu]. destruct (POS u (L - 1)%nat) as [p [Hp E]]; [lia|]. specialize (MX p Hp). lia.
Qed.

Lemma maxZ_total x l : exists m, maxZ (x :: l) = Ok m.
Proof. revert x. induction l as [|y l IH]; intros x; [eexists; reflexivity|]. destruct (IH y) as [m E]. cbn in *. rewrite E. eexists; reflexivity. Qed.

Lemma train_iff L s keep table data r0 r1 r2 : crops L s keep ->
  get_df_with_cropped_pos_column table L s = Ok data ->
  ((exists st, tdrec_train L (Z.of_nat r0, Z.of_nat r1, Z.of_nat r2) data [] = Ok st) <-> seq_trainable r0 r1 r2 L (keep table)).
Proof.
  intros C EC. destruct (tdrec_prepare data [] L) as [td|e] eqn:EP.
  - destruct (prepare_nat _ _ _ _ (cropped_positions _ _ _ _ EC) EP) as [n0 [n1 [n2 [_ [SH _]]]]].
    destruct (last_position _ _ _ _ _ _ _ _ _ C EC EP SH) as [_ LP].
    destruct (train_nat L r0 r1 r2 data [] td n0 n1 n2 EP SH) as [T1 [T2 T3]].
    assert (CN : n2 = L -> Z.of_nat n0 = n_users_in (keep table) /\ Z.of_nat n1 = n_items_in (keep table)).
    { intros E. destruct (train_nat L 0 0 0 data [] td n0 n1 n2 EP SH) as [T0 _].
      assert (I : sinv L (mkTi (td_mappings td) (zrange n0) (zrange n1) (td_history td) (td_seq td) []) (keep table)).
      { eapply sinv_train; [exact C|exact EC|apply T0; [unfold rank_valid; lia|lia]]. }
      destruct (sinv_counts _ _ _ I) as [CU CI]. unfold nusers, nitems in CU, CI. cbn in CU, CI. rewrite zrange_length in CU, CI. auto. }
    unfold seq_trainable. rewrite <- LP. split.
    + intros [st E]. assert (V : rank_valid r0 r1 r2).
      { assert (D : rank_valid r0 r1 r2 \/ ~ rank_valid r0 r1 r2).
        { destruct (tucker_rank_is_valid (Z.of_nat r0, Z.of_nat r1, Z.of_nat r2)) eqn:V; [left|right]; rewrite <- rank_valid_iff; congruence. }
        destruct D as [V|V]; auto. rewrite (T2 V) in E. discriminate. }
      assert (F : (r0 <= n0 /\ r1 <= n1 /\ r2 <= n2 /\ n2 = L)%nat).
      { destruct (Nat.le_decidable r0 n0) as [|N]; [|rewrite T3 in E; [discriminate|auto|lia]].
        destruct (Nat.le_decidable r1 n1) as [|N]; [|rewrite T3 in E; [discriminate|auto|lia]].
        destruct (Nat.le_decidable r2 n2) as [|N]; [|rewrite T3 in E; [discriminate|auto|lia]].
        destruct (Nat.eq_decidable n2 L) as [|N]; [auto|rewrite T3 in E; [discriminate|auto|lia]]. }
      destruct CN as [C1 C2]; [lia|]. unfold rank_valid in V. lia.
    + intros [V [H0 [H1 E]]]. destruct (CN E) as [C1 C2]. eexists. apply T1; [unfold rank_valid; lia|lia].
  - split.
    + intros [st E]. rewrite (train_prepare _ _ _ _ _ EP) in E. discriminate.
    + intros [_ [_ [_ [u Hu]]]]. exfalso.
      destruct (crop_ok_hyps _ _ _ _ EC) as [HL _].
      assert (NE : data <> []).
      { intros ->. rewrite <- (crop_keep _ _ _ _ _ C EC) in Hu. cbn in Hu. lia. }
      unfold tdrec_prepare in EP. destruct (reindex_ok (map p_row data)) as [df [ms [E [_ [_ F]]]]]. rewrite E in EP. cbn [bind] in EP.
      assert (LN : sort_stable user_pos_leb (map triple_of (combine df (map p_pos data))) <> []).
      { intros Z0. pose proof (Permutation_length (sort_stable_perm user_pos_leb (map triple_of (combine df (map p_pos data))))) as PL.
        rewrite Z0, map_length in PL. assert (PL' : length (combine df (map p_pos data)) = 0%nat) by exact PL. rewrite combine_length, map_length in PL'. apply Forall2_length_eq in F. rewrite map_length in F.
        destruct data; [congruence|]. cbn in *. lia. }
      destruct (sort_stable user_pos_leb _) as [|t l]; [congruence|]. cbn [map] in EP.
      destruct (maxZ_total (t_user t) (map t_user l)) as [m1 E1]. destruct (maxZ_total (t_item t) (map t_item l)) as [m2 E2].
      destruct (maxZ_total (t_pos t) (map t_pos l)) as [m3 E3]. rewrite E1, E2, E3 in EP. discriminate EP.
Qed.
