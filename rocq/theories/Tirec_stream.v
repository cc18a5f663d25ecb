(** Streams of the sequential models: training, histories, recommendations. *)
From Coq Require Import ZArith List Bool Lia Permutation Sorted.
From Verif Require Import Prelude Prelude_proofs DataPrep_model DataPrep_spec DataPrep_proofs DataPrep_main
  History_model History_spec History_proofs History_main Recommend_model Recommend_spec Recommend_main Psi_model Psi_main
  Tirec_model Tirec_spec Tirec_proofs Tirec_main Tirec_assembly.
Import ListNotations.
Open Scope Z_scope.

Lemma maxZ_spec l m : maxZ l = Ok m -> In m l /\ forall x, In x l -> x <= m.
Proof.
  revert m. induction l as [|a l IH]; intros m H; [discriminate|].
  destruct l as [|b l].
  - injection H as <-. split; [left; auto|]. intros x [<-|[]]. lia.
  - change (maxZ (a :: b :: l)) with (do m <- maxZ (b :: l); Ok (Z.max a m)) in H.
    destruct (maxZ (b :: l)) as [m'|]; [|discriminate]. cbn [bind] in H. injection H as <-.
    destruct (IH m' eq_refl) as [H1 H2]. split.
    + destruct (Z.max_spec a m') as [[_ ->]|[_ ->]]; [right; auto|left; auto].
    + intros x [<-|Hx]; [lia|]. specialize (H2 x Hx). lia.
Qed.

Definition ti_inv (L : nat) (st : ti_state) (all : list row) : Prop :=
  ti_wf L st
  /\ Forall2 (fun r p => tu st (r_user r) = Some (fst p) /\ tit st (r_item r) = Some (snd p)) all (ti_history st)
  /\ (forall k, tu st k <> None <-> In k (map r_user all))
  /\ (forall k, tit st k <> None <-> In k (map r_item all)).

Lemma max_ids (m : mapping) (keys ids : list Z) mx :
  bij m 0 -> (forall k, f_of m k <> None <-> In k keys) ->
  (forall x, In x ids <-> exists k, In k keys /\ f_of m k = Some x) ->
  maxZ ids = Ok mx -> mx + 1 = n_indices m.
Proof.
  intros B K I H. apply maxZ_spec in H as [H1 H2].
  apply I in H1 as [k [Hk Hf]]. pose proof (bij_f_nonneg _ _ _ B Hf) as R.
  destruct B as [_ [FG RR]]. destruct (proj2 (RR (n_indices m - 1))) as [k' Hk']; [lia|].
  apply FG in Hk'. assert (In (n_indices m - 1) ids).
  { apply I. exists k'. split; auto. apply K. congruence. }
  apply H2 in H. lia.
Qed.

Lemma train_ti_inv L rank data st :
  (1 <= L)%nat -> tdrec_train L rank data [] = Ok st ->
  ti_inv L st (map p_row data) /\ rows_aligned st /\ ti_log st = [].
Proof.
  intros HL H. unfold tdrec_train in H.
  destruct (tdrec_prepare data [] L) as [td|] eqn:E; cbn [bind] in H; [|discriminate].
  destruct (prepare_initial _ _ _ _ E) as [ini [E1 [F [BU [BI [EI [EV [EH ES]]]]]]]].
  destruct (reindex_maps _ _ _ E1) as [MU [MI _]].
  unfold tdrec_prepare in E. rewrite E1 in E. cbn [bind] in E.
  assert (EC : combine (map p_row ini) (map p_pos data) = ini).
  { assert (map p_pos data = map p_pos ini).
    { clear - F. induction F as [|a b l l' [_ Hab] F IH]; simpl; congruence. }
    rewrite H0. clear. unfold p_row, p_pos. induction ini as [|[r p] l IH]; cbn [map combine fst snd]; auto.
    f_equal. exact IH. }
  rewrite EC in E. rewrite <- EI in E.
  destruct (maxZ (map t_user (td_inds td))) as [mu|] eqn:M1; [|discriminate]. cbn [bind] in E.
  destruct (maxZ (map t_item (td_inds td))) as [mi|] eqn:M2; [|discriminate]. cbn [bind] in E.
  destruct (maxZ (map t_pos (td_inds td))) as [mp|] eqn:M3; [|discriminate]. cbn [bind] in E.
  assert (SH : td_shape td = (mu + 1, mi + 1, mp + 1)) by (injection E as <-; reflexivity).
  clear E. rewrite SH in H. destruct rank as [[r0 r1] r2].
  destruct (negb _); [discriminate|].
  destruct (_ && (mp + 1 =? Z.of_nat L)); [|discriminate]. injection H as <-.
  set (ms := td_mappings td) in *.
  assert (KU : forall k, f_of (m_users ms) k <> None <-> In k (map r_user (map p_row data))).
  { intros k. rewrite MU. pose proof (f_get_None (unique (map r_user (map p_row data))) 0 k) as H.
    rewrite unique_In in H. destruct (in_dec Z.eq_dec k (map r_user (map p_row data))); tauto. }
  assert (KI : forall k, f_of (m_items ms) k <> None <-> In k (map r_item (map p_row data))).
  { intros k. rewrite MI. pose proof (f_get_None (unique (map r_item (map p_row data))) 0 k) as H.
    rewrite unique_In in H. destruct (in_dec Z.eq_dec k (map r_item (map p_row data))); tauto. }
  assert (PI : Permutation (map triple_of ini) (td_inds td)).
  { rewrite EI. apply sort_stable_perm. }
  assert (IU : forall x, In x (map t_user (td_inds td)) <-> exists k, In k (map r_user (map p_row data)) /\ f_of (m_users ms) k = Some x).
  { intros x. assert (Q : In x (map t_user (td_inds td)) <-> In x (map t_user (map triple_of ini))).
    { split; apply Permutation_in; apply Permutation_map; auto. apply Permutation_sym; auto. }
    rewrite Q, map_map. split.
    - intros Hx. apply in_map_iff in Hx as [q [<- Hq]]. destruct (Forall2_In_r _ _ _ _ F Hq) as [p [Hp [[R1 _] _]]].
      exists (r_user (p_row p)). split; [apply in_map, in_map; auto|]. exact R1.
    - intros [k [Hk Hf]]. rewrite map_map in Hk. apply in_map_iff in Hk as [p [<- Hp]].
      destruct (Forall2_In_l _ _ _ _ F Hp) as [q [Hq [[R1 _] _]]].
      apply in_map_iff. exists q. split; auto. unfold triple_of, t_user; cbn [fst]. fold (p_row q).
      congruence. }
  assert (II : forall x, In x (map t_item (td_inds td)) <-> exists k, In k (map r_item (map p_row data)) /\ f_of (m_items ms) k = Some x).
  { intros x. assert (Q : In x (map t_item (td_inds td)) <-> In x (map t_item (map triple_of ini))).
    { split; apply Permutation_in; apply Permutation_map; auto. apply Permutation_sym; auto. }
    rewrite Q, map_map. split.
    - intros Hx. apply in_map_iff in Hx as [q [<- Hq]]. destruct (Forall2_In_r _ _ _ _ F Hq) as [p [Hp [[_ [_ [R1 _]]] _]]].
      exists (r_item (p_row p)). split; [apply in_map, in_map; auto|]. exact R1.
    - intros [k [Hk Hf]]. rewrite map_map in Hk. apply in_map_iff in Hk as [p [<- Hp]].
      destruct (Forall2_In_l _ _ _ _ F Hp) as [q [Hq [[_ [_ [R1 _]]] _]]].
      apply in_map_iff. exists q. split; auto. unfold triple_of, t_item; cbn [fst snd]. fold (p_row q).
      congruence. }
  pose proof (max_ids _ _ _ _ BU KU IU M1) as NU. pose proof (max_ids _ _ _ _ BI KI II M2) as NI.
  assert (PU0 : 0 <= n_indices (m_users ms)).
  { apply maxZ_spec in M1 as [M1 _]. apply IU in M1 as [k [_ M1]]. apply (bij_f_nonneg _ _ _ BU) in M1. lia. }
  assert (PI0 : 0 <= n_indices (m_items ms)).
  { apply maxZ_spec in M2 as [M2 _]. apply II in M2 as [k [_ M2]]. apply (bij_f_nonneg _ _ _ BI) in M2. lia. }
  split; [|split; [|reflexivity]].
  2:{ split; cbn [ti_urows ti_irows]; rewrite zrange_length; reflexivity. }
  split; [|split; [|split]].
  - unfold ti_wf, nusers, nitems. cbn [ti_maps ti_urows ti_irows ti_history ti_seq].
    rewrite !zrange_length, !Z2Nat.id by lia. rewrite NU, NI.
    split; auto. split; auto. split; auto. split; auto. split; auto. split; auto.
    split.
    { intros u j Huj. rewrite EH in Huj. apply in_map_iff in Huj as [q [Eq Hq]]. injection Eq as <- <-.
      destruct (Forall2_In_r _ _ _ _ F Hq) as [p [_ [[R1 [_ [R2 _]]] _]]].
      apply (bij_f_nonneg _ _ _ BU) in R1. apply (bij_f_nonneg _ _ _ BI) in R2. auto. }
    rewrite ES. split; [apply NoDup_update; constructor|].
    assert (G : forall u, dget u (update_user_seq_history (td_inds td) [] L)
         = match items_of u (td_inds td) with [] => None
           | is => Some (mkDeque L (lastn L (repeat PAD_VALUE L ++ is))) end).
    { intros u. rewrite dget_update by (split; [constructor|intros ? ? Hd; discriminate]).
      cbn [dget start_deque]. destruct (items_of u (td_inds td)); reflexivity. }
    assert (IO : forall u j, In j (items_of u (td_inds td)) <-> exists t, In t (td_inds td) /\ t_user t = u /\ t_item t = j).
    { intros u j. unfold items_of. rewrite in_map_iff. split.
      - intros [t [<- Ht]]. apply filter_In in Ht as [Ht Eq]. apply Z.eqb_eq in Eq. eauto.
      - intros [t [Ht [<- <-]]]. exists t. split; auto. apply filter_In. split; auto. apply Z.eqb_refl. }
    split.
    + intros u. rewrite <- dget_Some_in, G. split.
      * intros [d Hd]. destruct (items_of u (td_inds td)) as [|j l] eqn:EO; [discriminate|].
        assert (Hj : In j (items_of u (td_inds td))) by (rewrite EO; left; auto).
        apply IO in Hj as [t [Ht [<- _]]]. apply (in_map t_user) in Ht. apply IU in Ht as [k [_ Hk]].
        apply (bij_f_nonneg _ _ _ BU) in Hk. auto.
      * intros R. destruct (proj2 (proj2 (proj2 BU) u)) as [k Hk]; [lia|]. apply BU in Hk.
        assert (Hu : In u (map t_user (td_inds td))).
        { apply IU. exists k. split; auto. apply KU. congruence. }
        apply in_map_iff in Hu as [t [Htu Ht]].
        assert (Hj : In (t_item t) (items_of u (td_inds td))) by (apply IO; eauto).
        destruct (items_of u (td_inds td)); [destruct Hj|eauto].
    + intros u d Hd. rewrite G in Hd.
      assert (IN : forall j, In j (items_of u (td_inds td)) -> 0 <= j < n_indices (m_items ms)).
      { intros j Hj. apply IO in Hj as [t [Ht [_ <-]]]. apply (in_map t_item) in Ht.
        apply II in Ht as [k [_ Hk]]. apply (bij_f_nonneg _ _ _ BI) in Hk. auto. }
      destruct (items_of u (td_inds td)) as [|j l] eqn:EO; [discriminate|]. injection Hd as <-.
      cbn [dq_maxlen dq_items]. split; auto.
      split; [rewrite lastn_length, app_length, repeat_length; cbn [length]; lia|]. split.
      * intros i Hi. destruct (lastn_suffix L (repeat PAD_VALUE L ++ j :: l)) as [pre Epre].
        assert (Hi' : In i (repeat PAD_VALUE L ++ j :: l)) by (rewrite Epre; apply in_or_app; auto).
        apply in_app_or in Hi' as [Hi'|Hi']; [left; apply (repeat_spec L); auto|right; apply IN; auto].
      * destruct (@exists_last _ (j :: l)) as [pre [z Ez]]; [discriminate|].
        exists z. split.
        { rewrite Ez, app_assoc. rewrite lastn_app_le by (cbn [length]; lia).
          apply in_or_app. right. left. auto. }
        assert (0 <= z < n_indices (m_items ms)).
        { apply IN. rewrite Ez. apply in_or_app. right. left. auto. }
        unfold PAD_VALUE. lia.
  - unfold tu, tit. cbn [ti_maps ti_history]. rewrite EH. clear - F.
    induction F as [|p q l l' [Hpq _] F IH]; simpl; constructor; auto.
    destruct Hpq as [R1 [_ [R2 _]]]. auto.
  - intros k. unfold tu. cbn [ti_maps]. apply KU.
  - intros k. unfold tit. cbn [ti_maps]. apply KI.
Qed.

Lemma update_ti_inv v L st data s st' all :
  ti_inv L st all -> ti_update v L st data s = Ok st' ->
  exists out, get_df_with_cropped_pos_column data L s = Ok out
    /\ ti_inv L st' (all ++ map p_row out)
    /\ (forall k x, tu st k = Some x -> tu st' k = Some x)
    /\ (forall k x, tit st k = Some x -> tit st' k = Some x).
Proof.
  intros [W [F [KU KI]]] H.
  destruct (ti_update_ok v L st data s st' W H) as [chunk0 [chunk [ms' [ku [ki [P [E [NE [Fi G]]]]]]]]].
  pose proof (good_wf v L st data s W _ _ _ _ _ P _ G) as W'.
  destruct G as [GM [_ [_ [GH _]]]]. destruct P.
  exists chunk0. split; auto. unfold tu, tit in *. rewrite GM. split; [|split; auto].
  split; auto. unfold tu, tit. rewrite GM, GH. split; [|split].
  - apply Forall2_app2.
    + eapply Forall2_impl; [|exact F]. intros r p [H1 H2]. auto.
    + clear - pp_chunk. induction pp_chunk as [|p q l l' Hpq X IH]; simpl; constructor; auto.
      destruct Hpq as [[R1 [R2 _]] _]. auto.
  - intros k. rewrite pp_known_u, KU, map_app, in_app_iff, map_map. reflexivity.
  - intros k. rewrite pp_known_i, KI, map_app, in_app_iff, map_map. reflexivity.
Qed.

Lemma stream_ti_inv v L s chunks : forall st st' all,
  ti_inv L st all -> ti_stream v L s st chunks = Ok st' ->
  exists outs, Forall2 (fun c out => get_df_with_cropped_pos_column c L s = Ok out) chunks outs
    /\ ti_inv L st' (all ++ map p_row (concat outs))
    /\ (forall k x, tu st k = Some x -> tu st' k = Some x)
    /\ (forall k x, tit st k = Some x -> tit st' k = Some x).
Proof.
  unfold ti_stream. induction chunks as [|c chunks IH]; intros st st' all I H; cbn [fold_left bind] in H.
  - injection H as <-. exists []. split; auto. cbn [concat map]. rewrite app_nil_r. auto.
  - destruct (ti_update v L st c s) as [st1|e] eqn:E.
    2:{ rewrite stream_err in H. discriminate. }
    destruct (update_ti_inv _ _ _ _ _ _ _ I E) as [out [EO [I1 [K1 K2]]]].
    destruct (IH st1 st' _ I1 H) as [outs [FO [I2 [K3 K4]]]].
    exists (out :: outs). split; [constructor; auto|]. cbn [concat]. rewrite map_app, app_assoc.
    split; [exact I2|]. split; auto.
Qed.

(** ** Recommendations *)
Lemma pos_items_items rseq : forall pos p, In p (pos_items_loop rseq pos) -> In (snd p) rseq.
Proof.
  induction rseq as [|x r IH]; intros pos p; cbn [pos_items_loop]; [tauto|].
  destruct (pos <? 0); [intros []|]. intros [<-|H]; [left; auto|right; eauto].
Qed.

Lemma ti_scores_ok {A} L st (sc : list (Z * Z) -> list A) u :
  ti_wf L st -> (2 <= L)%nat -> 0 <= u < nusers st ->
  exists pi, ti_scores L st sc u = Ok (sc pi).
Proof.
  intros W HL Hu. pose proof W as [_ [_ [_ [_ [_ [_ [_ [_ [K Q]]]]]]]]].
  apply K in Hu. apply dget_Some_in in Hu as [d Hd]. unfold ti_scores. rewrite Hd.
  destruct (Q u d Hd) as [_ [_ [R [j [Hj NP]]]]].
  set (sq := filter (fun x => negb (x =? PAD_VALUE)) (dq_items d)).
  assert (Hs : In j sq). { apply filter_In. split; auto. destruct (Z.eqb_spec j PAD_VALUE); auto; contradiction. }
  assert (Rs : forall i, In i sq -> 0 <= i < nitems st).
  { intros i Hi. apply filter_In in Hi as [Hi E]. destruct (R i Hi); auto. subst. discriminate. }
  destruct (get_pos_items_arrays sq (Z.of_nat L)) as [|p0 l] eqn:EP.
  - exfalso. unfold get_pos_items_arrays in EP. destruct (rev sq) as [|x r] eqn:ER.
    + rewrite <- (rev_involutive sq), ER in Hs. destruct Hs.
    + cbn [pos_items_loop] in EP. destruct (Z.ltb_spec (Z.of_nat L - 2) 0); [lia|discriminate].
  - rewrite <- EP. assert (FB : forallb (fun p => (- Z.of_nat (length (ti_irows st)) <=? snd p)
        && (snd p <? Z.of_nat (length (ti_irows st)))) (get_pos_items_arrays sq (Z.of_nat L)) = true).
    { apply forallb_forall. intros p Hp. apply pos_items_items in Hp. apply in_rev in Hp.
      apply Rs in Hp. unfold nitems in Hp. apply andb_true_iff. split; [apply Z.leb_le|apply Z.ltb_lt]; lia. }
    rewrite FB. eauto.
Qed.

Lemma ti_rec_wf {A} L st (sc : list (Z * Z) -> list A) :
  ti_wf L st -> (2 <= L)%nat -> (forall pi, length (sc pi) = length (ti_irows st)) ->
  wf_state (ti_rec L st sc).
Proof.
  intros W HL HS. pose proof W as [BU [BI [EU [EI [_ [_ [HH _]]]]]]].
  unfold wf_state, ti_rec. cbn [rs_history rs_n_users rs_n_items rs_scores rs_mappings].
  split; [exact HH|]. split; [|split].
  - intros u Hu. destruct (ti_scores_ok L st sc u W HL Hu) as [pi E]. eauto.
  - intros k u H. apply (bij_f_nonneg _ _ _ BU) in H. rewrite <- EU in H. exact H.
  - intros j Hj. unfold nitems in EI. rewrite EI in Hj. destruct BI as [_ [_ R]]. apply R. lia.
Qed.

Lemma StableSorted_unique {X} (key : X -> Z) l : forall a b,
  StableSorted key l a -> StableSorted key l b -> a = b.
Proof.
  assert (G : forall a b, StronglySorted (fun x y => key x <= key y) a ->
     StronglySorted (fun x y => key x <= key y) b ->
     (forall k, filter (fun x => key x =? k) a = filter (fun x => key x =? k) b) -> a = b).
  { induction a as [|x a IH]; intros b Sa Sb Fk.
    - destruct b as [|y b]; auto. specialize (Fk (key y)). simpl in Fk. rewrite Z.eqb_refl in Fk. discriminate.
    - apply StronglySorted_inv in Sa as [Sa Fa]. rewrite Forall_forall in Fa.
      destruct b as [|y b]. { specialize (Fk (key x)). simpl in Fk. rewrite Z.eqb_refl in Fk. discriminate. }
      apply StronglySorted_inv in Sb as [Sb Fb]. rewrite Forall_forall in Fb.
      assert (HE : key x = key y).
      { apply Z.le_antisymm.
        - assert (Hy : In y (x :: a)).
          { assert (In y (filter (fun z => key z =? key y) (x :: a))).
            { rewrite Fk. simpl. rewrite Z.eqb_refl. left; auto. }
            apply filter_In in H. tauto. }
          destruct Hy as [->|Hy]; [lia|]. auto.
        - assert (Hx : In x (y :: b)).
          { assert (In x (filter (fun z => key z =? key x) (y :: b))).
            { rewrite <- Fk. simpl. rewrite Z.eqb_refl. left; auto. }
            apply filter_In in H. tauto. }
          destruct Hx as [->|Hx]; [lia|]. auto. }
      assert (HX : x = y).
      { specialize (Fk (key x)). simpl in Fk. rewrite Z.eqb_refl, <- HE, Z.eqb_refl in Fk. congruence. }
      subst y. f_equal. apply IH; auto. intros k. specialize (Fk k). simpl in Fk.
      destruct (key x =? k); congruence. }
  intros a b [S1 [_ F1]] [S2 [_ F2]]. apply G; auto. intros k. rewrite F1, F2. reflexivity.
Qed.

Lemma map_fst_combine {X Y} (a : list X) (b : list Y) : length a = length b -> map fst (combine a b) = a.
Proof. revert b. induction a as [|x a IH]; intros [|y b] H; simpl in *; try discriminate; auto. f_equal; auto. Qed.

Lemma kept_in_crop L s df out u rows r :
  get_df_with_cropped_pos_column df L s = Ok out -> kept_rows L s df u rows -> In r rows ->
  In r (map p_row out) /\ r_user r = u.
Proof.
  intros E [x [Hx ->]] Hr. destruct (crop_ok_hyps _ _ _ _ E) as [HL NE].
  destruct (crop_main df L s HL NE) as [out' [E' [_ H]]].
  assert (out' = out) by congruence. subst out'. destruct (H u) as [y [Hy EF]].
  assert (x = y).
  { destruct s; [|congruence]. eapply StableSorted_unique; eauto. }
  subst y.
  assert (Hin : In r (map p_row (filter (fun p => r_user (p_row p) =? u) out))).
  { rewrite EF. unfold p_row.
    assert (M : map fst (combine (lastn L x) (zrange (Nat.min (length x) L))) = lastn L x).
    { apply map_fst_combine. rewrite lastn_length, zrange_length. lia. }
    change (map (fun p : prow => fst p) (combine (lastn L x) (zrange (Nat.min (length x) L))))
      with (map fst (combine (lastn L x) (zrange (Nat.min (length x) L)))). rewrite M. auto. }
  apply in_map_iff in Hin as [p [<- Hp]]. apply filter_In in Hp as [Hp Eq]. apply Z.eqb_eq in Eq.
  split; auto. apply in_map; auto.
Qed.

Lemma tirec_never_kept_main :
  forall {A} (leb : A -> A -> bool),
    (forall x y z, leb x y = true -> leb y z = true -> leb x z = true) ->
  forall argpart, argpartition_contract leb argpart ->
  forall v L rank s table data chunks st0 st (sc : list (Z * Z) -> list A) users k rows,
    (2 <= L)%nat ->
    get_df_with_cropped_pos_column table L s = Ok data ->
    tdrec_train L rank data [] = Ok st0 -> ti_stream v L s st0 chunks = Ok st ->
    (forall pi, length (sc pi) = length (ti_irows st)) -> (1 <= k)%nat -> (2 <= nitems st) ->
    recommend argpart (ti_rec L st sc) users k true false = Ok rows ->
    Forall2 (fun uid row =>
      length row = Nat.min k (length (ti_irows st))
      /\ forall c kept r, In c (table :: chunks) -> kept_rows L s c uid kept -> In r kept ->
           ~ In (r_item r) row) users rows.
Proof.
  intros A leb trans argpart Con v L rank s table data chunks st0 st sc users k rows HL EC T S HS Hk HN R.
  destruct (train_ti_inv L rank data st0 ltac:(lia) T) as [I0 _].
  destruct (stream_ti_inv v L s chunks st0 st _ I0 S) as [outs [FO [I _]]].
  pose proof I as [W [F [KU KI]]].
  pose proof (ti_rec_wf L st sc W HL HS) as WR. unfold nitems in HN.
  pose proof (recommend_top_k_main leb trans argpart Con (ti_rec L st sc) users k true false rows WR Hk) as FR.
  cbn [ti_rec rs_n_items rs_mappings rs_scores] in FR.
  specialize (FR ltac:(lia) ltac:(lia) R).
  eapply Forall2_impl; [|exact FR].
  intros uid row [u [scs [irow [Hu [_ [[Ln [_ [CA _]]] TR]]]]]]. unfold translated in TR. cbn [ti_rec rs_mappings] in TR.
  split.
  { pose proof (Forall2_len _ _ _ TR). cbn [ti_rec rs_n_items] in Ln. lia. }
  intros c kept r Hc Hkept Hr Hin.
  assert (HA : In r (map p_row data ++ map p_row (concat outs)) /\ r_user r = uid).
  { destruct Hc as [<-|Hc].
    - destruct (kept_in_crop _ _ _ _ _ _ _ EC Hkept Hr) as [H1 H2]. split; auto. apply in_or_app; auto.
    - destruct (Forall2_In_l _ _ _ _ FO Hc) as [out [Ho Eo]].
      destruct (kept_in_crop _ _ _ _ _ _ _ Eo Hkept Hr) as [H1 H2]. split; auto.
      apply in_or_app; right. apply in_map_iff in H1 as [p [<- Hp]]. apply in_map.
      apply in_concat. eauto. }
  destruct HA as [HA Eu].
  destruct (Forall2_In_r _ _ _ _ TR Hin) as [j [Hj Gj]].
  destruct (Forall2_In_l _ _ _ _ F HA) as [[u' j'] [Hp [P1 P2]]]. cbn in P1, P2.
  unfold tu in P1. unfold tit in P2. rewrite Eu in P1. assert (u' = u) by congruence. subst u'.
  destruct W as [_ [[_ [FG _]] _]].
  assert (j' = j).
  { apply FG in Gj. congruence. }
  subst j'. destruct (CA j Hj) as [_ NS]. apply (NS eq_refl). exact Hp.
Qed.

Lemma crop_in_kept L s df out r :
  get_df_with_cropped_pos_column df L s = Ok out -> In r (map p_row out) ->
  exists kept, kept_rows L s df (r_user r) kept /\ In r kept.
Proof.
  intros E Hr. destruct (crop_ok_hyps _ _ _ _ E) as [HL NE].
  destruct (crop_main df L s HL NE) as [out' [E' [_ H]]].
  assert (out' = out) by congruence. subst out'. destruct (H (r_user r)) as [y [Hy EF]].
  exists (lastn L y). split; [exists y; auto|].
  apply in_map_iff in Hr as [p [<- Hp]].
  assert (Hf : In p (filter (fun q => r_user (p_row q) =? r_user (p_row p)) out)).
  { apply filter_In. split; auto. apply Z.eqb_refl. }
  rewrite EF in Hf. unfold p_row. apply (in_map fst) in Hf.
  rewrite map_fst_combine in Hf; auto. rewrite lastn_length, zrange_length. lia.
Qed.

Lemma user_kept L s df out u :
  get_df_with_cropped_pos_column df L s = Ok out ->
  In u (map (fun p => r_user (p_row p)) out) <-> In u (map r_user df).
Proof.
  intros E. destruct (crop_ok_hyps _ _ _ _ E) as [HL NE].
  destruct (crop_main df L s HL NE) as [out' [E' [_ H]]].
  assert (out' = out) by congruence. subst out'. destruct (H u) as [y [Hy EF]].
  assert (PY : Permutation (rows_of u df) y).
  { destruct s; [apply Hy|subst; apply Permutation_refl]. }
  assert (A : In u (map (fun p => r_user (p_row p)) out) <-> filter (fun q => r_user (p_row q) =? u) out <> []).
  { split.
    - intros Hu HN. apply in_map_iff in Hu as [p [<- Hp]].
      assert (In p (filter (fun q => r_user (p_row q) =? r_user (p_row p)) out)).
      { apply filter_In. split; auto. apply Z.eqb_refl. }
      rewrite HN in H0. destruct H0.
    - intros HN. destruct (filter (fun q => r_user (p_row q) =? u) out) as [|p l] eqn:EP; [congruence|].
      assert (In p (filter (fun q => r_user (p_row q) =? u) out)) by (rewrite EP; left; auto).
      apply filter_In in H0 as [H0 Eq]. apply Z.eqb_eq in Eq. apply in_map_iff. eauto. }
  assert (B : In u (map r_user df) <-> rows_of u df <> []).
  { split.
    - intros Hu HN. apply in_map_iff in Hu as [r [<- Hr]].
      assert (In r (rows_of (r_user r) df)). { apply filter_In. split; auto. apply Z.eqb_refl. }
      rewrite HN in H0. destruct H0.
    - intros HN. destruct (rows_of u df) as [|r l] eqn:EP; [congruence|].
      assert (In r (rows_of u df)) by (rewrite EP; left; auto).
      apply filter_In in H0 as [H0 Eq]. apply Z.eqb_eq in Eq. apply in_map_iff. eauto. }
  rewrite A, B, EF. pose proof (Permutation_length PY) as PL.
  assert (LC : length (combine (lastn L y) (zrange (Nat.min (length y) L))) = Nat.min (length y) L).
  { rewrite combine_length, lastn_length, zrange_length. lia. }
  split; intros HN HN'.
  - apply HN. rewrite HN' in PL. destruct (combine (lastn L y) _) as [|z l]; auto.
    cbn [length] in *. lia.
  - apply HN. rewrite HN' in LC. destruct (rows_of u df); auto. cbn [length] in *. lia.
Qed.

Lemma tirec_stream_main : forall v L rank s table data chunks st0 st,
  get_df_with_cropped_pos_column table L s = Ok data ->
  tdrec_train L rank data [] = Ok st0 -> ti_stream v L s st0 chunks = Ok st ->
  ti_wf L st
  /\ (forall k, tu st k <> None <-> In k (map r_user (table ++ concat chunks)))
  /\ (forall k, tit st k <> None <->
        exists c u kept r, In c (table :: chunks) /\ kept_rows L s c u kept /\ In r kept /\ r_item r = k)
  /\ (forall k x, tu st0 k = Some x -> tu st k = Some x)
  /\ (forall k x, tit st0 k = Some x -> tit st k = Some x)
  /\ rows_aligned st0.
Proof.
  intros v L rank s table data chunks st0 st EC T S.
  destruct (crop_ok_hyps _ _ _ _ EC) as [HL _].
  destruct (train_ti_inv L rank data st0 HL T) as [I0 [RA _]].
  destruct (stream_ti_inv v L s chunks st0 st _ I0 S) as [outs [FO [[W [F [KU KI]]] [K1 K2]]]].
  split; auto. split; [|split; [|auto]].
  - intros k. rewrite KU, !map_app, !in_app_iff, map_map.
    rewrite <- (user_kept _ _ _ _ k EC).
    assert (Q : In k (map r_user (map p_row (concat outs))) <-> In k (map r_user (concat chunks))).
    { rewrite map_map. clear - FO. induction FO as [|c o l l' Hco FO IH]; [reflexivity|].
      cbn [concat]. rewrite !map_app, !in_app_iff, IH, (user_kept _ _ _ _ k Hco). reflexivity. }
    rewrite Q. reflexivity.
  - intros k. rewrite KI. split.
    + intros Hk. apply in_map_iff in Hk as [r [<- Hr]]. apply in_app_or in Hr as [Hr|Hr].
      * destruct (crop_in_kept _ _ _ _ _ EC Hr) as [kept [H1 H2]].
        exists table, (r_user r), kept, r. split; [left; auto|auto].
      * apply in_map_iff in Hr as [p [<- Hp]]. apply in_concat in Hp as [o [Ho Hp]].
        destruct (Forall2_In_r _ _ _ _ FO Ho) as [c [Hc Ec]].
        destruct (crop_in_kept _ _ _ _ _ Ec (in_map p_row _ _ Hp)) as [kept [H1 H2]].
        exists c, (r_user (p_row p)), kept, (p_row p). split; [right; auto|auto].
    + intros [c [u [kept [r [Hc [Hk [Hr <-]]]]]]]. apply in_map. apply in_or_app.
      destruct Hc as [<-|Hc].
      * left. apply (kept_in_crop _ _ _ _ _ _ _ EC Hk Hr).
      * right. destruct (Forall2_In_l _ _ _ _ FO Hc) as [o [Ho Eo]].
        destruct (kept_in_crop _ _ _ _ _ _ _ Eo Hk Hr) as [H1 _].
        apply in_map_iff in H1 as [p [<- Hp]]. apply in_map. apply in_concat; eauto.
Qed.
