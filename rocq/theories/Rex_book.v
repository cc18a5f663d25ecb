(** Bookkeeping of the re-initialised model: mappings that never lose an id, the present table as
    histories. *)
From Coq Require Import ZArith List Bool Lia Permutation.
From Verif Require Import Prelude Prelude_proofs DataPrep_model DataPrep_spec DataPrep_proofs DataPrep_main
  History_model History_spec History_proofs History_main Recommend_model Recommend_spec Recommend_main Psi_model Psi_spec
  Tirec_model Tirec_spec Tirec_proofs Retrain_model Retrain_spec Retrain_proofs Retrain_main Tensor_model Full_spec Seqx_spec Seqx_book Nti_train Tdx_book Rex_spec.
From Verif Require Tensor_spec.
From Verif Require Import Tirec_stream.
Import ListNotations.
Open Scope Z_scope.

(** ** The newest item *)
Lemma newest_ex l : l <> [] -> exists i, newest l i.
Proof.
  induction l as [|x l IH] using rev_ind; [congruence|]. intros _. destruct l as [|y l'].
  - exists x, [], []. split; [reflexivity|]. split; [intros []|intros z []].
  - destruct IH as [i [a [b [E [N I]]]]]; [discriminate|]. remember (y :: l') as l eqn:El. clear El y l'.
    destruct (in_dec Z.eq_dec x l) as [Hx|Hx].
    + exists i, a, (b ++ [x]). rewrite E, <- app_assoc. split; [reflexivity|]. split; [exact N|].
      intros z Hz. apply in_app_iff in Hz as [Hz|[<-|[]]]; [auto|]. rewrite E in Hx. apply in_app_iff in Hx as [Hx|[Hx|Hx]]; [right; auto|left; auto|auto].
    + exists x, l, []. split; [reflexivity|]. split; [exact Hx|intros z []].
Qed.
Lemma newest_In l i : newest l i -> In i l.
Proof. intros [a [b [-> _]]]. apply in_or_app. right. now left. Qed.
Lemma app_split (l v a b : list Z) i : l ++ v = a ++ i :: b -> ~ In i a ->
  (exists b1, l = a ++ i :: b1 /\ b = b1 ++ v) \/ (~ In i l /\ exists a1, v = a1 ++ i :: b /\ a = l ++ a1).
Proof.
  revert a. induction l as [|x l IH]; intros a E N; cbn [app] in E.
  - right. split; [intros []|]. exists a. auto.
  - destruct a as [|y a]; cbn [app] in E.
    + injection E as -> <-. left. exists l. auto.
    + injection E as -> E. destruct (IH a E) as [[b1 [-> ->]]|[H [a1 [-> ->]]]].
      * intros H. apply N. now right.
      * left. exists b1. auto.
      * right. split; [|exists a1; auto]. intros [->|H']; [|auto]. apply N. now left.
Qed.
Lemma newest_app l v i : newest (l ++ v) i ->
  (newest l i /\ incl v l) \/ (~ In i l /\ exists a b, v = a ++ i :: b /\ ~ In i a /\ incl b (i :: l ++ a)).
Proof.
  intros [a [b [E [N I]]]]. destruct (app_split _ _ _ _ _ E N) as [[b1 [-> ->]]|[H [a1 [-> ->]]]].
  - left. split.
    + exists a, b1. split; auto. split; auto. intros z Hz. apply I, in_or_app. auto.
    + intros z Hz. assert (Hb : In z (b1 ++ v)) by (apply in_or_app; auto). apply I in Hb. apply in_or_app.
      destruct Hb as [->|Hb]; [right; now left|auto].
  - right. split; auto. exists a1, b. split; auto. split; [intros Hz; apply N, in_or_app; auto|exact I].
Qed.
Lemma ndistinct_app l v : incl v l -> ndistinct (l ++ v) = ndistinct l.
Proof.
  intros I. unfold ndistinct. apply Nat.le_antisymm; apply NoDup_incl_length; try apply NoDup_nodup; intros z Hz; apply nodup_In in Hz; apply nodup_In.
  - apply in_app_iff in Hz as [|]; auto.
  - apply in_or_app. auto.
Qed.
Lemma first_newest l i : newest l i -> let m := get_cont_mapping_struct (unique l) 0 in f_of m i = Some (n_indices m - 1).
Proof.
  intros [a [b [E [N I]]]] m. unfold m. rewrite (reindex_first_appearance l a i b E N). f_equal.
  rewrite n_indices_get, unique_length_ndistinct, E.
  replace (a ++ i :: b) with ((a ++ [i]) ++ b) by (rewrite <- app_assoc; reflexivity).
  rewrite ndistinct_app.
  2:{ intros z Hz. apply I in Hz as [->|Hz]; apply in_or_app; [right; now left|auto]. }
  assert (D : ndistinct (a ++ [i]) = S (ndistinct a)); [|lia].
  rewrite <- !unique_length_ndistinct, unique_app, app_length. cbn [unique filter].
  replace (memZ i a) with false by (symmetry; apply memZ_false; auto). cbn. lia.
Qed.

Lemma new_entities_last m a i b : f_of m i = None -> ~ In i a ->
  (forall z, In z b -> z = i \/ f_of m z <> None \/ In z a) -> new_entities m (a ++ i :: b) = new_entities m a ++ [i].
Proof.
  intros H N I. unfold new_entities. rewrite unique_app. cbn [unique]. cbn [filter].
  replace (memZ i a) with false by (symmetry; apply memZ_false; auto). cbn [negb]. rewrite filter_app. f_equal. cbn [filter].
  rewrite dmem_f_of, H. cbn [negb]. f_equal. apply filter_none. intros z Hz.
  apply filter_In in Hz as [Hz N1]. apply filter_In in Hz as [Hz N2]. apply (unique_In z b) in Hz.
  apply negb_true_iff in N1. apply negb_true_iff in N2. apply memZ_false in N1. apply Z.eqb_neq in N2.
  rewrite dmem_f_of. destruct (f_of m z) eqn:E; [reflexivity|]. exfalso. destruct (I z Hz) as [|[|]]; auto.
Qed.
Lemma next_newest m l vals i : bij m 0 -> (forall k, f_of m k <> None <-> In k l) ->
  (forall j, newest l j -> f_of m j = Some (n_indices m - 1)) -> newest (l ++ vals) i ->
  let m' := update_cont_mapping_struct m (new_entities m vals) in f_of m' i = Some (n_indices m' - 1).
Proof.
  intros B K NW H m'. assert (NN : n_indices m' = n_indices m + Z.of_nat (length (new_entities m vals))) by apply n_update.
  destruct (newest_app _ _ _ H) as [[H1 H2]|[H1 [a [b [-> [N I]]]]]].
  - assert (NE : new_entities m vals = []).
    { destruct (new_entities m vals) as [|z r] eqn:E; auto. exfalso.
      assert (Hz : In z (new_entities m vals)) by (rewrite E; now left). apply new_entities_In in Hz as [Hz Hn].
      apply H2, K in Hz. auto. }
    rewrite NN, NE. cbn [length]. rewrite Z.add_0_r. apply extended_keeps. auto.
  - assert (Fi : f_of m i = None). { destruct (f_of m i) eqn:E; auto. exfalso. apply H1, K. congruence. }
    assert (L := new_entities_last m a i b Fi N). rewrite L in NN.
    2:{ intros z Hz. destruct (I z Hz) as [->|Hz']; [auto|]. right. apply in_app_iff in Hz' as [Hz'|Hz']; [left; now apply K|auto]. }
    unfold m'. rewrite (f_update_new m _ (length (new_entities m a)) i (new_entities_NoDup m _)).
    + f_equal. change (update_cont_mapping_struct m (new_entities m (a ++ i :: b))) with m'. rewrite NN, app_length. cbn [length]. lia.
    + rewrite L.
      { rewrite nth_error_app2, Nat.sub_diag by lia. reflexivity. }
      intros z Hz. destruct (I z Hz) as [->|Hz']; [auto|]. right. apply in_app_iff in Hz' as [Hz'|Hz']; [left; now apply K|auto].
Qed.
Lemma stays_iff m l vals : bij m 0 -> (forall k, f_of m k <> None <-> In k l) ->
  (forall j, newest l j -> f_of m j = Some (n_indices m - 1)) -> vals <> [] ->
  ((exists k, In k vals /\ (f_of m k = None \/ f_of m k = Some (n_indices m - 1))) <->
   exists i, newest (l ++ vals) i /\ In i vals).
Proof.
  intros B K NW NE. assert (N0 : l ++ vals <> []) by (intros E; apply app_eq_nil in E as [_ E]; auto).
  destruct (newest_ex _ N0) as [i Hi]. split.
  - intros [k [Hk C]]. exists i. split; auto. destruct (newest_app _ _ _ Hi) as [[H1 H2]|[H1 [a [b [E _]]]]].
    + apply NW in H1. destruct C as [C|C]; [exfalso; apply H2, K in Hk; auto|].
      assert (k = i) by (destruct B as [_ [FG _]]; apply FG in C; apply FG in H1; congruence). now subst.
    + rewrite E. apply in_or_app. right. now left.
  - clear i Hi. intros [i [Hi Iv]]. exists i. split; auto. destruct (newest_app _ _ _ Hi) as [[H1 H2]|[H1 _]].
    + right. auto.
    + left. destruct (f_of m i) eqn:E; auto. exfalso. apply H1, K. congruence.
Qed.

(** ** Books of the model *)
Record booked (L : nat) (ms : mappings) (hist : list (Z * Z)) (seq : seq_history) (E P : list row) : Prop := mkBooked {
  bk_bu : bij (m_users ms) 0;
  bk_bi : bij (m_items ms) 0;
  bk_ku : forall k, f_of (m_users ms) k <> None <-> In k (map r_user P);
  bk_ki : forall k, f_of (m_items ms) k <> None <-> In k (map r_item E);
  bk_new : forall i, newest (map r_item E) i -> f_of (m_items ms) i = Some (n_indices (m_items ms) - 1);
  bk_sub : incl (map r_item P) (map r_item E);
  bk_hist : forall u j, In (u, j) hist <-> exists r, In r P /\ f_of (m_users ms) (r_user r) = Some u /\ f_of (m_items ms) (r_item r) = Some j;
  bk_len : hist_len L seq;
  bk_in : hist_in (n_indices (m_items ms)) seq;
  bk_fill : forall u j, f_of (m_users ms) u = Some j -> exists d i, dget j seq = Some d /\ In i (dq_items d) /\ i <> PAD_VALUE }.

Section Make.
  Variables (L : nat) (ms : mappings) (d initial : list prow) (seq : seq_history) (E : list row) (ni : Z).
  Hypotheses (L1 : (1 <= L)%nat) (BU : bij (m_users ms) 0) (BI : bij (m_items ms) 0).
  Hypothesis F : Forall2 (prow_rel ms) d initial.
  Hypothesis KU : forall k, f_of (m_users ms) k <> None <-> In k (map r_user (map p_row d)).
  Hypothesis KI : forall k, f_of (m_items ms) k <> None <-> In k (map r_item E).
  Hypothesis NW : forall i, newest (map r_item E) i -> f_of (m_items ms) i = Some (n_indices (m_items ms) - 1).
  Hypotheses (HL : hist_len L seq) (HI : hist_in ni seq) (LE : ni <= n_indices (m_items ms)).
  Notation inds := (sort_stable user_pos_leb (map triple_of initial)).

  Lemma inds_in t : In t inds <-> In t (map triple_of initial).
  Proof. split; apply Permutation_in; [apply Permutation_sym|]; apply sort_stable_perm. Qed.
  Lemma inds_item t : In t inds -> 0 <= t_item t < n_indices (m_items ms).
  Proof.
    intros H. apply inds_in in H. apply in_map_iff in H as [q [<- Hq]].
    destruct (Forall2_In_r _ _ _ _ F Hq) as [p [Hp [[_ [_ [R1 _]]] _]]]. exact (bij_f_nonneg _ _ _ BI R1).
  Qed.
  Lemma booked_make : booked L ms (map (fun p => (r_user (p_row p), r_item (p_row p))) initial) (update_user_seq_history inds seq L) E (map p_row d).
  Proof.
    constructor; auto.
    - intros i Hi. rewrite map_map in Hi. apply in_map_iff in Hi as [p [<- Hp]]. destruct (Forall2_In_l _ _ _ _ F Hp) as [q [Hq [[_ [_ [R1 _]]] _]]].
      apply KI. intros N. cbv beta in N. unfold p_row in *. congruence.
    - intros u j. split.
      + intros H. apply in_map_iff in H as [q [Eq Hq]]. injection Eq as <- <-. destruct (Forall2_In_r _ _ _ _ F Hq) as [p [Hp [[R1 [_ [R2 _]]] _]]].
        exists (p_row p). split; [now apply in_map|]. auto.
      + intros [r [Hr [R1 R2]]]. apply in_map_iff in Hr as [p [<- Hp]]. destruct (Forall2_In_l _ _ _ _ F Hp) as [q [Hq [[S1 [_ [S2 _]]] _]]].
        apply in_map_iff. exists q. split; auto. f_equal; congruence.
    - now apply update_len.
    - eapply update_in; eauto. exact inds_item.
    - intros u j Hu. destruct (update_own L inds seq j (items_of j inds) HL eq_refl) as [dq [old [E1 E2]]].
      + assert (HU : In u (map r_user (map p_row d))) by (apply KU; congruence). rewrite map_map in HU. apply in_map_iff in HU as [p [Ep Hp]].
        destruct (Forall2_In_l _ _ _ _ F Hp) as [q [Hq [[S1 _] _]]].
        assert (I1 : In (t_item (triple_of q)) (items_of j inds)).
        { unfold items_of. apply in_map, filter_In. split; [apply inds_in, in_map; auto|]. apply Z.eqb_eq.
          rewrite Ep, Hu in S1. injection S1 as S1. symmetry. exact S1. }
        destruct (items_of j inds); [destruct I1|cbn; lia].
      + destruct (latest_some L old (items_of j inds) dq) as [i [Hi NP]]; auto.
        * intros x Hx. unfold items_of in Hx. apply in_map_iff in Hx as [t [<- Ht]]. apply filter_In in Ht as [Ht _]. apply inds_item in Ht. unfold PAD_VALUE. lia.
        * assert (HU : In u (map r_user (map p_row d))) by (apply KU; congruence). rewrite map_map in HU. apply in_map_iff in HU as [p [Ep Hp]].
          destruct (Forall2_In_l _ _ _ _ F Hp) as [q [Hq [[S1 _] _]]].
          assert (I1 : In (t_item (triple_of q)) (items_of j inds)).
          { unfold items_of. apply in_map, filter_In. split; [apply inds_in, in_map; auto|]. apply Z.eqb_eq.
            rewrite Ep, Hu in S1. injection S1 as S1. symmetry. exact S1. }
          destruct (items_of j inds); [destruct I1|cbn; lia].
        * eauto.
  Qed.
End Make.

(** After the first training. *)
Lemma booked_first L data td : (1 <= L)%nat -> tdrec_prepare data [] L = Ok td ->
  booked L (td_mappings td) (td_history td) (td_seq td) (map p_row data) (map p_row data).
Proof.
  intros L1 EP. destruct (prepare_initial _ _ _ _ EP) as [ini [E1 [F [BU [BI [EI [_ [EH ES]]]]]]]].
  destruct (reindex_maps _ _ _ E1) as [MU [MI _]]. rewrite EH, ES, EI.
  assert (K : forall key m, m = get_cont_mapping_struct (unique (map key (map p_row data))) 0 -> forall k : Z, f_of m k <> None <-> In k (map (key : row -> Z) (map p_row data))).
  { intros key m -> k. rewrite f_get_None, unique_In. split; [|tauto]. intros H.
    destruct (in_dec Z.eq_dec k (map key (map p_row data))); tauto. }
  eapply booked_make with (ni := 0); eauto.
  - intros i Hi. rewrite MI. now apply first_newest.
  - split; [exact wf_nil|]. intros u d H. discriminate.
  - intros u d j H. discriminate.
  - destruct BI as [H _]. exact H.
Qed.

(** After a later training. *)
Lemma booked_next L ms hist seq E P d : (1 <= L)%nat -> booked L ms hist seq E P -> d <> [] -> incl (map r_user P) (map r_user (map p_row d)) ->
  (forall p, In p d -> 0 <= p_pos p) ->
  exists td n0 n1 n2, tdrecre_prepare d seq L (Some ms) = Ok td
    /\ td_shape td = (Z.of_nat n0, Z.of_nat n1, Z.of_nat n2) /\ (0 < n0 /\ 0 < n1 /\ 0 < n2)%nat
    /\ Forall (Tensor_spec.in_range (n0, n1, n2)) (map natc (td_inds td))
    /\ length (td_vals td) = length (td_inds td)
    /\ Z.of_nat n0 = n_indices (m_users (td_mappings td))
    /\ n_indices (m_users ms) <= n_indices (m_users (td_mappings td))
    /\ (n_indices (m_items ms) <= Z.of_nat n1 <-> exists i, newest (map r_item (E ++ map p_row d)) i /\ In i (map r_item (map p_row d)))
    /\ (n_indices (m_items ms) <= Z.of_nat n1 -> Z.of_nat n1 = n_indices (m_items (td_mappings td)))
    /\ In (Z.of_nat n2 - 1) (map p_pos d) /\ (forall p, In p d -> p_pos p <= Z.of_nat n2 - 1)
    /\ booked L (td_mappings td) (td_history td) (td_seq td) (E ++ map p_row d) (map p_row d).
Proof.
  intros L1 B NE UP POS. destruct B as [BU BI KU KI NW SUB HI HL HIN FI].
  destruct (reprepare_spec d seq L ms BU BI NE) as [td [ini [mu [mi [mp [EP [EM [F [EI [EV [EH [ES [SH [M1 [M2 M3]]]]]]]]]]]]]]].
  set (ms' := extend_mappings ms (map p_row d)) in *.
  destruct (extend_spec ms (map p_row d) BU BI) as [BU' [BI' [XU [XI [NU NI]]]]]. fold ms' in BU', BI', XU, XI, NU, NI.
  assert (PI : Permutation (map triple_of ini) (td_inds td)) by (rewrite EI; apply sort_stable_perm).
  assert (PS : forall t, In t (td_inds td) -> 0 <= t_user t /\ 0 <= t_item t /\ 0 <= t_pos t).
  { intros t Ht. apply (Permutation_in _ (Permutation_sym PI)) in Ht. apply in_map_iff in Ht as [q [<- Hq]].
    destruct (Forall2_In_r _ _ _ _ F Hq) as [p [Hp [[R1 [_ [R2 _]]] EPp]]].
    apply (bij_f_nonneg _ _ _ BU') in R1. apply (bij_f_nonneg _ _ _ BI') in R2. apply POS in Hp.
    destruct q as [q qp]. unfold triple_of, t_user, t_item, t_pos, p_row, p_pos in *. cbn [fst snd] in *. lia. }
  assert (UI := fun x => inds_users ms' d ini x F). assert (II := fun x => inds_items ms' d ini x F). assert (PP := fun x => inds_pos ms' d ini x F).
  rewrite <- EI in UI, II, PP.
  assert (NE' : map r_item (map p_row d) <> []) by (destruct d; [congruence|discriminate]).
  destruct (max_reached (m_items ms) (map r_item (map p_row d)) _ mi _ BI eq_refl II M2) as [X1 X2].
  assert (KU' : forall k, f_of (m_users ms') k <> None <-> In k (map r_user (map p_row d))).
  { intros k. rewrite NU, KU. split; [intros [H|H]; auto|auto]. }
  assert (KI' : forall k, f_of (m_items ms') k <> None <-> In k (map r_item (E ++ map p_row d))).
  { intros k. rewrite NI, KI, map_app, in_app_iff. tauto. }
  apply maxZ_spec in M1 as [I1 G1]. apply maxZ_spec in M2 as [I2 G2]. apply maxZ_spec in M3 as [I3 G3].
  assert (J1 := I1). assert (J3 := I3).
  apply in_map_iff in I1 as [t1 [<- I1]]. apply in_map_iff in I2 as [t2 [<- I2]]. apply in_map_iff in I3 as [t3 [<- I3]].
  pose proof (PS _ I1). pose proof (PS _ I2). pose proof (PS _ I3).
  exists td, (Z.to_nat (t_user t1 + 1)), (Z.to_nat (t_item t2 + 1)), (Z.to_nat (t_pos t3 + 1)).
  split; [exact EP|]. rewrite SH. split; [rewrite !Z2Nat.id by lia; reflexivity|]. split; [lia|]. split; [|split].
  - apply Forall_forall. intros c Hc. apply in_map_iff in Hc as [t [<- Ht]].
    pose proof (PS _ Ht). pose proof (G1 _ (in_map t_user _ _ Ht)). pose proof (G2 _ (in_map t_item _ _ Ht)).
    pose proof (G3 _ (in_map t_pos _ _ Ht)).
    unfold Tensor_spec.in_range, natc, c0, c1, c2; cbn [fst snd]. lia.
  - rewrite EV. rewrite <- (Permutation_length PI), !map_length. reflexivity.
  - rewrite !Z2Nat.id by lia. rewrite EM.
    assert (NNU : n_indices (m_users ms') = n_indices (m_users ms) + Z.of_nat (length (new_entities (m_users ms) (map r_user (map p_row d))))) by apply n_update.
    assert (NNI : n_indices (m_items ms') = n_indices (m_items ms) + Z.of_nat (length (new_entities (m_items ms) (map r_item (map p_row d))))) by apply n_update.
    split; [|split; [lia|split; [|split; [exact X2|split; [|split]]]]].
    + apply UI in J1 as [k [Hk Hf]]. pose proof (bij_f_nonneg _ _ _ BU' Hf).
      destruct BU' as [Hz0 [FG R]]. destruct (proj2 (R (n_indices (m_users ms') - 1))) as [k' Hk']; [lia|]. apply FG in Hk'.
      assert (In k' (map r_user (map p_row d))) by (apply KU'; congruence).
      assert (HT : In (n_indices (m_users ms') - 1) (map t_user (td_inds td))) by (apply UI; eauto).
      apply G1 in HT. lia.
    + rewrite X1. rewrite map_app. apply stays_iff; auto.
    + apply PP in J3. replace (t_pos t3 + 1 - 1) with (t_pos t3) by lia. exact J3.
    + intros p Hp. assert (HT : In (p_pos p) (map t_pos (td_inds td))) by (apply PP, in_map; auto). apply G3 in HT. lia.
    + rewrite EH, ES, EI. eapply booked_make with (ni := n_indices (m_items ms)); auto.
      * intros i Hi. rewrite map_app in Hi. unfold ms', extend_mappings. cbn [m_items]. now apply (next_newest (m_items ms) (map r_item E)).
      * lia.
Qed.

(** ** Cropped tables *)
Lemma combine_seconds {X Y} (l : list X) (m : list Y) : length l = length m -> map snd (combine l m) = m.
Proof. revert m. induction l as [|x l IH]; intros [|y m] H; cbn in *; try discriminate; auto. f_equal. apply IH. lia. Qed.
Definition keep_of (L : nat) (c : list row) : list row :=
  match get_df_with_cropped_pos_column c L true with Ok d => map p_row d | Err _ => [] end.
Lemma cropped_user c L d u : get_df_with_cropped_pos_column c L true = Ok d -> exists x, StableSorted r_ts (rows_of u c) x /\
  filter (fun p => r_user (p_row p) =? u) d = combine (lastn L x) (zrange (Nat.min (length x) L)) /\ rows_of u (map p_row d) = lastn L x.
Proof.
  intros E. destruct (crop_ok_hyps _ _ _ _ E) as [HL NE]. destruct (crop_main c L true HL NE) as [d' [E' [_ H]]].
  assert (d' = d) by congruence. subst d'. destruct (H u) as [x [Hx Fx]]. exists x. split; auto. split; auto.
  unfold rows_of. rewrite filter_map_comm. cbn. rewrite Fx. apply map_fst_combine. rewrite zrange_length, lastn_length. lia.
Qed.
Lemma keep_crops L : (1 <= L)%nat -> crops L true (keep_of L).
Proof.
  intros HL c u. unfold keep_of. destruct c as [|r c].
  - cbn. exists []. split; [split; [constructor|split; [constructor|intros; reflexivity]]|].
    unfold lastn. now rewrite skipn_nil.
  - destruct (crop_main (r :: c) L true HL ltac:(discriminate)) as [d [E _]]. rewrite E.
    destruct (cropped_user _ _ _ u E) as [x [Hx [_ Ex]]]. exists x. auto.
Qed.
Lemma cropped_kept table L data : get_df_with_cropped_pos_column table L true = Ok data -> keep_of L table = map p_row data.
Proof. intros E. unfold keep_of. now rewrite E. Qed.
Lemma next_table L d c d' : get_df_with_cropped_pos_column (map p_row d ++ c) L true = Ok d' ->
  incl (map r_user (map p_row d)) (map r_user (map p_row d')) /\
  (forall p, In p d' -> 0 <= p_pos p <= Z.of_nat L - 1) /\
  forall u, length (rows_of u (map p_row d)) = L -> length (rows_of u (map p_row d')) = L /\ In (Z.of_nat L - 1) (map p_pos d').
Proof.
  intros E. destruct (crop_ok_hyps _ _ _ _ E) as [HL NE]. split; [|split].
  - intros u Hu. destruct (cropped_user _ _ _ u E) as [x [Hx [_ Ex]]]. apply StableSorted_length in Hx.
    destruct (in_dec Z.eq_dec u (map r_user (map p_row d'))) as [|N]; auto. exfalso. apply rows_of_none in N. rewrite N in Ex.
    assert (L0 : length (lastn L x) = 0%nat) by now rewrite <- Ex. rewrite lastn_length in L0.
    assert (L1 : length (rows_of u (map p_row d ++ c)) = 0%nat) by lia. apply length_zero_iff_nil in L1. apply rows_of_none in L1.
    apply L1. rewrite map_app, in_app_iff. auto.
  - intros p Hp. destruct (cropped_user _ _ _ (r_user (p_row p)) E) as [x [_ [Fx _]]].
    assert (HF : In p (filter (fun q => r_user (p_row q) =? r_user (p_row p)) d')) by (apply filter_In; split; auto; apply Z.eqb_refl).
    rewrite Fx in HF. destruct p as [r q]. apply in_combine_r in HF. apply zrange_nonneg in HF. unfold p_pos. cbn [snd]. lia.
  - intros u Hu. destruct (cropped_user _ _ _ u E) as [x [Hx [Fx Ex]]]. apply StableSorted_length in Hx. rewrite rows_of_app, app_length in Hx.
    split; [rewrite Ex, lastn_length; lia|].
    assert (I : In (Z.of_nat L - 1) (map p_pos (filter (fun p => r_user (p_row p) =? u) d'))).
    { rewrite Fx. replace (map p_pos (combine (lastn L x) (zrange (Nat.min (length x) L)))) with (zrange (Nat.min (length x) L)) by (symmetry; apply combine_seconds; rewrite zrange_length, lastn_length; lia).
      unfold zrange. apply in_map_iff. exists (L - 1)%nat. split; [lia|]. apply in_seq. lia. }
    apply in_map_iff in I as [p [Ep Hp]]. apply filter_In in Hp as [Hp _]. rewrite <- Ep. now apply in_map.
Qed.
