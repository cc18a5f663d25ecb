(** Proofs about the sequential models: preprocessing, deltas, steps. *)
From Coq Require Import ZArith List Bool Lia Permutation Sorted.
From Verif Require Import Prelude Prelude_proofs DataPrep_model DataPrep_spec DataPrep_proofs DataPrep_main
  History_model History_spec History_proofs History_main Recommend_model Recommend_main Psi_model Tirec_model Tirec_spec.
Import ListNotations.
Open Scope Z_scope.

(** ** New entities and mappings *)
Lemma dmem_f_of m e : dmem e (old2new m) = match f_of m e with Some _ => true | None => false end.
Proof. reflexivity. Qed.

Lemma new_entities_In m vals e : In e (new_entities m vals) <-> In e vals /\ f_of m e = None.
Proof.
  unfold new_entities. rewrite filter_In, unique_In, dmem_f_of.
  destruct (f_of m e); simpl; intuition congruence.
Qed.

Lemma new_entities_NoDup m vals : NoDup (new_entities m vals).
Proof. apply NoDup_filter_Z, unique_NoDup. Qed.

Definition seqZ (lo : Z) (n : nat) : list Z := map (Z.add lo) (zrange n).

Lemma seqZ_In lo n x : In x (seqZ lo n) <-> lo <= x < lo + Z.of_nat n.
Proof.
  unfold seqZ, zrange. rewrite in_map_iff. split.
  - intros [y [<- Hy]]. apply in_map_iff in Hy as [k [<- Hk]]. apply in_seq in Hk. lia.
  - intros H. exists (x - lo). split; [lia|]. apply in_map_iff. exists (Z.to_nat (x - lo)).
    split; [lia|]. apply in_seq. lia.
Qed.

Lemma seqZ_length lo n : length (seqZ lo n) = n.
Proof. unfold seqZ. rewrite map_length. apply zrange_length. Qed.

Lemma mapM_nth {B} (f : Z -> res B) (g : nat -> B) : forall l s,
  (forall i x, nth_error l i = Some x -> f x = Ok (g (s + i)%nat)) ->
  mapM f l = Ok (map g (seq s (length l))).
Proof.
  induction l as [|x l IH]; intros s H; simpl; auto.
  rewrite (H 0%nat x eq_refl). simpl. rewrite (IH (S s)).
  - simpl. replace (s + 0)%nat with s by lia. reflexivity.
  - intros i y Hi. rewrite (H (S i) y Hi). do 2 f_equal. lia.
Qed.

Lemma new_ids m extra :
  NoDup extra ->
  mapM (fun e => getitem (old2new (update_cont_mapping_struct m extra)) e) extra
  = Ok (seqZ (n_indices m) (length extra)).
Proof.
  intros ND. rewrite (mapM_nth _ (fun i => n_indices m + Z.of_nat i) extra 0).
  - unfold seqZ, zrange. rewrite map_map. reflexivity.
  - intros i x Hi. pose proof (f_update_new m extra i x ND Hi) as H. unfold f_of in H.
    unfold getitem. rewrite H. simpl. f_equal.
Qed.

Lemma extended_known m vals k :
  f_of (update_cont_mapping_struct m (new_entities m vals)) k <> None
  <-> f_of m k <> None \/ In k vals.
Proof.
  destruct (in_dec Z.eq_dec k (new_entities m vals)) as [Hin|Hin].
  - pose proof Hin as Hk. apply new_entities_In in Hk as [Hk _].
    apply In_nth_error in Hin as [i Hi].
    rewrite (f_update_new m _ i k (new_entities_NoDup m vals) Hi). intuition congruence.
  - rewrite f_update_old by auto. rewrite new_entities_In in Hin.
    destruct (f_of m k) eqn:E; [intuition congruence|]. tauto.
Qed.

Lemma extended_bij m vals : bij m 0 -> bij (update_cont_mapping_struct m (new_entities m vals)) 0.
Proof.
  intros B. apply update_bij_iff; auto. split; [apply new_entities_NoDup|].
  intros x Hx. apply new_entities_In in Hx. tauto.
Qed.

Lemma extended_keeps m vals k v :
  f_of m k = Some v -> f_of (update_cont_mapping_struct m (new_entities m vals)) k = Some v.
Proof. apply update_keeps. intros x Hx. apply new_entities_In in Hx. tauto. Qed.

(** Relation between the cropped table and the mapped chunk. *)
Definition mapped (ms : mappings) (p q : prow) : Prop :=
  (f_of (m_users ms) (r_user (p_row p)) = Some (r_user (p_row q))
   /\ f_of (m_items ms) (r_item (p_row p)) = Some (r_item (p_row q))
   /\ r_ts (p_row q) = r_ts (p_row p) /\ r_rel (p_row q) = r_rel (p_row p))
  /\ p_pos p = p_pos q.

Record preprocessed (L : nat) (ms : mappings) (data : list row) (s : bool)
  (chunk0 chunk : list prow) (ms' : mappings) (ku ki : nat) : Prop := {
  pp_crop : get_df_with_cropped_pos_column data L s = Ok chunk0;
  pp_ok : preprocess_raw_input_data L ms data s
          = Ok (ms', chunk, seqZ (n_indices (m_users ms)) ku, seqZ (n_indices (m_items ms)) ki);
  pp_bu : bij (m_users ms') 0;
  pp_bi : bij (m_items ms') 0;
  pp_nu : n_indices (m_users ms') = n_indices (m_users ms) + Z.of_nat ku;
  pp_ni : n_indices (m_items ms') = n_indices (m_items ms) + Z.of_nat ki;
  pp_keep_u : forall k v, f_of (m_users ms) k = Some v -> f_of (m_users ms') k = Some v;
  pp_keep_i : forall k v, f_of (m_items ms) k = Some v -> f_of (m_items ms') k = Some v;
  pp_known_u : forall k, f_of (m_users ms') k <> None
      <-> f_of (m_users ms) k <> None \/ In k (map (fun p => r_user (p_row p)) chunk0);
  pp_known_i : forall k, f_of (m_items ms') k <> None
      <-> f_of (m_items ms) k <> None \/ In k (map (fun p => r_item (p_row p)) chunk0);
  pp_chunk : Forall2 (mapped ms') chunk0 chunk }.

Lemma preprocess_spec L ms data s :
  bij (m_users ms) 0 -> bij (m_items ms) 0 -> (1 <= L)%nat -> data <> [] ->
  exists chunk0 chunk ms' ku ki, preprocessed L ms data s chunk0 chunk ms' ku ki.
Proof.
  intros BU BI HL NE. destruct (crop_main data L s HL NE) as [chunk0 [EC _]].
  set (eu := new_entities (m_users ms) (map (fun p => r_user (p_row p)) chunk0)).
  set (ei := new_entities (m_items ms) (map (fun p => r_item (p_row p)) chunk0)).
  set (ms' := mkMappings (update_cont_mapping_struct (m_users ms) eu)
                         (update_cont_mapping_struct (m_items ms) ei)).
  destruct (map_df_columns_total (map p_row chunk0) ms') as [rows ER].
  { intros r Hr. apply in_map_iff in Hr as [p [<- Hp]]. unfold ms'; cbn [m_users m_items]. split.
    - apply extended_known. right. apply in_map_iff. eauto.
    - apply extended_known. right. apply in_map_iff. eauto. }
  exists chunk0, (combine rows (map p_pos chunk0)), ms', (length eu), (length ei).
  constructor.
  - exact EC.
  - unfold preprocess_raw_input_data. rewrite EC. cbn [bind]. fold eu ei.
    rewrite (new_ids (m_users ms) eu (new_entities_NoDup _ _)).
    cbn [bind]. rewrite (new_ids (m_items ms) ei (new_entities_NoDup _ _)). cbn [bind].
    fold ms'. rewrite ER. reflexivity.
  - apply extended_bij; auto.
  - apply extended_bij; auto.
  - apply n_update.
  - apply n_update.
  - intros; apply extended_keeps; auto.
  - intros; apply extended_keeps; auto.
  - intros; apply extended_known.
  - intros; apply extended_known.
  - exact (Forall2_pos _ _ _ (map_df_columns_ok _ _ _ ER)).
Qed.

Lemma preprocess_err L ms data s :
  (L = O /\ data <> [] -> preprocess_raw_input_data L ms data s = Err ValueError)
  /\ (data = [] -> preprocess_raw_input_data L ms data s = Err KeyError).
Proof.
  unfold preprocess_raw_input_data. split.
  - intros [-> NE]. rewrite crop_zero; auto.
  - intros ->. destruct s; reflexivity.
Qed.

(** At most [L] rows per user survive the cropping. *)
Lemma crop_user_len data L s out u :
  get_df_with_cropped_pos_column data L s = Ok out ->
  (length (filter (fun p => (r_user (p_row p) =? u)%Z) out) <= L)%nat.
Proof.
  intros E. destruct (crop_ok_hyps _ _ _ _ E) as [HL NE].
  destruct (crop_main data L s HL NE) as [out' [E' [_ H]]].
  assert (out' = out) by congruence. subst. destruct (H u) as [x [_ ->]].
  pose proof (combine_length (lastn L x) (zrange (Nat.min (length x) L))) as CL.
  rewrite lastn_length in CL. unfold prow. rewrite CL. lia.
Qed.

Lemma mapped_user_len L ms data s chunk0 chunk ms' ku ki u :
  preprocessed L ms data s chunk0 chunk ms' ku ki ->
  (length (items_of u (map triple_of chunk)) <= L)%nat.
Proof.
  intros P. destruct P. unfold items_of. rewrite map_length, filter_map_comm, map_length.
  destruct (g_of (m_users ms') u) as [k|] eqn:G.
  - assert (F : Forall2 (mapped ms') (filter (fun p => r_user (p_row p) =? k) chunk0)
                 (filter (fun x => t_user (triple_of x) =? u) chunk)).
    { apply Forall2_filter; auto. intros a b [[Hu _] _]. cbn [triple_of t_user fst].
      unfold triple_of, t_user. cbn [fst]. fold (p_row b).
      destruct pp_bu0 as [_ [FG _]]. apply FG in G.
      destruct (Z.eqb_spec (r_user (p_row a)) k) as [E|N], (Z.eqb_spec (r_user (p_row b)) u) as [E'|N']; auto.
      - congruence.
      - exfalso. apply N. subst u. apply FG in Hu. apply FG in G. congruence. }
    rewrite <- (Forall2_len _ _ _ F). eapply crop_user_len; eauto.
  - replace (filter (fun x => t_user (triple_of x) =? u) chunk) with (@nil prow); [simpl; lia|].
    symmetry. apply filter_none. intros q Hq.
    destruct (Forall2_In_r _ _ _ _ pp_chunk0 Hq) as [p [_ [[Hu _] _]]].
    destruct pp_bu0 as [_ [FG _]]. apply FG in Hu. unfold triple_of, t_user; cbn [fst]. fold (p_row q).
    apply Z.eqb_neq. congruence.
Qed.

(** ** Deltas *)
Lemma cell_In c es : cell c es <> 0 -> exists v, In (c, v) es.
Proof.
  induction es as [|[c' v] es IH]; simpl; [congruence|].
  destruct ((t_user c =? t_user c') && (t_item c =? t_item c') && (t_pos c =? t_pos c')) eqn:E.
  - intros _. exists v. left. apply andb_true_iff in E as [E E3]. apply andb_true_iff in E as [E1 E2].
    apply Z.eqb_eq in E1, E2, E3. destruct c as [[a b] d], c' as [[a' b'] d'].
    unfold t_user, t_item, t_pos in *; simpl in *. congruence.
  - intros H. destruct IH as [v' Hv]; [lia|]. eauto.
Qed.

Lemma cell_NoDup c v es : NoDup (map fst es) -> In (c, v) es -> cell c es = v.
Proof.
  induction es as [|[c' v'] es IH]; simpl; [tauto|]. intros ND H. inversion ND as [|? ? N1 N2]; subst.
  destruct H as [H|H].
  - injection H as -> ->. rewrite !Z.eqb_refl; simpl.
    destruct (Z.eq_dec (cell c es) 0) as [->|N]; [lia|].
    apply cell_In in N as [w Hw]. exfalso. apply N1. apply in_map_iff. exists (c, w); auto.
  - rewrite IH; auto.
    destruct ((t_user c =? t_user c') && (t_item c =? t_item c') && (t_pos c =? t_pos c')) eqn:E; [|lia].
    exfalso. apply N1. apply andb_true_iff in E as [E E3]. apply andb_true_iff in E as [E1 E2].
    apply Z.eqb_eq in E1, E2, E3. apply in_map_iff. exists (c, v). split; auto. simpl.
    destruct c as [[a b] d], c' as [[a' b'] d'].
    unfold t_user, t_item, t_pos in *; simpl in *. congruence.
Qed.

Lemma hist_cell_cases c h :
  hist_cell c h = 0 \/
  (hist_cell c h = 1 /\ exists l, dget (t_user c) h = Some l /\ 0 <= t_pos c
     /\ nth_error l (Z.to_nat (t_pos c)) = Some (t_item c) /\ t_item c <> PAD_VALUE).
Proof.
  unfold hist_cell. destruct (dget (t_user c) h) as [l|]; auto.
  destruct (Z.ltb_spec (t_pos c) 0); auto.
  destruct (nth_error l (Z.to_nat (t_pos c))) as [i|] eqn:E; auto.
  destruct (Z.eqb_spec i (t_item c)) as [->|]; simpl; auto.
  destruct (Z.eqb_spec (t_item c) PAD_VALUE); simpl; auto.
  right. split; auto. exists l. auto.
Qed.

Lemma hist_cell_one u j p h l :
  dget u h = Some l -> nth_error l p = Some j -> j <> PAD_VALUE -> hist_cell (u, j, Z.of_nat p) h = 1.
Proof.
  intros H1 H2 H3. unfold hist_cell, t_user, t_item, t_pos; cbn [fst snd]. rewrite H1.
  destruct (Z.ltb_spec (Z.of_nat p) 0); [lia|]. rewrite Nat2Z.id, H2, Z.eqb_refl.
  destruct (Z.eqb_spec j PAD_VALUE); [contradiction|]. reflexivity.
Qed.

Section Delta.
  Variables (L : nat) (h : seq_history) (T : list triple).
  Hypothesis W : wf_hist h.
  Hypothesis WL : forall u d, dget u h = Some d -> dq_maxlen d = L.
  Hypothesis short : forall u, (length (items_of u T) <= L)%nat.
  Let h' := fst (get_train_tensor L h T).
  Let D := snd (get_train_tensor L h T).

  Lemma new_hist u :
    dget u h' = match dget u h, items_of u T with
                | None, [] => None
                | None, is => Some (mkDeque L (lastn L (repeat PAD_VALUE L ++ is)))
                | Some d, is => Some (mkDeque L (lastn L (dq_items d ++ is)))
                end.
  Proof.
    unfold h'; cbn [get_train_tensor fst]. rewrite dget_update by auto.
    destruct (dget u h) as [d|] eqn:E.
    - cbn [start_deque]. rewrite (WL _ _ E). reflexivity.
    - destruct (items_of u T); reflexivity.
  Qed.

  Lemma pushed_in t : In t T ->
    exists d, dget (t_user t) h' = Some d /\ In (t_item t) (dq_items d).
  Proof.
    intros Ht. assert (HI : In (t_item t) (items_of (t_user t) T)).
    { unfold items_of. apply in_map_iff. exists t. split; auto. apply filter_In.
      split; auto. apply Z.eqb_refl. }
    rewrite new_hist. pose proof (short (t_user t)) as S.
    destruct (dget (t_user t) h) as [d|] eqn:E.
    - eexists; split; [reflexivity|]. cbn [dq_items]. rewrite lastn_app_le by auto.
      apply in_or_app; right; auto.
    - destruct (items_of (t_user t) T) as [|i is] eqn:EI; [destruct HI|].
      eexists; split; [reflexivity|]. cbn [dq_items]. rewrite lastn_app_le by auto.
      apply in_or_app; right; auto.
  Qed.

  Lemma D_cell c : cell c D = hist_cell c (hist_lists h') - hist_cell c (hist_lists h).
  Proof. apply get_train_tensor_cell; auto. Qed.

  Lemma D_NoDup : NoDup (map fst D).
  Proof.
    unfold D; cbn [get_train_tensor snd]. apply calculate_delta_NoDup. rewrite dkeys_hist_lists.
    apply NoDup_update, W.
  Qed.

  Lemma D_entry e : In e D ->
    (exists d, (dget (e_user e) h' = Some d \/ dget (e_user e) h = Some d)
       /\ In (e_item e) (dq_items d) /\ 0 <= e_pos e < Z.of_nat (length (dq_items d)))
    /\ e_item e <> PAD_VALUE.
  Proof.
    destruct e as [c v]. intros H. unfold e_user, e_item, e_pos; cbn [fst].
    pose proof (cell_NoDup _ _ _ D_NoDup H) as E.
    pose proof (calculate_delta_vals _ _ _ _ H) as [V NP]. split; auto.
    rewrite D_cell in E.
    destruct (hist_cell_cases c (hist_lists h')) as [A|[_ [l [G [P [N _]]]]]];
      [destruct (hist_cell_cases c (hist_lists h)) as [B|[_ [l [G [P [N _]]]]]]|]; [lia| |].
    - rewrite dget_hist_lists in G. destruct (dget (t_user c) h) as [d|] eqn:Ed; [|discriminate].
      injection G as <-. exists d. split; auto. split; [eapply nth_error_In; eauto|].
      apply nth_error_range in N. lia.
    - rewrite dget_hist_lists in G. destruct (dget (t_user c) h') as [d|] eqn:Ed; [|discriminate].
      injection G as <-. exists d. split; auto. split; [eapply nth_error_In; eauto|].
      apply nth_error_range in N. lia.
  Qed.

  Lemma D_fresh u j d p :
    dget u h' = Some d -> nth_error (dq_items d) p = Some j -> j <> PAD_VALUE ->
    (forall d0, dget u h = Some d0 -> ~ In j (dq_items d0)) ->
    exists v, In ((u, j, Z.of_nat p), v) D.
  Proof.
    intros G N NP F. apply cell_In. rewrite D_cell.
    rewrite (hist_cell_one u j p (hist_lists h') (dq_items d)); auto.
    2: rewrite dget_hist_lists, G; reflexivity.
    destruct (hist_cell_cases (u, j, Z.of_nat p) (hist_lists h)) as [->|[_ [l [G' [_ [N' _]]]]]]; [lia|].
    rewrite dget_hist_lists in G'. unfold t_user, t_item, t_pos in *; cbn [fst snd] in *.
    destruct (dget u h) as [d0|] eqn:E; [|discriminate]. injection G' as <-.
    exfalso. apply (F d0 eq_refl). eapply nth_error_In; eauto.
  Qed.

  Lemma D_covers_user t : In t T -> t_item t <> PAD_VALUE -> dget (t_user t) h = None ->
    In (t_user t) (map e_user D).
  Proof.
    intros Ht NP N. destruct (pushed_in t Ht) as [d [G HI]]. apply In_nth_error in HI as [p Hp].
    destruct (D_fresh _ _ _ _ G Hp NP) as [v Hv]; [intros; congruence|].
    apply in_map_iff. eexists; split; [|exact Hv]. reflexivity.
  Qed.

  Lemma D_covers_item t : In t T -> t_item t <> PAD_VALUE ->
    (forall u d, dget u h = Some d -> ~ In (t_item t) (dq_items d)) ->
    In (t_item t) (map e_item D).
  Proof.
    intros Ht NP N. destruct (pushed_in t Ht) as [d [G HI]]. apply In_nth_error in HI as [p Hp].
    destruct (D_fresh _ _ _ _ G Hp NP) as [v Hv]; [intros; eapply N; eauto|].
    apply in_map_iff. eexists; split; [|exact Hv]. reflexivity.
  Qed.
End Delta.

(** ** Local maps *)
Lemma np_unique_length l : length (np_unique l) = ndistinct l.
Proof.
  rewrite <- unique_length_ndistinct. unfold np_unique. symmetry.
  apply Permutation_length, sort_stable_perm.
Qed.

Lemma local_get vals x : In x vals ->
  exists c, getitem (get_local_map vals) x = Ok c /\ 0 <= c < Z.of_nat (length (np_unique vals))
    /\ nth_error (np_unique vals) (Z.to_nat c) = Some x.
Proof.
  intros H. apply np_unique_In in H. apply In_nth_error in H as [i Hi].
  pose proof (f_get_first (np_unique vals) 0 i x (np_unique_NoDup vals) Hi) as G.
  unfold f_of in G. exists (Z.of_nat i). unfold getitem, get_local_map. rewrite G.
  split; [f_equal; lia|]. pose proof (nth_error_range _ _ _ Hi). rewrite Nat2Z.id. split; [lia|auto].
Qed.

Lemma map_to_local_u_ok data :
  exists loc, map_to_local_u data = Ok loc
    /\ Forall2 (fun e l => e_item l = e_item e /\ e_pos l = e_pos e
         /\ 0 <= e_user l < Z.of_nat (length (np_unique (map e_user data)))
         /\ nth_error (np_unique (map e_user data)) (Z.to_nat (e_user l)) = Some (e_user e)) data loc.
Proof.
  unfold map_to_local_u. set (vals := map e_user data).
  assert (H : forall e, In e data -> In (e_user e) vals) by (intros; apply in_map; auto).
  clearbody vals. induction data as [|e data IH]; cbn [mapM]; [exists []; auto|].
  destruct IH as [loc [E F]]; [intros; apply H; right; auto|].
  destruct (local_get vals (e_user e) (H e (or_introl eq_refl))) as [c [G [R N]]].
  rewrite G. cbn [bind]. rewrite E. cbn [bind]. eexists; split; [reflexivity|].
  constructor; auto. 
Qed.

Lemma map_to_local_i_ok data :
  exists loc, map_to_local_i data = Ok loc
    /\ Forall2 (fun e l => e_user l = e_user e /\ e_pos l = e_pos e
         /\ 0 <= e_item l < Z.of_nat (length (np_unique (map e_item data)))
         /\ nth_error (np_unique (map e_item data)) (Z.to_nat (e_item l)) = Some (e_item e)) data loc.
Proof.
  unfold map_to_local_i. set (vals := map e_item data).
  assert (H : forall e, In e data -> In (e_item e) vals) by (intros; apply in_map; auto).
  clearbody vals. induction data as [|e data IH]; cbn [mapM]; [exists []; auto|].
  destruct IH as [loc [E F]]; [intros; apply H; right; auto|].
  destruct (local_get vals (e_item e) (H e (or_introl eq_refl))) as [c [G [R N]]].
  rewrite G. cbn [bind]. rewrite E. cbn [bind]. eexists; split; [reflexivity|].
  constructor; auto.
Qed.

(** ** One step *)
Definition up_u (md : mode) (data : list entry) : list Z :=
  match md with MNew | MNewUsers => np_unique (map e_user data) | _ => [] end.
Definition up_i (md : mode) (data : list entry) : list Z :=
  match md with MNew | MNewItems => np_unique (map e_item data) | _ => [] end.

(** What the mode requires of the coordinates. *)
Definition in_range (md : mode) (L : nat) (nu ni : Z) (e : entry) : Prop :=
  0 <= e_pos e < Z.of_nat L
  /\ match md with
     | MNew => True
     | MNewUsers => 0 <= e_item e < ni
     | MNewItems => 0 <= e_user e < nu
     | MOld => 0 <= e_user e < nu /\ 0 <= e_item e < ni
     end.

Definition size_ok (v : variant) (L : nat) (md : mode) (nu ni : Z) (data : list entry) : bool :=
  match v, md with
  | VTIRec, MNewUsers => Z.of_nat (length (np_unique (map e_user data))) <=? ni * Z.of_nat L
  | VTIRec, MNewItems => Z.of_nat (length (np_unique (map e_item data))) <=? nu * Z.of_nat L
  | _, _ => true
  end.

(** Where the processed entries of a step land. *)
Definition loc_rel (md : mode) (nu ni : Z) (U I : list Z) (e l : entry) : Prop :=
  let own_u := 0 <= e_user l /\ nth_error U (Z.to_nat (nu + e_user l)) = Some (e_user e) in
  let own_i := 0 <= e_item l /\ nth_error I (Z.to_nat (ni + e_item l)) = Some (e_item e) in
  match md with
  | MNew => own_u /\ own_i
  | MNewUsers => own_u /\ e_item l = e_item e
  | MNewItems => e_user l = e_user e /\ own_i
  | MOld => e_user l = e_user e /\ e_item l = e_item e
  end.
Definition step_rel (U I : list Z) (s : ti_step) : Prop :=
  0 <= ts_nu s /\ 0 <= ts_ni s
  /\ Forall2 (loc_rel (ts_mode s) (ts_nu s) (ts_ni s) U I) (ts_entries s) (ts_local s).

Lemma in_shape_spec n0 n1 n2 data :
  (forall e, In e data -> 0 <= e_user e < n0 /\ 0 <= e_item e < n1 /\ 0 <= e_pos e < n2) ->
  in_shape n0 n1 n2 data = true.
Proof.
  intros H. unfold in_shape. apply forallb_forall. intros e He. destruct (H e He) as [A [B C]].
  repeat (apply andb_true_iff; split); try apply Z.leb_le; try apply Z.ltb_lt; lia.
Qed.

Lemma nth_app_shift (U X : list Z) c :
  0 <= c -> nth_error (U ++ X) (Z.to_nat (Z.of_nat (length U) + c)) = nth_error X (Z.to_nat c).
Proof.
  intros H. rewrite nth_error_app2 by lia. f_equal. lia.
Qed.

Definition ti_view (l : list ti_step) : list (mode * list entry) :=
  map (fun s => (ts_mode s, ts_entries s)) l.
Definition shown (md : mode) (data : list entry) : list (mode * list entry) :=
  match data with [] => [] | _ => [(md, data)] end.

Lemma update_factors_ok v L st data md :
  (forall e, In e data -> in_range md L (nusers st) (nitems st) e) ->
  let U := ti_urows st ++ up_u md data in
  let I := ti_irows st ++ up_i md data in
  if size_ok v L md (nusers st) (nitems st) data
  then exists lg,
    update_factors v L st data md
    = Ok (mkTi (ti_maps st) U I (ti_history st) (ti_seq st) (ti_log st ++ lg))
    /\ ti_view lg = shown md data /\ Forall (step_rel U I) lg
  else update_factors v L st data md = Err ValueError.
Proof.
  intros H U I. destruct data as [|e0 data0].
  { assert (E : size_ok v L md (nusers st) (nitems st) [] = true).
    { unfold size_ok, nusers, nitems. destruct v, md; auto; apply Z.leb_le; simpl; lia. }
    rewrite E. exists []. unfold U, I, update_factors.
    assert (EU : up_u md [] = []) by (destruct md; reflexivity).
    assert (EI : up_i md [] = []) by (destruct md; reflexivity).
    rewrite EU, EI, !app_nil_r. destruct st; simpl. repeat split; auto. }
  remember (e0 :: data0) as data eqn:Ed.
  assert (S : shown md data = [(md, data)]) by (subst; reflexivity).
  assert (Eq : forall (X Y : res ti_state), (match data with [] => X | _ => Y end) = Y) by (subst; reflexivity).
  unfold update_factors. rewrite Eq. clear Eq Ed e0 data0. rewrite S. clear S.
  unfold nusers, nitems in *. unfold U, I. clear U I.
  destruct md; cbn [up_u up_i].
  - (* new *)
    assert (E : size_ok v L MNew (Z.of_nat (length (ti_urows st))) (Z.of_nat (length (ti_irows st))) data = true)
      by (destruct v; reflexivity). rewrite E.
    destruct (map_to_local_u_ok data) as [loc0 [E0 F0]]. rewrite E0; cbn [bind].
    destruct (map_to_local_i_ok loc0) as [loc [E1 F1]]. rewrite E1; cbn [bind].
    assert (EI : map e_item loc0 = map e_item data).
    { clear - F0. generalize dependent F0. generalize (np_unique (map e_user data)). intros N F.
      induction F as [|a b l l' [Hab _] F IH]; simpl; congruence. }
    rewrite EI in F1.
    assert (F : Forall2 (fun e l => e_pos l = e_pos e
       /\ (0 <= e_user l < Z.of_nat (length (np_unique (map e_user data)))
          /\ nth_error (np_unique (map e_user data)) (Z.to_nat (e_user l)) = Some (e_user e))
       /\ (0 <= e_item l < Z.of_nat (length (np_unique (map e_item data)))
          /\ nth_error (np_unique (map e_item data)) (Z.to_nat (e_item l)) = Some (e_item e))) data loc).
    { eapply Forall2_trans_gen; [|exact F0|exact F1]. cbv beta.
      intros a b d [A1 [A2 [A3 A4]]] [B1 [B2 [B3 B4]]]. rewrite B1, B2, <- A1. repeat split; auto; lia. }
    rewrite in_shape_spec.
    2:{ intros l Hl. destruct (Forall2_In_r _ _ _ _ F Hl) as [e [He [P [[U1 _] [I1 _]]]]].
        destruct (H e He) as [HP _]. lia. }
    eexists. split; [reflexivity|]. split; [reflexivity|]. constructor; [|constructor].
    split; [cbn; lia|]. split; [cbn; lia|]. cbn [ts_mode ts_nu ts_ni ts_entries ts_local].
    eapply Forall2_impl; [|exact F]. intros e l [_ [[U1 U2] [I1 I2]]]. unfold loc_rel.
    rewrite !nth_app_shift by lia. repeat split; auto; lia.
  - (* new users *)
    destruct (map_to_local_u_ok data) as [loc [E0 F0]]. rewrite E0; cbn [bind].
    rewrite in_shape_spec.
    2:{ intros l Hl. destruct (Forall2_In_r _ _ _ _ F0 Hl) as [e [He [A1 [A2 [A3 _]]]]].
        destruct (H e He) as [HP HI]. rewrite A1, A2. auto. }
    assert (F : Forall (step_rel (ti_urows st ++ np_unique (map e_user data)) (ti_irows st ++ []))
       [mkTiStep MNewUsers (Z.of_nat (length (ti_urows st))) (Z.of_nat (length (ti_irows st))) data loc]).
    { constructor; [|constructor]. split; [cbn; lia|]. split; [cbn; lia|].
      cbn [ts_mode ts_nu ts_ni ts_entries ts_local]. eapply Forall2_impl; [|exact F0].
      intros e l [A1 [A2 [A3 A4]]]. unfold loc_rel. rewrite nth_app_shift by lia. repeat split; auto; lia. }
    rewrite app_nil_r in *.
    unfold size_ok. destruct v; [destruct (_ <=? _) eqn:SZ|..]; auto;
      eexists; (split; [reflexivity|]); split; auto.
  - (* new items *)
    destruct (map_to_local_i_ok data) as [loc [E0 F0]]. rewrite E0; cbn [bind].
    rewrite in_shape_spec.
    2:{ intros l Hl. destruct (Forall2_In_r _ _ _ _ F0 Hl) as [e [He [A1 [A2 [A3 _]]]]].
        destruct (H e He) as [HP HI]. rewrite A1, A2. auto. }
    assert (F : Forall (step_rel (ti_urows st ++ []) (ti_irows st ++ np_unique (map e_item data)))
       [mkTiStep MNewItems (Z.of_nat (length (ti_urows st))) (Z.of_nat (length (ti_irows st))) data loc]).
    { constructor; [|constructor]. split; [cbn; lia|]. split; [cbn; lia|].
      cbn [ts_mode ts_nu ts_ni ts_entries ts_local]. eapply Forall2_impl; [|exact F0].
      intros e l [A1 [A2 [A3 A4]]]. unfold loc_rel. rewrite nth_app_shift by lia. repeat split; auto; lia. }
    rewrite app_nil_r in *.
    unfold size_ok. destruct v; [destruct (_ <=? _) eqn:SZ|..]; auto;
      eexists; (split; [reflexivity|]); split; auto.
  - (* old *)
    assert (E : size_ok v L MOld (Z.of_nat (length (ti_urows st))) (Z.of_nat (length (ti_irows st))) data = true)
      by (destruct v; reflexivity). rewrite E.
    rewrite in_shape_spec.
    2:{ intros e He. destruct (H e He) as [HP [A B]]. auto. }
    rewrite !app_nil_r.
    eexists. split; [reflexivity|]. split; [reflexivity|]. constructor; [|constructor].
    split; [cbn; lia|]. split; [cbn; lia|]. cbn [ts_mode ts_nu ts_ni ts_entries ts_local].
    clear. induction data; constructor; auto. split; reflexivity.
Qed.

Lemma step_rel_mono U U' I I' s :
  step_rel U I s -> (exists x, U' = U ++ x) -> (exists y, I' = I ++ y) -> step_rel U' I' s.
Proof.
  intros [A [B F]] [x ->] [y ->]. split; auto. split; auto.
  assert (G : forall (l z : list Z) n v, nth_error l n = Some v -> nth_error (l ++ z) n = Some v).
  { intros l z n v Hn. rewrite nth_error_app1; auto. eapply nth_error_range; eauto. }
  eapply Forall2_impl; [|exact F]. intros e l. unfold loc_rel. destruct (ts_mode s); intuition auto.
Qed.

(** ** The split *)
Section Split.
  Variables (NU NI : list Z) (D : list entry).
  Let a (e : entry) := memZ (e_user e) NU.
  Let b (e : entry) := memZ (e_item e) NI.
  Definition g1 := filter (fun e => memZ (e_user e) NU && memZ (e_item e) NI) D.
  Let c (e : entry) := memZ (e_user e) (map e_user g1).
  Let d (e : entry) := memZ (e_item e) (map e_item g1).
  Definition g2 := filter (fun e => memZ (e_user e) NU && negb (memZ (e_user e) (map e_user g1))) D.
  Definition g3 := filter (fun e => memZ (e_item e) NI && negb (memZ (e_item e) (map e_item g1))) D.
  Definition g4 := filter (fun e => negb (memZ (e_user e) NU && memZ (e_item e) NI)
                   && negb (memZ (e_user e) NU && negb (memZ (e_user e) (map e_user g1)))
                   && negb (memZ (e_item e) NI && negb (memZ (e_item e) (map e_item g1)))) D.
  Definition left1 := filter (fun e => negb (memZ (e_user e) NU && memZ (e_item e) NI)) D.
  Definition left2 := filter (fun e => negb (memZ (e_user e) NU && memZ (e_item e) NI)
                   && negb (memZ (e_user e) NU && negb (memZ (e_user e) (map e_user g1)))) D.
  Definition NU1 := filter (fun x => negb (memZ x (np_unique (map e_user g1)))) NU.
  Definition NI1 := filter (fun x => negb (memZ x (np_unique (map e_item g1)))) NI.
  Definition NU2 := filter (fun x => negb (memZ x (np_unique (map e_user g2)))) NU1.
  Definition NI2 := filter (fun x => negb (memZ x (np_unique (map e_item g3)))) NI1.

  Lemma memZ_np_unique x l : memZ x (np_unique l) = memZ x l.
  Proof.
    destruct (memZ x l) eqn:E.
    - apply memZ_spec. apply np_unique_In, memZ_spec; auto.
    - apply memZ_false. rewrite np_unique_In. apply memZ_false; auto.
  Qed.

  Lemma memZ_filter x (f : Z -> bool) l : memZ x (filter f l) = memZ x l && f x.
  Proof.
    destruct (memZ x l && f x) eqn:E.
    - apply andb_true_iff in E as [E1 E2]. apply memZ_spec, filter_In. rewrite memZ_spec in E1. auto.
    - apply memZ_false. rewrite filter_In. intros [H1 H2]. apply memZ_spec in H1. rewrite H1, H2 in E. discriminate.
  Qed.

  Lemma memZ_NU1 x : memZ x NU1 = memZ x NU && negb (memZ x (map e_user g1)).
  Proof. unfold NU1. rewrite memZ_filter, memZ_np_unique. reflexivity. Qed.
  Lemma memZ_NI1 x : memZ x NI1 = memZ x NI && negb (memZ x (map e_item g1)).
  Proof. unfold NI1. rewrite memZ_filter, memZ_np_unique. reflexivity. Qed.
  Lemma memZ_NU2 x : memZ x NU2 = memZ x NU && negb (memZ x (map e_user g1)) && negb (memZ x (map e_user g2)).
  Proof. unfold NU2. rewrite memZ_filter, memZ_np_unique, memZ_NU1. reflexivity. Qed.
  Lemma memZ_NI2 x : memZ x NI2 = memZ x NI && negb (memZ x (map e_item g1)) && negb (memZ x (map e_item g3)).
  Proof. unfold NI2. rewrite memZ_filter, memZ_np_unique, memZ_NI1. reflexivity. Qed.

  Lemma in_g1 e : In e D -> a e = true -> b e = true -> c e = true /\ d e = true.
  Proof.
    intros H A B. assert (In e g1).
    { unfold g1. apply filter_In. split; auto. unfold a, b in *. rewrite A, B. reflexivity. }
    split; apply memZ_spec; apply in_map; auto.
  Qed.

  Lemma in_g2 e : In e D -> a e = true -> c e = false -> memZ (e_user e) (map e_user g2) = true.
  Proof.
    intros H A C. apply memZ_spec, in_map. unfold g2. apply filter_In. split; auto.
    unfold a, c in *. rewrite A, C. reflexivity.
  Qed.

  Lemma in_g3 e : In e D -> b e = true -> d e = false -> memZ (e_item e) (map e_item g3) = true.
  Proof.
    intros H A C. apply memZ_spec, in_map. unfold g3. apply filter_In. split; auto.
    unfold b, d in *. rewrite A, C. reflexivity.
  Qed.

  Variables (v : variant) (L : nat).

  Lemma loop1 st :
    ti_loop_step v L (Ok (st, D, NU, NI)) MNew
    = do st' <- update_factors v L st g1 MNew; Ok (st', left1, NU1, NI1).
  Proof.
    unfold ti_loop_step; cbn [bind divide_inds]. rewrite map_map, !select_filter.
    assert (E1 : filter (fun e => negb (negb (memZ (e_user e) NU)) && negb (negb (memZ (e_item e) NI))) D = g1).
    { apply filter_ext_in. intros e _. rewrite !negb_involutive. reflexivity. }
    rewrite E1. 
    replace (filter (fun e => negb (negb (negb (memZ (e_user e) NU)) && negb (negb (memZ (e_item e) NI)))) D)
      with left1; [reflexivity|].
    apply filter_ext_in. intros e _. rewrite !negb_involutive. reflexivity.
  Qed.

  Lemma loop2 st :
    ti_loop_step v L (Ok (st, left1, NU1, NI1)) MNewUsers
    = do st' <- update_factors v L st g2 MNewUsers; Ok (st', left2, NU2, NI1).
  Proof.
    unfold ti_loop_step; cbn [bind divide_inds]. rewrite map_map, !select_filter.
    assert (M : forall e, In e D -> a e && b e = false ->
       negb (negb (memZ (e_user e) NU1)) && negb (memZ (e_item e) NI1) = a e && negb (c e)).
    { intros e He. rewrite memZ_NU1, memZ_NI1, negb_involutive. pose proof (in_g1 e He) as G.
      unfold a, b, c, d in *. destruct (memZ (e_user e) NU), (memZ (e_item e) NI); cbn; try discriminate;
        rewrite ?andb_true_r, ?andb_false_r; auto. }
    assert (E1 : filter (fun e => negb (negb (memZ (e_user e) NU1)) && negb (memZ (e_item e) NI1)) left1 = g2).
    { unfold left1. rewrite filter_filter. apply filter_ext_in. intros e He. pose proof (in_g1 e He) as G.
      pose proof (M e He) as M'. unfold a, b, c, d in *.
      destruct (memZ (e_user e) NU && memZ (e_item e) NI) eqn:AB; cbn [negb andb].
      - apply andb_true_iff in AB as [A B]. destruct (G A B) as [-> _]. rewrite andb_false_r. reflexivity.
      - apply M'. reflexivity. }
    rewrite E1.
    replace (filter (fun e => negb (negb (negb (memZ (e_user e) NU1)) && negb (memZ (e_item e) NI1))) left1)
      with left2; [reflexivity|].
    unfold left1, left2. rewrite filter_filter. apply filter_ext_in. intros e He.
    destruct (memZ (e_user e) NU && memZ (e_item e) NI) eqn:AB; cbn [negb andb]; auto.
    rewrite (M e He AB). reflexivity.
  Qed.

  Lemma loop3 st :
    ti_loop_step v L (Ok (st, left2, NU2, NI1)) MNewItems
    = do st' <- update_factors v L st g3 MNewItems; Ok (st', g4, NU2, NI2).
  Proof.
    unfold ti_loop_step; cbn [bind divide_inds]. rewrite map_map, !select_filter.
    assert (M : forall e, In e D -> a e && b e = false -> a e && negb (c e) = false ->
       negb (memZ (e_user e) NU2) && negb (negb (memZ (e_item e) NI1)) = b e && negb (d e)).
    { intros e He AB AC. rewrite memZ_NU2, memZ_NI1, negb_involutive. unfold a, b, c, d in *.
      rewrite AC. reflexivity. }
    assert (E1 : filter (fun e => negb (memZ (e_user e) NU2) && negb (negb (memZ (e_item e) NI1))) left2 = g3).
    { unfold left2. rewrite filter_filter. apply filter_ext_in. intros e He. pose proof (in_g1 e He) as G.
      pose proof (M e He) as M'. unfold a, b, c, d in *.
      destruct (memZ (e_user e) NU && memZ (e_item e) NI) eqn:AB; cbn [negb andb].
      - apply andb_true_iff in AB as [A B]. destruct (G A B) as [_ ->]. rewrite andb_false_r. reflexivity.
      - destruct (memZ (e_user e) NU && negb (memZ (e_user e) (map e_user g1))) eqn:AC; cbn [negb andb].
        + apply andb_true_iff in AC as [A _]. rewrite A in AB. cbn in AB. rewrite AB. reflexivity.
        + apply M'; reflexivity. }
    rewrite E1.
    replace (filter (fun e => negb (negb (memZ (e_user e) NU2) && negb (negb (memZ (e_item e) NI1)))) left2)
      with g4; [reflexivity|].
    unfold left2, g4. rewrite filter_filter. apply filter_ext_in. intros e He.
    destruct (memZ (e_user e) NU && memZ (e_item e) NI) eqn:AB; cbn [negb andb]; auto.
    destruct (memZ (e_user e) NU && negb (memZ (e_user e) (map e_user g1))) eqn:AC; cbn [negb andb]; auto.
    rewrite (M e He AB AC). reflexivity.
  Qed.

  Lemma loop4 st :
    ti_loop_step v L (Ok (st, g4, NU2, NI2)) MOld
    = do st' <- update_factors v L st g4 MOld; Ok (st', [], NU2, NI2).
  Proof.
    unfold ti_loop_step; cbn [bind divide_inds]. rewrite map_map, !select_filter.
    assert (M : forall e, In e g4 -> negb (memZ (e_user e) NU2) && negb (memZ (e_item e) NI2) = true).
    { intros e He. apply filter_In in He as [He E]. rewrite memZ_NU2, memZ_NI2.
      apply andb_true_iff in E as [E E3]. apply andb_true_iff in E as [_ E2].
      apply negb_true_iff in E2, E3. rewrite E2, E3. reflexivity. }
    rewrite (filter_all _ g4 M).
    rewrite filter_none; [reflexivity|]. intros e He. rewrite (M e He). reflexivity.
  Qed.

  (** Line 352 of tirec_accelerated.py: with both lists exhausted nothing is masked. *)
  Lemma mask_exhausted :
    (forall x, In x NU -> In x (map e_user D)) -> (forall x, In x NI -> In x (map e_item D)) ->
    NU2 = [] /\ NI2 = [].
  Proof.
    intros HU HI. split.
    - destruct NU2 as [|x l] eqn:E; auto. exfalso.
      assert (M : memZ x NU2 = true) by (apply memZ_spec; rewrite E; left; auto).
      rewrite memZ_NU2 in M. apply andb_true_iff in M as [M M3]. apply andb_true_iff in M as [M1 M2].
      apply memZ_spec in M1. apply HU in M1. apply in_map_iff in M1 as [e [<- He]].
      apply negb_true_iff in M2, M3. assert (M1 : memZ (e_user e) NU = true).
      { assert (M : memZ (e_user e) NU2 = true) by (apply memZ_spec; rewrite E; left; auto).
        rewrite memZ_NU2 in M. apply andb_true_iff in M as [M _]. apply andb_true_iff in M as [M _]. auto. }
      rewrite (in_g2 e He M1 M2) in M3. discriminate.
    - destruct NI2 as [|x l] eqn:E; auto. exfalso.
      assert (M : memZ x NI2 = true) by (apply memZ_spec; rewrite E; left; auto).
      rewrite memZ_NI2 in M. apply andb_true_iff in M as [M M3]. apply andb_true_iff in M as [M1 M2].
      apply memZ_spec in M1. apply HI in M1. apply in_map_iff in M1 as [e [<- He]].
      apply negb_true_iff in M2, M3. assert (M1 : memZ (e_item e) NI = true).
      { assert (M : memZ (e_item e) NI2 = true) by (apply memZ_spec; rewrite E; left; auto).
        rewrite memZ_NI2 in M. apply andb_true_iff in M as [M _]. apply andb_true_iff in M as [M _]. auto. }
      rewrite (in_g3 e He M1 M2) in M3. discriminate.
  Qed.
End Split.
