(** Proofs about repeated training (C25-C27). *)
From Coq Require Import ZArith List Bool Lia Permutation Sorted.
From Verif Require Import Prelude Prelude_proofs DataPrep_model DataPrep_spec DataPrep_proofs DataPrep_main
  History_model History_spec History_proofs History_main Psi_model Tirec_model
  Retrain_model Retrain_spec.
Import ListNotations.
Open Scope Z_scope.

(** * Sorting with related lists *)

Lemma sort_StableSorted_gen {A} (key : A -> Z) l :
  StableSorted key l (sort_stable (fun a b => key a <=? key b) l).
Proof.
  assert (Ht : forall x y, (key x <=? key y) = true \/ (key y <=? key x) = true)
    by (intros; apply Zleb_total).
  assert (Htr : forall x y z, (key x <=? key y) = true -> (key y <=? key z) = true -> (key x <=? key z) = true)
    by (intros x y z; apply Zleb_trans).
  split; [|split].
  - pose proof (sort_stable_sorted (fun a b => key a <=? key b) Ht Htr l) as H.
    revert H. generalize (sort_stable (fun a b => key a <=? key b) l) as l'.
    induction 1 as [|a l' Hl' IH Ha]; constructor; auto.
    eapply Forall_impl; [|exact Ha]. simpl. intros b Hb. apply Z.leb_le; auto.
  - apply sort_stable_perm.
  - intros k. rewrite (filter_sort (fun a b => key a <=? key b) Ht Htr).
    apply sort_stable_id.
    assert (HF : Forall (fun a => key a = k) (filter (fun a => key a =? k) l)).
    { apply Forall_forall. intros a Ha. apply filter_In in Ha as [_ Ha]. apply Z.eqb_eq; auto. }
    revert HF. generalize (filter (fun a => key a =? k) l) as m.
    induction m as [|a m IH]; intros HF; constructor.
    + apply IH. inversion HF; auto.
    + inversion HF; subst. eapply Forall_impl; [|exact H2].
      simpl. intros b Hb. apply Z.leb_le. lia.
Qed.

Lemma Forall2_insert {A B} (R : A -> B -> Prop) (la : A -> A -> bool) (lb : B -> B -> bool) x y l l' :
  (forall a b a' b', R a b -> R a' b' -> la a a' = lb b b') ->
  R x y -> Forall2 R l l' -> Forall2 R (insert_sorted la x l) (insert_sorted lb y l').
Proof.
  intros H Rxy F. induction F as [|a b l l' Rab F IH]; simpl; auto.
  rewrite (H _ _ _ _ Rxy Rab). destruct (lb y b); auto.
Qed.

Lemma Forall2_sort {A B} (R : A -> B -> Prop) (la : A -> A -> bool) (lb : B -> B -> bool) l l' :
  (forall a b a' b', R a b -> R a' b' -> la a a' = lb b b') ->
  Forall2 R l l' -> Forall2 R (sort_stable la l) (sort_stable lb l').
Proof.
  intros H F. induction F as [|a b l l' Rab F IH]; simpl; auto.
  apply Forall2_insert; auto.
Qed.

Lemma sort_stable_map {A B} (f : A -> B) (lb : B -> B -> bool) l :
  sort_stable lb (map f l) = map f (sort_stable (fun a b => lb (f a) (f b)) l).
Proof.
  induction l as [|x l IH]; simpl; auto. rewrite IH.
  generalize (sort_stable (fun a b => lb (f a) (f b)) l) as m.
  induction m as [|y m IHm]; simpl; auto.
  destruct (lb (f x) (f y)); simpl; auto. rewrite IHm. reflexivity.
Qed.

Definition prow_rel (ms : mappings) (p q : prow) : Prop :=
  reindexed (f_of (m_users ms)) (f_of (m_items ms)) (g_of (m_users ms)) (g_of (m_items ms))
            (p_row p) (p_row q) /\ p_pos p = p_pos q.

Definition pos_leb (a b : prow) : bool := p_pos a <=? p_pos b.

Lemma items_of_sorted ui (initial : list prow) :
  items_of ui (sort_stable user_pos_leb (map triple_of initial))
  = map (fun p => r_item (p_row p)) (sort_stable pos_leb (prows_of ui initial)).
Proof.
  unfold items_of. rewrite (filter_sort _ user_pos_total user_pos_trans), filter_map_comm.
  rewrite sort_stable_map, map_map. unfold prows_of.
  change (fun x : prow => t_user (triple_of x) =? ui) with (fun p : prow => r_user (p_row p) =? ui).
  replace (sort_stable (fun a b => user_pos_leb (triple_of a) (triple_of b))
             (filter (fun p : prow => r_user (p_row p) =? ui) initial))
    with (sort_stable pos_leb (filter (fun p : prow => r_user (p_row p) =? ui) initial)); auto.
  apply sort_stable_ext. intros x y Hx Hy.
  apply filter_In in Hx as [_ Hx], Hy as [_ Hy]. apply Z.eqb_eq in Hx, Hy.
  unfold user_pos_leb, pos_leb, triple_of, t_user, t_pos, p_row, p_pos in *. simpl.
  rewrite Hx, Hy, Z.ltb_irrefl, Z.eqb_refl. reflexivity.
Qed.

Lemma contributes_items ms (data initial : list prow) ui :
  bij (m_users ms) 0 ->
  Forall2 (prow_rel ms) data initial ->
  contributes ms data ui (items_of ui (sort_stable user_pos_leb (map triple_of initial))).
Proof.
  intros [_ [BU _]] F. rewrite items_of_sorted. unfold contributes.
  destruct (g_of (m_users ms) ui) as [u|] eqn:G.
  - exists (sort_stable pos_leb (prows_of u data)). split; [apply sort_StableSorted_gen|].
    assert (F1 : Forall2 (prow_rel ms) (prows_of u data) (prows_of ui initial)).
    { apply Forall2_filter with (P := prow_rel ms); auto.
      intros p q [[Hf [Hg _]] _].
      destruct (Z.eqb_spec (r_user (p_row p)) u) as [E|E];
        destruct (Z.eqb_spec (r_user (p_row q)) ui) as [E'|E']; auto; exfalso.
      - subst u. apply BU in G. congruence.
      - subst ui. congruence. }
    assert (F2 := Forall2_sort _ pos_leb pos_leb _ _
      (fun a b a' b' (H : prow_rel ms a b) (H' : prow_rel ms a' b') =>
         f_equal2 Z.leb (proj2 H) (proj2 H')) F1).
    revert F2. generalize (sort_stable pos_leb (prows_of u data)), (sort_stable pos_leb (prows_of ui initial)).
    clear. induction 1 as [|p q l l' [[_ [_ [H _]]] _] F IH]; simpl; auto.
  - replace (prows_of ui initial) with (@nil prow); auto.
    symmetry. apply filter_none. intros q Hq. apply Z.eqb_neq. intros <-.
    clear - F Hq G. induction F as [|p q' l l' [[_ [Hg _]] _] F IH]; [destruct Hq|].
    destruct Hq as [->|Hq]; auto. congruence.
Qed.

Lemma prepare_rel data seq L td :
  tdrec_prepare data seq L = Ok td ->
  exists initial,
    Forall2 (prow_rel (td_mappings td)) data initial
    /\ bij (m_users (td_mappings td)) 0 /\ bij (m_items (td_mappings td)) 0
    /\ td_inds td = sort_stable user_pos_leb (map triple_of initial)
    /\ td_vals td = map (fun p => r_rel (p_row p)) initial
    /\ td_seq td = update_user_seq_history (td_inds td) seq L.
Proof.
  intros H. destruct (prepare_initial _ _ _ _ H) as [initial [_ [F [B1 [B2 [E1 [E2 [_ E3]]]]]]]].
  exists initial. auto 10.
Qed.

Lemma prepare_contributes data seq L td ui :
  tdrec_prepare data seq L = Ok td ->
  contributes (td_mappings td) data ui (items_of ui (td_inds td)).
Proof.
  intros H. destruct (prepare_rel _ _ _ _ H) as [initial [F [B1 [_ [-> _]]]]].
  apply contributes_items; auto.
Qed.

Lemma items_of_app u a b : items_of u (a ++ b) = items_of u a ++ items_of u b.
Proof. unfold items_of. rewrite filter_app, map_app. reflexivity. Qed.

Lemma items_of_concat u ls : items_of u (concat ls) = concat (map (items_of u) ls).
Proof. induction ls as [|l ls IH]; simpl; auto. rewrite items_of_app, IH. reflexivity. Qed.

Lemma retrain_seq L : forall tables seq tds,
  retrain L seq tables = Ok tds -> tables <> [] ->
  exists td, last (map Some tds) None = Some td
    /\ td_seq td = update_user_seq_history (concat (map td_inds tds)) seq L.
Proof.
  induction tables as [|d tables IH]; intros seq tds H N; [contradiction|].
  cbn [retrain] in H.
  destruct (tdrec_prepare d seq L) as [td|] eqn:E; [|discriminate]. cbn [bind] in H.
  destruct (retrain L (td_seq td) tables) as [tds'|] eqn:E2; [|discriminate]. cbn [bind] in H.
  injection H as <-.
  destruct (prepare_rel _ _ _ _ E) as [initial [_ [_ [_ [_ [_ ES]]]]]].
  destruct tables as [|d2 tables].
  - injection E2 as <-. exists td. split; auto. simpl. rewrite app_nil_r. auto.
  - destruct (IH _ _ E2 ltac:(discriminate)) as [td' [HL HS]].
    exists td'. split.
    + simpl in *. destruct tds'; [discriminate|]. exact HL.
    + simpl. rewrite update_app, <- ES. exact HS.
Qed.

Lemma retrain_contributes L ui : forall tables seq tds,
  retrain L seq tables = Ok tds ->
  Forall2 (fun dt is => contributes (td_mappings (snd dt)) (fst dt) ui is)
          (combine tables tds) (map (items_of ui) (map td_inds tds)).
Proof.
  induction tables as [|d tables IH]; intros seq tds H; cbn [retrain] in H.
  - injection H as <-. constructor.
  - destruct (tdrec_prepare d seq L) as [td|] eqn:E; [|discriminate]. cbn [bind] in H.
    destruct (retrain L (td_seq td) tables) as [tds'|] eqn:E2; [|discriminate]. cbn [bind] in H.
    injection H as <-. simpl. constructor; [|eapply IH; eauto].
    simpl. eapply prepare_contributes; eauto.
Qed.

Lemma retrain_history_main L tables tds td :
  retrain L [] tables = Ok tds -> last (map Some tds) None = Some td ->
  forall ui, exists iss,
    Forall2 (fun dt is => contributes (td_mappings (snd dt)) (fst dt) ui is) (combine tables tds) iss
    /\ dget ui (hist_lists (td_seq td))
       = match concat iss with
         | [] => None
         | is => Some (lastn L (repeat PAD_VALUE L ++ is))
         end.
Proof.
  intros H HL ui. exists (map (items_of ui) (map td_inds tds)).
  split; [eapply retrain_contributes; eauto|].
  assert (N : tables <> []).
  { intros ->. injection H as <-. discriminate. }
  destruct (retrain_seq _ _ _ _ H N) as [td' [HL' HS]].
  rewrite HL in HL'. injection HL' as <-.
  rewrite dget_hist_lists, HS, dget_update by apply wf_nil.
  rewrite items_of_concat. simpl dget.
  destruct (concat (map (items_of ui) (map td_inds tds))); reflexivity.
Qed.

(** * Fresh or stale *)

Lemma lastn_eq_iff (L n : nat) (old is : list Z) x :
  (length old = L)%nat -> last old PAD_VALUE = x -> x <> PAD_VALUE -> length is = n ->
  (lastn L (old ++ is) = lastn L (repeat PAD_VALUE L ++ is) <-> (L <= n)%nat).
Proof.
  intros HO HX NP HI. split; intros H.
  - destruct (Nat.le_gt_cases L n) as [|G]; auto. exfalso.
    rewrite !lastn_app_le in H by lia.
    apply app_inv_tail in H.
    assert (E : last (lastn (L - length is) old) PAD_VALUE = last (lastn (L - length is) (repeat PAD_VALUE L)) PAD_VALUE)
      by (rewrite H; auto).
    destruct (lastn_suffix (L - length is) old) as [pre Hpre].
    assert (NE : lastn (L - length is) old <> []).
    { intros E0. apply (f_equal (@length Z)) in E0. rewrite lastn_length in E0. simpl in E0. lia. }
    assert (E1 : last (lastn (L - length is) old) PAD_VALUE = x).
    { rewrite <- HX. rewrite Hpre at 2.
      clear - NE. revert NE. generalize (lastn (L - length is) old) as m. intros m NE.
      induction pre as [|a pre IH]; simpl; auto.
      destruct (pre ++ m) eqn:EE; auto. destruct pre, m; try discriminate; congruence. }
    assert (E2 : last (lastn (L - length is) (repeat PAD_VALUE L)) PAD_VALUE = PAD_VALUE).
    { assert (A : Forall (fun y => y = PAD_VALUE) (lastn (L - length is) (repeat PAD_VALUE L))).
      { destruct (lastn_suffix (L - length is) (repeat PAD_VALUE L)) as [q Hq].
        apply Forall_forall. intros y Hy. apply (repeat_spec L). rewrite Hq.
        apply in_or_app; auto. }
      clear - A. induction A as [|y l Hy A IH]; simpl; auto. destruct l; auto. }
    congruence.
  - rewrite !lastn_app_ge by lia. reflexivity.
Qed.

Lemma g_inds td data seq L ui :
  tdrec_prepare data seq L = Ok td ->
  (g_of (m_users (td_mappings td)) ui = None <-> items_of ui (td_inds td) = []).
Proof.
  intros H. pose proof (prepare_initial _ _ _ _ H) as [initial [EU [F [BU [_ [EI _]]]]]].
  pose proof (prepare_contributes _ _ _ _ ui H) as C. unfold contributes in C.
  destruct (g_of (m_users (td_mappings td)) ui) as [u|] eqn:G; [|tauto].
  split; [discriminate|]. intros E. exfalso. rewrite E in C.
  destruct C as [x [[_ [P _]] F2]]. inversion F2; subst.
  apply Permutation_sym, Permutation_nil in P.
  destruct BU as [_ [BU _]]. apply BU in G.
  assert (HIn : In u (map r_user (map p_row data))).
  { destruct (reindex_maps _ _ _ EU) as [U _].
    assert (HK : exists v, f_of (m_users (td_mappings td)) u = Some v) by eauto.
    unfold f_of in HK. rewrite U in HK. apply dget_Some_in in HK.
    unfold get_cont_mapping_struct in HK. simpl in HK.
    apply unique_In. 
    revert HK. generalize (unique (map r_user (map p_row data))) as l. intros l HK.
    clear -HK. 
    assert (G : forall items (d : dict Z), In u (dkeys (dupdate d items)) -> In u (dkeys d) \/ In u (map fst items)).
    { induction items as [|[k v] items IH]; intros d HH; [left; exact HH|].
      unfold dupdate in HH. simpl in HH. apply IH in HH as [HH|HH]; [|right; right; auto].
      rewrite dkeys_dset in HH. destruct (dmem k d); [left; auto|].
      apply in_app_or in HH as [HH|[HH|[]]]; [left; auto|right; left; auto]. }
    apply G in HK as [[]|HK]. rewrite map_map in HK. simpl in HK.
    rewrite enumerate_snd in HK. exact HK. }
  rewrite map_map in HIn. apply in_map_iff in HIn as [p [Hp Hin]].
  assert (In p (prows_of u data)) by (apply filter_In; split; auto; apply Z.eqb_eq; auto).
  rewrite P in H0. destruct H0.
Qed.

Lemma nonpad_items data seq L td ui j :
  tdrec_prepare data seq L = Ok td -> In j (items_of ui (td_inds td)) -> j <> PAD_VALUE.
Proof.
  intros H Hin. pose proof (prepare_contributes _ _ _ _ ui H) as C.
  destruct (prepare_rel _ _ _ _ H) as [initial [_ [_ [BI _]]]].
  unfold contributes in C. destruct (g_of _ ui); [|rewrite C in Hin; destruct Hin].
  destruct C as [x [_ F]].
  assert (E : exists k, f_of (m_items (td_mappings td)) k = Some j).
  { clear - F Hin. induction F as [|p i l l' Hp F IH]; [destruct Hin|].
    destruct Hin as [->|Hin]; eauto. }
  destruct E as [k Hk]. destruct BI as [_ [BI BR]].
  assert (0 <= j) by (apply (BR j); exists k; apply BI; auto). unfold PAD_VALUE. lia.
Qed.

Lemma contributes_count data seq L td u ui :
  tdrec_prepare data seq L = Ok td ->
  f_of (m_users (td_mappings td)) u = Some ui ->
  length (items_of ui (td_inds td)) = length (prows_of u data).
Proof.
  intros H Hf. pose proof (prepare_contributes _ _ _ _ ui H) as C.
  destruct (prepare_rel _ _ _ _ H) as [initial [_ [[_ [BU _]] _]]].
  apply BU in Hf. unfold contributes in C. rewrite Hf in C.
  destruct C as [x [[_ [P _]] F]]. apply Forall2_len in F. apply Permutation_length in P. lia.
Qed.

Lemma prepare_any_seq data seq seq' L td :
  tdrec_prepare data seq L = Ok td ->
  tdrec_prepare data seq' L
  = Ok (mkTrain (td_mappings td) (td_inds td) (td_vals td) (td_shape td) (td_history td)
                (update_user_seq_history (td_inds td) seq' L)).
Proof.
  unfold tdrec_prepare. intros H.
  destruct (get_df_with_updated_indices (map p_row data)) as [[rows ms]|e]; [|discriminate].
  cbn [bind] in *.
  destruct (maxZ _) as [mu|]; [|discriminate]. cbn [bind] in *.
  destruct (maxZ _) as [mi|]; [|discriminate]. cbn [bind] in *.
  destruct (maxZ _) as [mp|]; [|discriminate]. cbn [bind] in *.
  injection H as <-. reflexivity.
Qed.

Lemma last_app_ne {A} (l m : list A) d : m <> [] -> last (l ++ m) d = last m d.
Proof.
  intros N. induction l as [|a l IH]; simpl; auto.
  destruct (l ++ m) eqn:E; auto. destruct l, m; try discriminate; congruence.
Qed.

Lemma last_in {A} (l : list A) d : l <> [] -> In (last l d) l.
Proof.
  induction l as [|a l IH]; intros N; [congruence|].
  destruct l; [left; reflexivity|]. right. apply IH. discriminate.
Qed.

Lemma retrain_fresh_iff_main L d1 d2 td1 td2 fresh u ui :
  (1 <= L)%nat ->
  tdrec_prepare d1 [] L = Ok td1 ->
  tdrec_prepare d2 (td_seq td1) L = Ok td2 ->
  tdrec_prepare d2 [] L = Ok fresh ->
  f_of (m_users (td_mappings td2)) u = Some ui ->
  (td_mappings td2 = td_mappings fresh /\ td_inds td2 = td_inds fresh
   /\ td_vals td2 = td_vals fresh /\ td_history td2 = td_history fresh)
  /\ (dget ui (hist_lists (td_seq td2)) = dget ui (hist_lists (td_seq fresh))
      <-> (L <= length (prows_of u d2))%nat \/ g_of (m_users (td_mappings td1)) ui = None).
Proof.
  intros HL H1 H2 HF Hu.
  pose proof (prepare_any_seq _ _ [] _ _ H2) as HF'. rewrite HF in HF'. injection HF' as ->.
  simpl. split; [auto|].
  destruct (prepare_rel _ _ _ _ H1) as [i1 [_ [_ [_ [_ [_ ES1]]]]]].
  destruct (prepare_rel _ _ _ _ H2) as [i2 [_ [[_ [BU2 _]] [_ [_ [_ ES2]]]]]].
  rewrite !dget_hist_lists, ES2, !dget_update by (rewrite ?ES1; repeat apply wf_update; apply wf_nil).
  rewrite <- (contributes_count _ _ _ _ _ _ H2 Hu).
  rewrite ES1, dget_update by apply wf_nil. simpl dget.
  rewrite (g_inds _ _ _ _ ui H1).
  assert (N2 : items_of ui (td_inds td2) <> []).
  { intros E. apply (g_inds _ _ _ _ ui H2) in E. apply BU2 in Hu. congruence. }
  destruct (items_of ui (td_inds td1)) as [|j1 is1] eqn:E1.
  - split; auto.
  - destruct (items_of ui (td_inds td2)) as [|j2 is2] eqn:E2; [congruence|].
    set (A := j1 :: is1) in *. set (B := j2 :: is2) in *. simpl.
    transitivity (lastn L (lastn L (repeat PAD_VALUE L ++ A) ++ B) = lastn L (repeat PAD_VALUE L ++ B)).
    { split; [intros H; injection H; auto|intros ->; auto]. }
    assert (NA : lastn L (repeat PAD_VALUE L ++ A) <> []).
    { intros E0. apply (f_equal (@length Z)) in E0. rewrite lastn_length, app_length, repeat_length in E0.
      simpl in E0. lia. }
    rewrite (lastn_eq_iff L (length B) _ B (last A PAD_VALUE)); auto.
    + split; auto. intros [H|H]; auto. discriminate.
    + rewrite lastn_length, app_length, repeat_length. lia.
    + destruct (lastn_suffix L (repeat PAD_VALUE L ++ A)) as [pre Hp].
      rewrite <- (last_app_ne pre _ _ NA), <- Hp. apply last_app_ne. discriminate.
    + eapply nonpad_items; [exact H1|]. rewrite E1. apply last_in. discriminate.
Qed.

(** * Pairing of coordinates and values (C26) *)

Lemma own_initial ms data initial :
  Forall2 (prow_rel ms) data initial ->
  own_entries ms data (map (fun p => (triple_of p, r_rel (p_row p))) initial).
Proof.
  unfold own_entries. induction 1 as [|p q l l' [[Hu [_ [Hi [_ [_ Hr]]]]] Hp] F IH]; simpl; constructor; auto.
Qed.

Lemma own_unique ms data own own' : own_entries ms data own -> own_entries ms data own' -> own = own'.
Proof.
  unfold own_entries. intros H. revert own'.
  induction H as [|p e data own [Hu [Hi [Hp Hr]]] F IH]; intros own' H'.
  - inversion H'; auto.
  - inversion H' as [|p' e' data' own'' [Hu' [Hi' [Hp' Hr']]] F']; subst.
    f_equal; [|apply IH; auto].
    destruct e as [[[a b] c] v], e' as [[[a' b'] c'] v']. unfold t_user, t_item, t_pos in *. simpl in *.
    congruence.
Qed.

Lemma combine_fst_snd {A B} (l : list (A * B)) : combine (map fst l) (map snd l) = l.
Proof. induction l as [|[a b] l IH]; simpl; f_equal; auto. Qed.

Lemma prepare_own data seq L td own :
  tdrec_prepare data seq L = Ok td -> own_entries (td_mappings td) data own ->
  td_inds td = sort_stable user_pos_leb (map fst own) /\ td_vals td = map snd own.
Proof.
  intros H O. destruct (prepare_rel _ _ _ _ H) as [initial [F [_ [_ [E1 [E2 _]]]]]].
  rewrite (own_unique _ _ _ _ O (own_initial _ _ _ F)), !map_map. simpl. auto.
Qed.

Lemma user_pos_leb_le a b : user_pos_leb a b = true <-> user_pos_le a b.
Proof.
  unfold user_pos_leb, user_pos_le.
  rewrite orb_true_iff, andb_true_iff, Z.ltb_lt, Z.eqb_eq, Z.leb_le. reflexivity.
Qed.

Lemma StronglySorted_impl {A} (P Q : A -> A -> Prop) l :
  (forall a b, P a b -> Q a b) -> StronglySorted P l -> StronglySorted Q l.
Proof.
  intros H. induction 1 as [|a l S IH F]; constructor; auto.
  eapply Forall_impl; [|exact F]. auto.
Qed.

Lemma pairing_sorted_main data seq L td own :
  tdrec_prepare data seq L = Ok td -> own_entries (td_mappings td) data own ->
  StronglySorted user_pos_le (map fst own) ->
  combine (td_inds td) (td_vals td) = own.
Proof.
  intros H O S. destruct (prepare_own _ _ _ _ _ H O) as [-> ->].
  rewrite sort_stable_id; [apply combine_fst_snd|].
  eapply StronglySorted_impl; [|exact S]. intros a b. apply user_pos_leb_le.
Qed.

Lemma combine_const {A} (l : list A) (vs : list Z) r :
  length l = length vs -> (forall v, In v vs -> v = r) -> combine l vs = map (fun x => (x, r)) l.
Proof.
  revert vs. induction l as [|a l IH]; intros [|v vs] HL H; simpl in *; try discriminate; auto.
  rewrite (H v) by auto. f_equal. apply IH; auto.
Qed.

Lemma pairing_constant_main data seq L td own r :
  tdrec_prepare data seq L = Ok td -> own_entries (td_mappings td) data own ->
  (forall p, In p data -> r_rel (p_row p) = r) ->
  Permutation (combine (td_inds td) (td_vals td)) own.
Proof.
  intros H O HR. destruct (prepare_own _ _ _ _ _ H O) as [-> ->].
  assert (HV : forall v, In v (map snd own) -> v = r).
  { intros v Hv. apply in_map_iff in Hv as [e [<- He]].
    clear - O HR He. unfold own_entries in O.
    induction O as [|p e' data own [_ [_ [_ Hr]]] F IH]; [destruct He|].
    destruct He as [->|He]; [rewrite Hr; apply HR; left; auto|].
    apply IH; auto. intros; apply HR; right; auto. }
  rewrite (combine_const _ _ r); auto.
  - rewrite <- (combine_fst_snd own) at 2. rewrite (combine_const (map fst own) _ r); auto.
    + apply Permutation_map. symmetry. apply sort_stable_perm.
    + rewrite !map_length. reflexivity.
  - rewrite <- (Permutation_length (sort_stable_perm user_pos_leb (map fst own))), !map_length. reflexivity.
Qed.

Lemma triple_eqb_spec (a b : triple) :
  (t_user a =? t_user b) && (t_item a =? t_item b) && (t_pos a =? t_pos b) = true <-> a = b.
Proof.
  destruct a as [[a1 a2] a3], b as [[b1 b2] b3]. unfold t_user, t_item, t_pos. simpl.
  rewrite !andb_true_iff, !Z.eqb_eq. split; [intros [[-> ->] ->]; auto|].
  intros E; injection E; auto.
Qed.

Lemma cell_notin c es : ~ In c (map fst es) -> cell c es = 0.
Proof.
  induction es as [|[c' v] es IH]; intros N; simpl in *; auto.
  rewrite IH by tauto.
  destruct ((t_user c =? t_user c') && _ && _) eqn:E; auto.
  apply triple_eqb_spec in E. subst. tauto.
Qed.

Lemma cell_in c v es : NoDup (map fst es) -> In (c, v) es -> cell c es = v.
Proof.
  induction es as [|[c' v'] es IH]; intros ND Hin; [destruct Hin|].
  simpl in ND. inversion ND as [|x l Hx HN]; subst. simpl. destruct Hin as [E|Hin].
  - injection E as -> ->. rewrite (proj2 (triple_eqb_spec c c) eq_refl).
    rewrite cell_notin by auto. lia.
  - rewrite IH; auto.
    destruct ((t_user c =? t_user c') && _ && _) eqn:E; auto.
    apply triple_eqb_spec in E. subst. exfalso. apply Hx. apply (in_map fst) in Hin. exact Hin.
Qed.

Lemma cell_perm c es es' : Permutation es es' -> cell c es = cell c es'.
Proof.
  induction 1 as [|[c' v] l l' P IH|[a v] [b w] l|l l' l'' P1 IH1 P2 IH2]; simpl; auto; try lia.
Qed.

Lemma pairing_iff_main data seq L td own srt :
  tdrec_prepare data seq L = Ok td -> own_entries (td_mappings td) data own ->
  NoDup (map fst own) -> Permutation own srt -> map fst srt = td_inds td ->
  ((forall c, cell c (combine (td_inds td) (td_vals td)) = cell c own) <-> map snd srt = map snd own).
Proof.
  intros H O ND P ES. destruct (prepare_own _ _ _ _ _ H O) as [_ EV].
  rewrite EV, <- ES.
  assert (NDs : NoDup (map fst srt)) by (eapply Permutation_NoDup; [apply Permutation_map, P|auto]).
  assert (LEN : length srt = length (map snd own)) by (rewrite map_length; symmetry; apply Permutation_length; auto).
  split.
  - intros HC.
    assert (HC' : forall c, cell c (combine (map fst srt) (map snd own)) = cell c srt).
    { intros c. rewrite HC. apply cell_perm; auto. }
    clear - NDs LEN HC'. revert LEN HC'. generalize (map snd own) as vs.
    induction srt as [|[c v] srt IH]; intros [|w vs] LEN HC; simpl in *; try discriminate; auto.
    inversion NDs as [|x l Hx HN]; subst.
    assert (NI : ~ In c (map fst (combine (map fst srt) vs))).
    { intros Hin. apply Hx. clear - Hin. revert vs Hin. induction (map fst srt) as [|a l IHl]; intros vs Hin; [destruct Hin|].
      destruct vs; [destruct Hin|]. destruct Hin as [<-|Hin]; [left; auto|right; eapply IHl; eauto]. }
    f_equal.
    + specialize (HC c). rewrite !(cell_notin c) in HC by auto.
      rewrite (proj2 (triple_eqb_spec c c) eq_refl) in HC. lia.
    + apply IH; auto. intros c'. specialize (HC c').
      destruct ((t_user c' =? t_user c) && _ && _) eqn:E; [|lia].
      apply triple_eqb_spec in E. subst. rewrite !cell_notin by auto. reflexivity.
  - intros <- c. rewrite combine_fst_snd. symmetry. apply cell_perm; auto.
Qed.

(** ** Cropped tables are sorted *)

Lemma nth_error_zrange_lt n k x : nth_error (zrange n) k = Some x -> x = Z.of_nat k.
Proof.
  unfold zrange. intros H. rewrite nth_error_map in H.
  destruct (nth_error (seq 0 n) k) eqn:E; [|discriminate]. injection H as <-.
  assert (k < n)%nat by (rewrite <- (seq_length n 0); apply nth_error_Some; congruence).
  rewrite (nth_error_nth' _ 0%nat) in E by (rewrite seq_length; auto). rewrite seq_nth in E by auto.
  injection E as <-. reflexivity.
Qed.

Definition ext_le (p q : prow) : Prop :=
  r_user (p_row p) < r_user (p_row q)
  \/ (r_user (p_row p) = r_user (p_row q) /\ p_pos p <= p_pos q).

Lemma combine_zrange_sorted (x : list row) : forall n (s : Z),
  StronglySorted (fun p q : prow => p_pos p <= p_pos q)
    (combine x (map (fun k => s + Z.of_nat k) (seq n (length x)))).
Proof.
  induction x as [|r x IH]; intros n s; simpl; constructor; auto.
  apply Forall_forall. intros [r' p] H. apply in_combine_r in H.
  apply in_map_iff in H as [k [<- Hk]]. apply in_seq in Hk. unfold p_pos; simpl. lia.
Qed.

Lemma ext_sorted (out : list prow) :
  StronglySorted Z.le (map (fun p => r_user (p_row p)) out) ->
  (forall u, StronglySorted (fun p q => p_pos p <= p_pos q) (prows_of u out)) ->
  StronglySorted ext_le out.
Proof.
  induction out as [|p out IH]; intros S P; constructor.
  - apply IH; [inversion S; auto|]. intros u. specialize (P u). unfold prows_of in *. simpl in P.
    destruct (r_user (p_row p) =? u); [inversion P|]; auto.
  - simpl in S. inversion S as [|a l _ F]; subst.
    specialize (P (r_user (p_row p))). unfold prows_of in P. simpl in P. rewrite Z.eqb_refl in P.
    inversion P as [|a l _ FP]; subst. rewrite Forall_forall in *.
    intros q Hq. unfold ext_le.
    assert (H : r_user (p_row p) <= r_user (p_row q)).
    { apply F. apply (in_map (fun p => r_user (p_row p))); auto. }
    destruct (Z.eq_dec (r_user (p_row p)) (r_user (p_row q))) as [E|E]; [|lia].
    right. split; auto. apply FP. apply filter_In. split; auto. apply Z.eqb_eq; auto.
Qed.

Lemma crop_ext_sorted df L s out :
  get_df_with_cropped_pos_column df L s = Ok out -> StronglySorted ext_le out.
Proof.
  intros H. destruct (crop_ok_hyps _ _ _ _ H) as [HL HN].
  destruct (crop_main df L s HL HN) as [out' [E [S P]]].
  rewrite H in E. injection E as <-. apply ext_sorted; auto.
  intros u. destruct (P u) as [x [_ E]]. unfold prows_of. rewrite E.
  replace (Nat.min (length x) L) with (length (lastn L x)) by (rewrite lastn_length; lia).
  apply (combine_zrange_sorted _ 0 0).
Qed.

Lemma unique_sorted l : StronglySorted Z.le l -> StronglySorted Z.lt (unique l).
Proof.
  induction 1 as [|x l S IH F]; simpl; constructor.
  - clear - IH. induction IH as [|y m S' IH F]; simpl; [constructor|].
    destruct (negb (y =? x)); auto. constructor; auto.
    apply Forall_forall. intros z Hz. apply filter_In in Hz as [Hz _].
    rewrite Forall_forall in F. auto.
  - apply Forall_forall. intros y Hy. apply filter_In in Hy as [Hy N].
    apply (proj1 (unique_In _ _)) in Hy. rewrite Forall_forall in F. specialize (F y Hy).
    apply negb_true_iff, Z.eqb_neq in N. lia.
Qed.

Lemma sorted_nth_lt (l : list Z) i j a b :
  StronglySorted Z.lt l -> nth_error l i = Some a -> nth_error l j = Some b -> a < b -> (i < j)%nat.
Proof.
  intros S. revert i j. induction S as [|x l S IH F]; intros i j Hi Hj H; [destruct i; discriminate|].
  rewrite Forall_forall in F.
  destruct i as [|i], j as [|j]; simpl in *.
  - injection Hi as <-. injection Hj as <-. lia.
  - lia.
  - injection Hj as <-. apply nth_error_In in Hi. apply F in Hi. lia.
  - apply (proj1 (Nat.succ_lt_mono i j)). eapply IH; eauto.
Qed.

Lemma Forall2_StronglySorted {A B} (R : A -> B -> Prop) (P : A -> A -> Prop) (Q : B -> B -> Prop) l l' :
  (forall a b a' b', R a b -> R a' b' -> P a a' -> Q b b') ->
  Forall2 R l l' -> StronglySorted P l -> StronglySorted Q l'.
Proof.
  intros H F. induction F as [|a b l l' Rab F IH]; intros S; constructor.
  - apply IH. inversion S; auto.
  - inversion S as [|x y _ FP]; subst. rewrite Forall_forall in FP. apply Forall_forall.
    intros b' Hb'.
    assert (E : exists a', In a' l /\ R a' b').
    { clear - F Hb'. induction F as [|x y l l' HR F IH]; [destruct Hb'|].
      destruct Hb' as [->|Hb']; [exists x; split; [left|]; auto|].
      destruct (IH Hb') as [a' [H1 H2]]. exists a'. split; [right|]; auto. }
    destruct E as [a' [H1 H2]]. eauto.
Qed.

Lemma user_index_mono df df' ms a b x y :
  get_df_with_updated_indices df = Ok (df', ms) ->
  StronglySorted Z.le (map r_user df) ->
  f_of (m_users ms) a = Some x -> f_of (m_users ms) b = Some y -> a < b -> x < y.
Proof.
  intros E S Ha Hb H. destruct (reindex_maps _ _ _ E) as [U _]. rewrite U in Ha, Hb.
  apply f_get in Ha as [H0 Ha]; [|apply unique_NoDup].
  apply f_get in Hb as [H1 Hb]; [|apply unique_NoDup].
  apply unique_sorted in S. pose proof (sorted_nth_lt _ _ _ _ _ S Ha Hb H). lia.
Qed.

Lemma ext_users_sorted out : StronglySorted ext_le out -> StronglySorted Z.le (map r_user (map p_row out)).
Proof.
  induction 1 as [|p out S IH F]; simpl; constructor; auto.
  rewrite Forall_forall in *. intros u Hu. rewrite map_map in Hu. apply in_map_iff in Hu as [q [<- Hq]].
  destruct (F q Hq); lia.
Qed.

Lemma crop_own_sorted df L s out seq td own :
  get_df_with_cropped_pos_column df L s = Ok out ->
  tdrec_prepare out seq L = Ok td -> own_entries (td_mappings td) out own ->
  StronglySorted user_pos_le (map fst own).
Proof.
  intros HC H O. pose proof (crop_ext_sorted _ _ _ _ HC) as S.
  destruct (prepare_initial _ _ _ _ H) as [initial [EU _]].
  pose proof (ext_users_sorted _ S) as SU.
  assert (O' : Forall2 (fun p t => f_of (m_users (td_mappings td)) (r_user (p_row p)) = Some (t_user t)
                                  /\ t_pos t = p_pos p) out (map fst own)).
  { clear - O. induction O as [|p e out own [H1 [_ [H2 _]]] O IH]; simpl; constructor; auto. }
  eapply Forall2_StronglySorted; [|exact O'|exact S].
  intros p t p' t' [H1 H2] [H1' H2'] [LT|[E LE]].
  - left. eapply user_index_mono; eauto.
  - right. rewrite E in H1. split; congruence.
Qed.

Lemma pairing_crop_main df L s out seq td own :
  get_df_with_cropped_pos_column df L s = Ok out ->
  tdrec_prepare out seq L = Ok td -> own_entries (td_mappings td) out own ->
  combine (td_inds td) (td_vals td) = own.
Proof.
  intros HC H O. eapply pairing_sorted_main; eauto. eapply crop_own_sorted; eauto.
Qed.

(** Every prepared table has own entries. *)
Lemma own_exists data seq L td :
  tdrec_prepare data seq L = Ok td -> exists own, own_entries (td_mappings td) data own.
Proof.
  intros H. destruct (prepare_rel _ _ _ _ H) as [initial [F _]].
  eexists. apply own_initial; eauto.
Qed.
