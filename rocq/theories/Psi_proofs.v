(** Lemmas about the SVD/PSI bookkeeping. *)
From Coq Require Import ZArith List Bool Lia Permutation.
From Verif Require Import Prelude Prelude_proofs DataPrep_model DataPrep_spec DataPrep_proofs DataPrep_main.
From Verif Require Import Recommend_model Recommend_spec Psi_model Psi_spec.
Import ListNotations.
Open Scope Z_scope.

Lemma bij_known_or m k : bij m 0 -> get_or_pad (old2new m) k =? -1 = match f_of m k with Some _ => false | None => true end.
Proof.
  intros B. unfold get_or_pad. fold (f_of m k). destruct (f_of m k) as [v|] eqn:E; [|reflexivity].
  apply (bij_f_nonneg m k v B) in E. apply Z.eqb_neq. lia.
Qed.

Section Lookup.
  Context {R : Type} (key : R -> Z).

  Lemma known_lookup m (data : list R) :
    bij m 0 -> (forall r, In r data -> f_of m (key r) <> None) ->
    exists vs, mapM (fun r => getitem (old2new m) (key r)) data = Ok vs
      /\ Forall2 (fun r v => f_of m (key r) = Some v /\ 0 <= v < n_indices m) data vs.
  Proof.
    intros B. induction data as [|r data IH]; intros H; simpl.
    - exists []; auto.
    - destruct IH as [vs [E F]]; [intros; apply H; right; auto|].
      pose proof (H r (or_introl eq_refl)) as Hr.
      destruct (f_of m (key r)) as [v|] eqn:Ev; [|congruence].
      exists (v :: vs). unfold getitem at 1. unfold f_of in Ev. rewrite Ev. cbn [bind].
      rewrite E. cbn [bind]. split; auto. constructor; auto. split; auto.
      eapply bij_f_nonneg; eauto.
  Qed.

  Lemma unique_pos vals x : In x vals ->
    exists c, nth_error (unique vals) c = Some x /\ (c < length (unique vals))%nat.
  Proof.
    intros H. apply unique_In in H. apply In_nth_error in H as [c Hc]. exists c. split; auto.
    eapply nth_error_range; eauto.
  Qed.

  Lemma local_lookup m (data : list R) vals :
    (forall r, In r data -> In (key r) vals) ->
    exists cs, mapM (fun r => getitem (old2new (get_cont_mapping_struct (unique vals) 0)) (key r)) data = Ok cs
      /\ Forall2 (fun r c => 0 <= c < Z.of_nat (length (unique vals))
            /\ f_of (update_cont_mapping_struct m (unique vals)) (key r) = Some (n_indices m + c)) data cs.
  Proof.
    induction data as [|r data IH]; intros H; cbn [mapM].
    - exists []; auto.
    - destruct IH as [cs [E F]]; [intros; apply H; right; auto|].
      destruct (unique_pos vals (key r) (H r (or_introl eq_refl))) as [c [Hc Lc]].
      exists (Z.of_nat c :: cs).
      assert (G : f_of (get_cont_mapping_struct (unique vals) 0) (key r) = Some (Z.of_nat c)).
      { apply f_get; [apply unique_NoDup|]. split; [lia|]. rewrite <- Hc. f_equal. lia. }
      unfold getitem at 1. unfold f_of in G. rewrite G. cbn [bind]. rewrite E. cbn [bind]. split; auto. constructor; auto. split; [lia|].
      apply f_update_new; auto. apply unique_NoDup.
  Qed.
End Lookup.

Lemma dlen_local vals : dlen (old2new (get_cont_mapping_struct (unique vals) 0)) = Z.of_nat (length (unique vals)).
Proof.
  unfold dlen. rewrite old2new_get_nodup by apply unique_NoDup.
  rewrite map_length, enumerate_length. reflexivity.
Qed.

Lemma Forall2_combine3 {X} (P : X -> Z -> Prop) (Q : X -> Z -> Prop) (h : X -> Z) (W : X -> Z * Z * Z -> Prop)
      data rs cs :
  (forall x r c, P x r -> Q x c -> W x (r, c, h x)) ->
  Forall2 P data rs -> Forall2 Q data cs ->
  Forall2 W data (combine (combine rs cs) (map h data)).
Proof.
  intros HW F. revert cs. induction F as [|x r data rs Hr F IH]; intros cs G; inversion G; subst; simpl; auto.
Qed.

Lemma Forall2_forallb_r {X} (P : X -> Z -> Prop) (b : Z -> bool) data rs :
  (forall x r, P x r -> b r = true) -> Forall2 P data rs -> forallb b rs = true.
Proof. intros H. induction 1; simpl; auto. apply andb_true_iff; split; eauto. Qed.

Lemma mk_mapped_ok {X} (P Q : X -> Z -> Prop) (data : list X) rs cs vals nr nc :
  (forall x r, P x r -> 0 <= r < nr) -> (forall x c, Q x c -> 0 <= c < nc) ->
  Forall2 P data rs -> Forall2 Q data cs ->
  mk_mapped vals rs cs nr nc = Ok (mkCoo nr nc (combine (combine rs cs) vals)).
Proof.
  intros HP HQ F G. unfold mk_mapped.
  rewrite (Forall2_forallb_r P _ data rs), (Forall2_forallb_r Q _ data cs); auto.
  - intros x c Hc. apply HQ in Hc. rewrite andb_true_iff, Z.leb_le, Z.ltb_lt. lia.
  - intros x c Hc. apply HP in Hc. rewrite andb_true_iff, Z.leb_le, Z.ltb_lt. lia.
Qed.

Definition ext_users (md : mode) : bool := match md with MNew | MNewUsers => true | _ => false end.
Definition ext_items (md : mode) : bool := match md with MNew | MNewItems => true | _ => false end.

Definition maps_after (ms : mappings) (md : mode) (data : list row) : mappings :=
  mkMappings
    (if ext_users md then update_cont_mapping_struct (m_users ms) (unique (map r_user data)) else m_users ms)
    (if ext_items md then update_cont_mapping_struct (m_items ms) (unique (map r_item data)) else m_items ms).

Definition core (st : psi_state) : Prop :=
  bij (m_users (ps_maps st)) 0 /\ bij (m_items (ps_maps st)) 0
  /\ ps_n_users st = n_indices (m_users (ps_maps st))
  /\ ps_n_items st = n_indices (m_items (ps_maps st)).

Definition count_u (data : list row) : Z := Z.of_nat (length (unique (map r_user data))).
Definition count_i (data : list row) : Z := Z.of_nat (length (unique (map r_item data))).

Definition da_shape (st : psi_state) (md : mode) (data : list row) : Z * Z :=
  match md with
  | MNewUsers => (ps_n_items st, count_u data)
  | MNewItems => (ps_n_users st, count_i data)
  | MOld => (ps_n_users st, ps_n_items st)
  | MNew => (count_u data, count_i data)
  end.

Definition lands (ms : mappings) (s : step_log) : Prop :=
  Forall2 (fun (r : row) (e : Z * Z * Z) =>
      exists u i, f_of (m_users ms) (r_user r) = Some u /\ f_of (m_items ms) (r_item r) = Some i
        /\ landing s (fst (fst e)) (snd (fst e)) = (u, i) /\ snd e = r_rel r)
    (sl_data s) (da_entries (sl_da s)).

Lemma process_data_ok st data md :
  core st -> (forall r, In r data -> admissible (ps_maps st) md r) ->
  exists da, process_data st data md = Ok (maps_after (ps_maps st) md data, da)
    /\ (da_rows da, da_cols da) = da_shape st md data
    /\ lands (maps_after (ps_maps st) md data) (mkStep md (ps_n_users st) (ps_n_items st) data da).
Proof.
  intros [BU [BI [EU EI]]] HA.
  assert (IU : forall r, In r data -> In (r_user r) (map r_user data)) by (intros; apply in_map; auto).
  assert (II : forall r, In r data -> In (r_item r) (map r_item data)) by (intros; apply in_map; auto).
  assert (AL : forall r, In r data -> admissible (ps_maps st) md r) by auto.
  unfold admissible in HA. unfold process_data, add_new_entities, lands, maps_after, da_shape, landing.
  destruct md; cbn [ext_users ext_items m_users m_items sl_mode sl_users sl_items sl_data sl_da].
  - (* MNew *)
    destruct (local_lookup r_user (m_users (ps_maps st)) data _ IU) as [rs [E1 F1]].
    destruct (local_lookup r_item (m_items (ps_maps st)) data _ II) as [cs [E2 F2]].
    rewrite E1. cbn [bind]. rewrite E2. cbn [bind]. rewrite !dlen_local.
    rewrite (mk_mapped_ok _ _ data rs cs _ _ _ (fun x r H => proj1 H) (fun x r H => proj1 H) F1 F2).
    cbn [bind]. eexists. split; [reflexivity|]. split; [reflexivity|]. cbn [da_entries].
    eapply Forall2_combine3; [|exact F1|exact F2]. intros x r c [_ H1] [_ H2].
    exists (n_indices (m_users (ps_maps st)) + r), (n_indices (m_items (ps_maps st)) + c).
    split; [auto|]. split; [auto|]. split; [|auto]. rewrite EU, EI. reflexivity.
  - (* MNewUsers *)
    destruct (local_lookup r_user (m_users (ps_maps st)) data _ IU) as [cs [E1 F1]].
    destruct (known_lookup r_item (m_items (ps_maps st)) data BI) as [rs [E2 F2]].
    { intros r Hr. apply HA in Hr. tauto. }
    rewrite E2. cbn [bind]. rewrite E1. cbn [bind]. rewrite !dlen_local. rewrite EI.
    rewrite (mk_mapped_ok _ _ data rs cs _ _ _ (fun x r H => proj2 H) (fun x r H => proj1 H) F2 F1).
    cbn [bind]. eexists. split; [reflexivity|]. split; [reflexivity|]. cbn [da_entries].
    eapply Forall2_combine3; [|exact F2|exact F1]. intros x r c [H2 _] [_ H1].
    exists (n_indices (m_users (ps_maps st)) + c), r.
    split; [auto|]. split; [auto|]. split; [|auto]. rewrite EU. reflexivity.
  - (* MNewItems *)
    destruct (local_lookup r_item (m_items (ps_maps st)) data _ II) as [cs [E1 F1]].
    destruct (known_lookup r_user (m_users (ps_maps st)) data BU) as [rs [E2 F2]].
    { intros r Hr. apply HA in Hr. tauto. }
    rewrite E2. cbn [bind]. rewrite E1. cbn [bind]. rewrite !dlen_local. rewrite EU.
    rewrite (mk_mapped_ok _ _ data rs cs _ _ _ (fun x r H => proj2 H) (fun x r H => proj1 H) F2 F1).
    cbn [bind]. eexists. split; [reflexivity|]. split; [reflexivity|]. cbn [da_entries].
    eapply Forall2_combine3; [|exact F2|exact F1]. intros x r c [H2 _] [_ H1].
    exists r, (n_indices (m_items (ps_maps st)) + c).
    split; [auto|]. split; [auto|]. split; [|auto]. rewrite EI. reflexivity.
  - (* MOld *)
    destruct (known_lookup r_user (m_users (ps_maps st)) data BU) as [rs [E1 F1]].
    { intros r Hr. apply HA in Hr. tauto. }
    destruct (known_lookup r_item (m_items (ps_maps st)) data BI) as [cs [E2 F2]].
    { intros r Hr. apply HA in Hr. tauto. }
    rewrite E1. cbn [bind]. rewrite E2. cbn [bind]. rewrite EU, EI.
    rewrite (mk_mapped_ok _ _ data rs cs _ _ _ (fun x r H => proj2 H) (fun x r H => proj2 H) F1 F2).
    cbn [bind]. exists (mkCoo (n_indices (m_users (ps_maps st))) (n_indices (m_items (ps_maps st)))
        (combine (combine rs cs) (map r_rel data))).
    split; [destruct (ps_maps st); reflexivity|]. split; [reflexivity|]. cbn [da_entries].
    eapply Forall2_combine3; [|exact F1|exact F2]. intros x r c [H1 _] [H2 _].
    exists r, c. auto.
Qed.

(** Facts about [maps_after]. *)
Definition extends (ms ms' : mappings) : Prop :=
  (forall k v, f_of (m_users ms) k = Some v -> f_of (m_users ms') k = Some v)
  /\ (forall k v, f_of (m_items ms) k = Some v -> f_of (m_items ms') k = Some v).

Lemma extends_refl ms : extends ms ms.
Proof. split; auto. Qed.

Lemma extends_trans a b c : extends a b -> extends b c -> extends a c.
Proof. intros [H1 H2] [H3 H4]. split; intros; auto. Qed.

Lemma lands_extends ms ms' s : extends ms ms' -> lands ms s -> lands ms' s.
Proof.
  intros [HU HI] H. unfold lands in *. eapply Forall2_impl; [|exact H].
  intros r e [u [i [H1 [H2 [H3 H4]]]]]. exists u, i. auto.
Qed.

Section After.
  Variables (ms : mappings) (md : mode) (data : list row).
  Hypothesis BU : bij (m_users ms) 0.
  Hypothesis BI : bij (m_items ms) 0.
  Hypothesis HA : forall r, In r data -> admissible ms md r.

  Lemma fresh_users : ext_users md = true ->
    forall x, In x (unique (map r_user data)) -> f_of (m_users ms) x = None.
  Proof.
    intros E x Hx. apply (proj1 (unique_In _ _)) in Hx. apply in_map_iff in Hx as [r [<- Hr]].
    apply HA in Hr. unfold admissible in Hr. destruct md; try discriminate; tauto.
  Qed.
  Lemma fresh_items : ext_items md = true ->
    forall x, In x (unique (map r_item data)) -> f_of (m_items ms) x = None.
  Proof.
    intros E x Hx. apply (proj1 (unique_In _ _)) in Hx. apply in_map_iff in Hx as [r [<- Hr]].
    apply HA in Hr. unfold admissible in Hr. destruct md; try discriminate; tauto.
  Qed.

  Lemma after_bij_u : bij (m_users (maps_after ms md data)) 0.
  Proof.
    unfold maps_after; cbn. destruct (ext_users md) eqn:E; auto.
    apply update_bij_iff; auto. split; [apply unique_NoDup|]. apply fresh_users; auto.
  Qed.
  Lemma after_bij_i : bij (m_items (maps_after ms md data)) 0.
  Proof.
    unfold maps_after; cbn. destruct (ext_items md) eqn:E; auto.
    apply update_bij_iff; auto. split; [apply unique_NoDup|]. apply fresh_items; auto.
  Qed.
  Lemma after_extends : extends ms (maps_after ms md data).
  Proof.
    unfold maps_after; split; cbn; intros k v H.
    - destruct (ext_users md) eqn:E; auto. apply update_keeps; auto. apply fresh_users; auto.
    - destruct (ext_items md) eqn:E; auto. apply update_keeps; auto. apply fresh_items; auto.
  Qed.
  Lemma after_n_u : n_indices (m_users (maps_after ms md data))
    = n_indices (m_users ms) + if ext_users md then count_u data else 0.
  Proof. unfold maps_after; cbn. destruct (ext_users md); [apply n_update|lia]. Qed.
  Lemma after_n_i : n_indices (m_items (maps_after ms md data))
    = n_indices (m_items ms) + if ext_items md then count_i data else 0.
  Proof. unfold maps_after; cbn. destruct (ext_items md); [apply n_update|lia]. Qed.

  Lemma update_known m vals k :
    f_of (update_cont_mapping_struct m (unique vals)) k <> None
    <-> f_of m k <> None \/ In k vals.
  Proof.
    destruct (in_dec Z.eq_dec k vals) as [Hin|Hin].
    - split; auto. intros _. destruct (unique_pos vals k Hin) as [c [Hc _]].
      rewrite (f_update_new m (unique vals) c k); [discriminate|apply unique_NoDup|auto].
    - rewrite f_update_old by (rewrite unique_In; auto). tauto.
  Qed.
End After.

Lemma after_known_u ms md data k :
  f_of (m_users (maps_after ms md data)) k <> None
  <-> f_of (m_users ms) k <> None \/ (ext_users md = true /\ In k (map r_user data)).
Proof.
  unfold maps_after; cbn. destruct (ext_users md).
  - rewrite update_known. tauto.
  - intuition congruence.
Qed.
Lemma after_known_i ms md data k :
  f_of (m_items (maps_after ms md data)) k <> None
  <-> f_of (m_items ms) k <> None \/ (ext_items md = true /\ In k (map r_item data)).
Proof.
  unfold maps_after; cbn. destruct (ext_items md).
  - rewrite update_known. tauto.
  - intuition congruence.
Qed.

(** [update_factors_by_mode] on admissible rows. *)
Definition fits (cfg : psi_cfg) (st : psi_state) (md : mode) (data : list row) : bool :=
  match cf_init cfg, md with
  | INone, MNewUsers => count_u data <=? ps_n_items st
  | INone, MNewItems => count_i data <=? ps_n_users st
  | _, _ => true
  end.

Definition logged (md : mode) (data : list row) : list (mode * list row) :=
  match data with [] => [] | _ => [(md, data)] end.

Definition log_view (l : list step_log) : list (mode * list row) :=
  map (fun s => (sl_mode s, sl_data s)) l.

(** Relation between the state before and after a step. *)
Definition step_rel (st st' : psi_state) (md : mode) (data : list row) : Prop :=
  ps_maps st' = maps_after (ps_maps st) md data
  /\ ps_history st' = ps_history st
  /\ (ps_n_users st', ps_n_items st')
     = (ps_n_users st + (if ext_users md then count_u data else 0),
        ps_n_items st + (if ext_items md then count_i data else 0))
  /\ exists l, ps_log st' = ps_log st ++ l /\ log_view l = logged md data
       /\ Forall (lands (ps_maps st')) l.

Lemma maps_after_nil ms md : maps_after ms md [] = ms.
Proof.
  assert (H : forall m, update_cont_mapping_struct m [] = m).
  { intros [a b c]. unfold update_cont_mapping_struct. cbn. rewrite Z.add_0_r. reflexivity. }
  unfold maps_after. cbn [map unique]. rewrite !H. destruct ms, md; reflexivity.
Qed.

Lemma update_mode_ok cfg st data md :
  core st -> (forall r, In r data -> admissible (ps_maps st) md r) ->
  if fits cfg st md data
  then exists st', update_factors_by_mode cfg st data md = Ok st' /\ step_rel st st' md data
  else update_factors_by_mode cfg st data md = Err ValueError.
Proof.
  intros C HA. destruct data as [|r0 data0].
  - assert (F : fits cfg st md [] = true).
    { destruct C as [[PU _] [[PI _] [EU EI]]]. unfold fits, count_u, count_i. cbn.
      destruct (cf_init cfg), md; auto; apply Z.leb_le; lia. }
    rewrite F. exists st. split; [reflexivity|]. unfold step_rel. rewrite maps_after_nil.
    split; auto. split; auto. split.
    + unfold count_u, count_i; cbn. destruct (ext_users md), (ext_items md); f_equal; lia.
    + exists []. rewrite app_nil_r. auto.
  - remember (r0 :: data0) as data eqn:Ed.
    destruct (process_data_ok st data md C HA) as [da [EP [SH L]]].
    assert (EQ : update_factors_by_mode cfg st data md =
              do '(nu, ni) <- updater cfg md da (ps_n_users st) (ps_n_items st);
              Ok (mkPsi (maps_after (ps_maps st) md data) nu ni (ps_history st)
                    (ps_log st ++ [mkStep md (ps_n_users st) (ps_n_items st) data da]))).
    { unfold update_factors_by_mode. rewrite EP. rewrite Ed. reflexivity. }
    rewrite EQ. unfold fits, updater, brand_fits.
    assert (LG : logged md data = [(md, data)]) by (rewrite Ed; reflexivity).
    destruct md; cbn [da_shape] in SH; injection SH as S1 S2; rewrite ?S1, ?S2.
    + destruct (cf_init cfg); cbn [bind]; eexists; (split; [reflexivity|]);
        unfold step_rel; cbn [ps_maps ps_history ps_n_users ps_n_items ps_log ext_users ext_items];
        (split; [auto|]; split; [auto|]; split; [auto|]); eexists; (split; [reflexivity|]);
        split; auto.
    + destruct (cf_init cfg); [destruct (count_u data <=? ps_n_items st); [|reflexivity]| |];
        cbn [bind]; eexists; (split; [reflexivity|]);
        unfold step_rel; cbn [ps_maps ps_history ps_n_users ps_n_items ps_log ext_users ext_items];
        (split; [auto|]; split; [auto|]; split; [f_equal; lia|]); eexists; (split; [reflexivity|]);
        split; auto.
    + destruct (cf_init cfg); [destruct (count_i data <=? ps_n_users st); [|reflexivity]| |];
        cbn [bind]; eexists; (split; [reflexivity|]);
        unfold step_rel; cbn [ps_maps ps_history ps_n_users ps_n_items ps_log ext_users ext_items];
        (split; [auto|]; split; [auto|]; split; [f_equal; lia|]); eexists; (split; [reflexivity|]);
        split; auto.
    + destruct (cf_init cfg); cbn [bind]; eexists; (split; [reflexivity|]);
        unfold step_rel; cbn [ps_maps ps_history ps_n_users ps_n_items ps_log ext_users ext_items];
        (split; [auto|]; split; [auto|]; split; [f_equal; lia|]); eexists; (split; [reflexivity|]);
        split; auto.
Qed.

Lemma step_rel_core st st' md data :
  core st -> (forall r, In r data -> admissible (ps_maps st) md r) ->
  step_rel st st' md data -> core st' /\ extends (ps_maps st) (ps_maps st').
Proof.
  intros [BU [BI [EU EI]]] HA [EM [_ [EN _]]].
  injection EN as N1 N2. split.
  - unfold core. rewrite EM. split; [apply after_bij_u; auto|]. split; [apply after_bij_i; auto|].
    rewrite after_n_u, after_n_i, N1, N2, EU, EI. auto.
  - rewrite EM. apply after_extends; auto.
Qed.
