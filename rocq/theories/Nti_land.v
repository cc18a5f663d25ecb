(** Where the entries of an update land when rows and indices agree. *)
From Coq Require Import ZArith List Bool Lia Permutation.
From Verif Require Import Prelude Prelude_proofs DataPrep_model DataPrep_spec DataPrep_proofs DataPrep_main History_model History_spec
  History_proofs History_main Recommend_model Recommend_main Psi_model Psi_proofs Tirec_model Tirec_spec Tirec_proofs Tirec_main Tirec_assembly
  Tensor_model Nti_model Nti_book.
From Verif Require Nti_main.
Import ListNotations.
Open Scope Z_scope.

Lemma steps_local n0 n1 l x : In x (Nti_main.steps_of n0 n1 l) ->
  Forall2 (is_local (ts_mode x) (ts_entries x)) (ts_entries x) (ts_local x).
Proof.
  revert n0 n1. induction l as [|[md d] l IH]; intros n0 n1; cbn [Nti_main.steps_of]; [intros []|].
  intros H. apply in_app_or in H as [H|H]; [|eapply IH; eauto].
  destruct d as [|e d]; cbn [Nti_main.logged] in H; [destruct H|]. destruct H as [<-|[]].
  cbn [ts_mode ts_entries ts_local]. apply Nti_main.local_ok.
Qed.

Lemma plan_pos L nu ni l md d e : plan_ok L nu ni l -> In (md, d) l -> In e d -> 0 <= e_pos e.
Proof.
  revert nu ni. induction l as [|[md' d'] l IH]; intros nu ni; [intros _ []|]. intros [H1 H2] [H|H] He.
  - injection H as -> ->. destruct (H1 e He) as [HP _]. lia.
  - eapply IH; eauto.
Qed.
Lemma steps_in n0 n1 l x : In x (Nti_main.steps_of n0 n1 l) -> In (ts_mode x, ts_entries x) l.
Proof.
  revert n0 n1. induction l as [|[md d] l IH]; intros n0 n1; cbn [Nti_main.steps_of]; [intros []|].
  intros H. apply in_app_or in H as [H|H]; [|right; eapply IH; eauto].
  destruct d as [|e d]; cbn [Nti_main.logged] in H; [destruct H|]. destruct H as [<-|[]]. left. reflexivity.
Qed.

Lemma log_local v L st data s st' l : ti_wf L st -> ti_update v L st data s = Ok st' -> ti_log st' = ti_log st ++ l ->
  forall x, In x l -> Forall2 (is_local (ts_mode x) (ts_entries x)) (ts_entries x) (ts_local x)
    /\ forall e, In e (ts_entries x) -> 0 <= e_pos e.
Proof.
  intros W E EL x Hx.
  destruct (ti_update_ok v L st data s st' W E) as [chunk0 [chunk [ms' [ku [ki [P _]]]]]].
  pose (cfg := mkNtiCfg v false false).
  pose proof (plan_good cfg L st data s W _ _ _ _ _ P) as PG.
  pose proof (ti_update_plan cfg L st data s W _ _ _ _ _ P) as EP. cbn [nc_variant cfg] in EP, PG.
  rewrite EP in E. clear EP.
  destruct (snd (get_train_tensor L (ti_seq st) (map triple_of chunk))) as [|e0 D0] eqn:ED; [discriminate|].
  rewrite <- ED in PG. rewrite <- ED in E.
  destruct (run _ _ _) as [st1|] eqn:ER; cbn [bind] in E; [|discriminate]. injection E as <-.
  pose proof (Nti_main.run_log (v := v) PG ER) as RL. cbn [ti_finish ti_log] in EL. rewrite EL in RL.
  assert (EQ : ti_log (ti_start cfg L st chunk ms' ku ki) = ti_log st) by (unfold ti_start; destruct (nc_variant cfg); reflexivity).
  rewrite EQ in RL. apply app_inv_head in RL. rewrite RL in Hx. split; [eapply steps_local; eauto|].
  intros e He. eapply plan_pos; [exact PG|eapply steps_in; eauto|exact He].
Qed.

Lemma zrange_nth n k x : nth_error (zrange n) k = Some x -> x = Z.of_nat k.
Proof.
  intros H. assert (k < n)%nat by (rewrite <- (zrange_length n); apply nth_error_Some; congruence).
  rewrite nth_error_zrange in H by assumption. congruence.
Qed.

Definition lands (x : ti_step) (e loc : entry) : Prop :=
  target x loc = (e_user e, e_item e) /\ e_pos loc = e_pos e /\ snd loc = snd e /\ 0 <= e_user e /\ 0 <= e_item e.

Lemma log_lands v L st data s st' l : ti_wf L st -> ti_update v L st data s = Ok st' -> ti_log st' = ti_log st ++ l ->
  rows_aligned st' -> forall x, In x l -> Forall2 (lands x) (ts_entries x) (ts_local x)
    /\ forall e, In e (ts_entries x) -> 0 <= e_pos e.
Proof.
  intros W E EL [A1 A2] x Hx. destruct (log_local v L st data s st' l W E EL x Hx) as [F1 F0]. split; [|exact F0].
  destruct (tirec_lands_main v L st data s st' W E) as [l' [EL' F2]].
  assert (l' = l) as -> by (rewrite EL in EL'; apply app_inv_head in EL'; auto).
  specialize (F2 x Hx (or_intror (conj A1 A2))).
  assert (G : forall (P Q : entry -> entry -> Prop) a b, Forall2 P a b -> Forall2 Q a b ->
     (forall e lc, P e lc -> Q e lc -> lands x e lc) -> Forall2 (lands x) a b).
  { clear. intros P Q a b HP. induction HP; intros HQ HI; inversion HQ; subst; constructor; auto. }
  apply (G _ _ _ _ F1 F2). intros e lc [H1 [H2 _]] [H3 [H4 [H5 H6]]].
  rewrite A1 in H5. rewrite A2 in H6. apply zrange_nth in H5, H6. rewrite Z2Nat.id in H5, H6 by assumption.
  unfold lands. rewrite (surjective_pairing (target x lc)), H5, H6. auto.
Qed.

Lemma delta_cells v L st data s st' : ti_wf L st -> ti_update v L st data s = Ok st' ->
  forall c, cell c (ti_delta st st') = hist_cell c (hist_lists (ti_seq st')) - hist_cell c (hist_lists (ti_seq st)).
Proof.
  intros W E c. destruct (ti_update_ok v L st data s st' W E) as [chunk0 [chunk [ms' [ku [ki [P [-> [_ [_ G]]]]]]]]].
  destruct G as [_ [_ [_ [_ [-> _]]]]]. eapply D_cell; eauto. eapply wfh; eauto.
Qed.

Lemma cell_perm c a b : Permutation a b -> cell c a = cell c b.
Proof.
  induction 1 as [|[c0 v0] a b H IH|[c0 v0] [c1 v1] a|a b d H1 IH1 H2 IH2]; cbn [cell]; [reflexivity|rewrite IH; reflexivity|lia|congruence].
Qed.

(** The entry of a step in the cell it lands in. *)
Lemma lands_eq x e lc i j k : lands x e lc -> 0 <= e_pos e ->
  ((Z.to_nat (fst (target x lc)) = i /\ Z.to_nat (snd (target x lc)) = j /\ Z.to_nat (e_pos lc) = k)
   <-> (Z.of_nat i =? t_user (fst e)) && (Z.of_nat j =? t_item (fst e)) && (Z.of_nat k =? t_pos (fst e)) = true).
Proof.
  intros [H1 [H2 [_ [H3 H4]]]] H5. rewrite H1, H2. cbn [fst snd].
  unfold e_user, e_item, e_pos in *. rewrite !andb_true_iff, !Z.eqb_eq. lia.
Qed.

(** Outside the rows of the factors the position tensor of the histories is zero. *)
Lemma history_outside L st i j k : ti_wf L st ->
  hist_cell (Z.of_nat i, Z.of_nat j, Z.of_nat k) (hist_lists (ti_seq st)) <> 0%Z ->
  (i < length (ti_urows st) /\ j < length (ti_irows st) /\ k < L)%nat.
Proof.
  intros (_ & _ & _ & _ & _ & _ & _ & _ & WK & WD) H.
  unfold hist_cell in H. cbn [t_user t_item t_pos fst snd] in H.
  assert (G : forall q, dget (Z.of_nat i) (hist_lists q) = option_map dq_items (dget (Z.of_nat i) q)).
  { unfold hist_lists. induction q as [|[u d] q IH]; [reflexivity|]. cbn. destruct (Z.of_nat i =? u)%Z; auto. }
  rewrite G in H. destruct (dget (Z.of_nat i) (ti_seq st)) as [d|] eqn:E; cbn [option_map] in H; [|congruence].
  destruct (WD _ _ E) as (_ & LD & J & _).
  assert (KU : In (Z.of_nat i) (dkeys (ti_seq st))).
  { apply Prelude_proofs.dget_Some_in. eauto. }
  apply WK in KU. unfold nusers, nitems in *.
  destruct (Z.of_nat k <? 0)%Z; [congruence|]. rewrite Nat2Z.id in H.
  destruct (nth_error (dq_items d) k) as [y|] eqn:N; [|congruence].
  assert (KL : (k < length (dq_items d))%nat) by (apply nth_error_Some; congruence).
  destruct ((y =? Z.of_nat j)%Z && negb (y =? PAD_VALUE)%Z) eqn:B; [|congruence].
  apply andb_prop in B. destruct B as [B1 B2]. apply Z.eqb_eq in B1. apply negb_true_iff, Z.eqb_neq in B2.
  apply nth_error_In in N. destruct (J _ N) as [?|?]; [congruence|]. lia.
Qed.
