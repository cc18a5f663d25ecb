(** The numerical PSI model follows the bookkeeping model, for any invariant of the factors
    that one call of [_updater] keeps. *)
From Coq Require Import ZArith List Bool Lia.
From Verif Require Import Prelude DataPrep_model DataPrep_spec Psi_model Psi_spec Tensor_model Matrix_model Attention_model LinAlg_model Num_model.
From Verif Require Psi_proofs Psi_main.
From Verif Require Import Dynamic_main.
Import ListNotations.
Open Scope nat_scope.

(** Shape and range of the matrix of a step for [nu] users and [ni] items. *)
Definition dims (md : mode) (da : Psi_model.coo) (nu ni : Z) : Prop :=
  match md with
  | MNewUsers => da_rows da = ni
  | MNewItems => da_rows da = nu
  | MOld => da_rows da = nu /\ da_cols da = ni
  | MNew => True
  end /\ (0 <= da_rows da)%Z /\ (0 <= da_cols da)%Z
  /\ Forall (fun e => 0 <= fst (fst e) < da_rows da /\ 0 <= snd (fst e) < da_cols da)%Z (da_entries da).

Lemma mk_mapped_dims vals rows cols nr nc da : mk_mapped vals rows cols nr nc = Ok da ->
  da_rows da = nr /\ da_cols da = nc
  /\ Forall (fun e => 0 <= fst (fst e) < da_rows da /\ 0 <= snd (fst e) < da_cols da)%Z (da_entries da).
Proof.
  unfold mk_mapped. destruct (forallb _ rows && forallb _ cols) eqn:E; [|discriminate]. intros H.
  injection H as <-. cbn. split; auto. split; auto.
  apply andb_true_iff in E as [E1 E2]. rewrite forallb_forall in E1, E2.
  apply Forall_forall. intros [[r c] v] H. cbn.
  apply in_combine_l in H. pose proof (in_combine_l _ _ _ _ H) as Hr. pose proof (in_combine_r _ _ _ _ H) as Hc.
  apply E1 in Hr. apply E2 in Hc. apply andb_true_iff in Hr, Hc. lia.
Qed.

Lemma process_dims st data md ms da : (0 <= ps_n_users st)%Z -> (0 <= ps_n_items st)%Z ->
  process_data st data md = Ok (ms, da) -> dims md da (ps_n_users st) (ps_n_items st).
Proof.
  intros Hu Hi. unfold process_data, add_new_entities. intros H.
  assert (L : forall V (d : dict V), (0 <= dlen d)%Z) by (intros; unfold dlen; lia).
  destruct md; ib H; ib H; ib H; injection H as <- <-;
    match goal with E : mk_mapped _ _ _ _ _ = Ok _ |- _ => apply mk_mapped_dims in E as [E1 [E2 E3]] end;
    unfold dims; rewrite E1, E2; rewrite E1, E2 in E3; auto 10.
Qed.

Section Sim.
  Context {A : Type} (zero one : A) (add mul sub : A -> A -> A) (of_rel : Z -> A).
  Variable qr : mat A -> res (mat A * mat A).
  Variable svd : mat A -> res (mat A * list A * mat A).
  Variable rsvd : mat A -> nat -> res (mat A * list A * mat A).
  Variable exceeds_eps : A -> bool.
  Variable argsort : list A -> list nat.
  Variable normal : nat -> nat -> mat A.
  Variable cfg : psi_cfg.
  Notation triple := (@triple A).
  Notation num_updater := (num_updater zero one add mul sub qr svd rsvd exceeds_eps argsort normal cfg).
  Notation num_by_mode := (num_by_mode zero one add mul sub of_rel qr svd rsvd exceeds_eps argsort normal cfg).
  Notation num_loop_step := (num_loop_step zero one add mul sub of_rel qr svd rsvd exceeds_eps argsort normal cfg).
  Notation num_update := (num_update zero one add mul sub of_rel qr svd rsvd exceeds_eps argsort normal cfg).
  Notation da_array := (da_array zero add of_rel).

  Variable I : Z -> Z -> triple -> Prop.
  Variable Orc : exn -> Prop.
  Hypothesis I_dims : forall nu ni u s vt, I nu ni (u, s, vt) -> nu = Z.of_nat (mr u) /\ ni = Z.of_nat (mc vt).
  Hypothesis upd_ok : forall md da nu ni f f', I nu ni f -> dims md da nu ni ->
    num_updater md (da_array da) f = Ok f' -> exists nu' ni', updater cfg md da nu ni = Ok (nu', ni') /\ I nu' ni' f'.
  Hypothesis upd_err : forall md da nu ni f e, I nu ni f -> dims md da nu ni ->
    num_updater md (da_array da) f = Err e -> Orc e \/ updater cfg md da nu ni = Err e.

  (** The steps [l] lead from the factors [f] to [f']. *)
  Fixpoint runs (l : list step_log) (f f' : triple) : Prop :=
    match l with
    | [] => f' = f
    | s :: l => exists f1, I (sl_users s) (sl_items s) f /\ dims (sl_mode s) (sl_da s) (sl_users s) (sl_items s)
        /\ num_updater (sl_mode s) (da_array (sl_da s)) f = Ok f1 /\ runs l f1 f'
    end.

  Lemma runs_app l1 : forall l2 f f1 f2, runs l1 f f1 -> runs l2 f1 f2 -> runs (l1 ++ l2) f f2.
  Proof.
    induction l1 as [|s l1 IH]; intros l2 f f1 f2 H G; cbn in *; [subst; auto|].
    destruct H as [f' [H1 [H2 [H3 H4]]]]. exists f'. eauto 10.
  Qed.
  Lemma runs_split l1 : forall l2 f f2, runs (l1 ++ l2) f f2 -> exists f1, runs l1 f f1 /\ runs l2 f1 f2.
  Proof.
    induction l1 as [|s l1 IH]; intros l2 f f2 H; cbn in *; [eauto|].
    destruct H as [f' [H1 [H2 [H3 H4]]]]. destruct (IH _ _ _ H4) as [f1 [G1 G2]]. exists f1. split; eauto 10.
  Qed.

  Definition good (x : @num_state A) : Prop := I (ps_n_users (nm_book x)) (ps_n_items (nm_book x)) (nm_f x).
  Definition reaches (x x' : @num_state A) : Prop :=
    exists l, ps_log (nm_book x') = ps_log (nm_book x) ++ l /\ runs l (nm_f x) (nm_f x').
  Lemma reaches_refl x : reaches x x.
  Proof. exists []. rewrite app_nil_r. split; reflexivity. Qed.
  Lemma reaches_trans x y z : reaches x y -> reaches y z -> reaches x z.
  Proof.
    intros [l [E R]] [l' [E' R']]. exists (l ++ l'). rewrite E', E, app_assoc. split; auto. eapply runs_app; eauto.
  Qed.

  (** Outcome of a numerical computation against the bookkeeping one. *)
  Definition follows {X Y} (P : X -> Y -> Prop) (r : res X) (b : res Y) : Prop :=
    match r with Ok x => exists y, b = Ok y /\ P x y | Err e => Orc e \/ b = Err e end.

  Lemma by_mode_sim x data md : good x ->
    follows (fun x' b => b = nm_book x' /\ good x' /\ reaches x x') (num_by_mode x data md)
            (update_factors_by_mode cfg (nm_book x) data md).
  Proof.
    intros G. destruct data as [|r data]; [cbn; eexists; split; [reflexivity|]; split; auto; split; auto; apply reaches_refl|].
    unfold num_by_mode, update_factors_by_mode. set (d := r :: data) in *.
    destruct (process_data (nm_book x) d md) as [[ms da]|e] eqn:E; [|cbn; auto]. cbn [bind].
    assert (D : dims md da (ps_n_users (nm_book x)) (ps_n_items (nm_book x))).
    { destruct (nm_f x) as [[u s] vt] eqn:F. unfold good in G. rewrite F in G. destruct (I_dims _ _ _ _ _ G) as [H1 H2].
      eapply process_dims; eauto; lia. }
    destruct (num_updater md (da_array da) (nm_f x)) as [[[u s] vt]|e] eqn:F; cbn [bind].
    - destruct (upd_ok _ _ _ _ _ _ G D F) as [nu [ni [U J]]]. rewrite U. cbn [bind follows].
      destruct (I_dims _ _ _ _ _ J) as [-> ->]. eexists; split; [reflexivity|]. split; auto. split; auto.
      exists [mkStep md (ps_n_users (nm_book x)) (ps_n_items (nm_book x)) d da]. split; [reflexivity|].
      cbn. exists (u, s, vt). auto.
    - destruct (upd_err _ _ _ _ _ _ G D F) as [H| ->]; cbn; auto.
  Qed.

  Lemma loop_step_sim x left md : good x ->
    follows (fun x' b => b = (nm_book (fst x'), snd x') /\ good (fst x') /\ reaches x (fst x'))
            (num_loop_step (Ok (x, left)) md) (loop_step cfg (Ok (nm_book x, left)) md).
  Proof.
    intros G. unfold num_loop_step, loop_step. cbn [bind].
    pose proof (by_mode_sim x (select (divide_mask left (ps_maps (nm_book x)) md) left) md G) as S.
    destruct (num_by_mode x _ md) as [x'|e]; cbn [bind follows] in *.
    - destruct S as [y [-> [-> [G' R]]]]. cbn. eexists; split; [reflexivity|]. auto.
    - destruct S as [S| ->]; cbn; auto.
  Qed.

  Lemma loop_err e mds : fold_left num_loop_step mds (Err e) = Err e.
  Proof. induction mds; cbn; auto. Qed.
  Lemma bloop_err e mds : fold_left (loop_step cfg) mds (Err e) = Err e.
  Proof. induction mds; cbn; auto. Qed.

  Lemma loop_sim mds : forall x left, good x ->
    follows (fun x' b => b = (nm_book (fst x'), snd x') /\ good (fst x') /\ reaches x (fst x'))
            (fold_left num_loop_step mds (Ok (x, left))) (fold_left (loop_step cfg) mds (Ok (nm_book x, left))).
  Proof.
    induction mds as [|md mds IH]; intros x left G.
    - cbn. eexists; split; [reflexivity|]. split; auto. split; auto. apply reaches_refl.
    - cbn [fold_left]. pose proof (loop_step_sim x left md G) as S.
      destruct (num_loop_step (Ok (x, left)) md) as [[x1 l1]|e]; cbn [follows] in S.
      + destruct S as [y [-> [-> [G1 R1]]]]. cbn [fst snd] in *. specialize (IH x1 l1 G1).
        destruct (fold_left num_loop_step mds (Ok (x1, l1))) as [[x2 l2]|e]; cbn [follows] in *.
        * destruct IH as [z [-> [-> [G2 R2]]]]. eexists; split; [reflexivity|]. split; auto. split; auto.
          eapply reaches_trans; eauto.
        * auto.
      + rewrite loop_err. cbn [follows]. destruct S as [S| ->]; [auto|]. rewrite bloop_err. auto.
  Qed.

  (** [num_update] follows [psi_update]; the factors are the result of the logged steps. *)
  Lemma update_sim x data : good x ->
    follows (fun x' b => b = nm_book x' /\
        exists f l, ps_log b = ps_log (nm_book x) ++ l /\ runs l (nm_f x) f /\ I (ps_n_users b) (ps_n_items b) f
          /\ nm_f x' = (fst (fst f), SMat (as_matrix zero (snd (fst f))), snd f))
      (num_update x data) (psi_update cfg (nm_book x) data).
  Proof.
    intros G. unfold num_update, psi_update.
    match goal with |- follows _ (bind ?r _) (bind ?q _) =>
      assert (S : follows (fun x' b0 => b0 = nm_book x' /\ good x' /\ reaches x x') r q) end.
    { assert (Z1 : follows (fun x' b => b = nm_book x' /\ good x' /\ reaches x x')
        (do '(y, d) <- num_loop_step (Ok (x, data)) MNew;
         do '(y, _) <- fold_left num_loop_step [MNewUsers; MNewItems] (Ok (y, d)); num_by_mode y d MOld)
        (do '(s, d) <- loop_step cfg (Ok (nm_book x, data)) MNew;
         do '(s, _) <- fold_left (loop_step cfg) [MNewUsers; MNewItems] (Ok (s, d)); update_factors_by_mode cfg s d MOld)).
      { pose proof (loop_step_sim x data MNew G) as S1. destruct (num_loop_step _ MNew) as [[y d]|e]; cbn [bind].
        2:{ destruct S1 as [S1| ->]; cbn; auto. }
        destruct S1 as [b [-> [-> [G1 R1]]]]. cbn [bind fst snd] in *.
        pose proof (loop_sim [MNewUsers; MNewItems] y d G1) as S2. destruct (fold_left num_loop_step _ _) as [[z dz]|e]; cbn [bind].
        2:{ destruct S2 as [S2| ->]; cbn [bind follows]; auto. }
        destruct S2 as [b [-> [-> [G2 R2]]]]. cbn [bind fst snd] in *.
        pose proof (by_mode_sim z d MOld G2) as S3. destruct (num_by_mode z d MOld) as [w|e].
        2:{ destruct S3 as [S3| ->]; cbn; auto. }
        destruct S3 as [b [-> [-> [G3 R3]]]]. cbn. eexists; split; [reflexivity|]. split; auto. split; auto.
        eapply reaches_trans; [|eassumption]. eapply reaches_trans; eauto. }
      assert (Z2 : follows (fun x' b => b = nm_book x' /\ good x' /\ reaches x x')
        (do '(y, _) <- fold_left num_loop_step [MNew; MNewUsers; MNewItems] (Ok (x, data)); num_by_mode y data MOld)
        (do '(s, _) <- fold_left (loop_step cfg) [MNew; MNewUsers; MNewItems] (Ok (nm_book x, data)); update_factors_by_mode cfg s data MOld)).
      { pose proof (loop_sim [MNew; MNewUsers; MNewItems] x data G) as S2. destruct (fold_left num_loop_step _ _) as [[z dz]|e]; cbn [bind].
        2:{ destruct S2 as [S2| ->]; cbn [bind follows]; auto. }
        destruct S2 as [b [-> [-> [G2 R2]]]]. cbn [bind fst snd] in *.
        pose proof (by_mode_sim z data MOld G2) as S3. destruct (num_by_mode z data MOld) as [w|e].
        2:{ destruct S3 as [S3| ->]; cbn; auto. }
        destruct S3 as [b [-> [-> [G3 R3]]]]. cbn. eexists; split; [reflexivity|]. split; auto. split; auto.
        eapply reaches_trans; eauto. }
      destruct (cf_init cfg), (cf_integrator cfg); auto; [cbn; auto|]. clear Z1 Z2.
      pose proof (loop_sim [MNew; MNewUsers; MNewItems; MOld] x data G) as S2.
      destruct (fold_left num_loop_step _ _) as [[z dz]|e]; cbn [bind].
      2:{ destruct S2 as [S2| ->]; cbn [bind follows]; auto. }
      destruct S2 as [b [-> [-> [G2 R2]]]]. cbn. eauto. }
    match goal with |- follows _ (bind ?r _) (bind ?q _) => destruct r as [x1|e] end.
    2:{ cbn [follows] in S. destruct S as [S| ->]; cbn; auto. }
    destruct S as [b [-> [-> [G1 [l [EL R]]]]]]. cbn [bind].
    destruct (update_history (nm_book x1) data) as [b|e] eqn:U; [|cbn; auto]. cbn [bind].
    unfold update_history in U. ib U. ib U. injection U as <-.
    destruct (nm_f x1) as [[u s] vt] eqn:F. cbn. eexists; split; [reflexivity|]. split; [reflexivity|].
    exists (u, s, vt), l. split; auto. split; auto. split; [|reflexivity].
    unfold good in G1. rewrite F in G1. exact G1.
  Qed.
End Sim.

(** The steps of an update, one list (empty or a single step) per mode. *)
Definition late_rows (cfg : psi_cfg) (st : psi_state) (data : list row) : list row :=
  match cf_init cfg, cf_integrator cfg with
  | INone, _ => part_old st data
  | _, false => filter (fun r => negb (unknown_user st r && unknown_item st r)) data
  | _, true => data
  end.
Definition stage (st' : psi_state) (md : mode) (d : list row) (l : list step_log) : Prop :=
  (d = [] /\ l = []) \/ exists s, d <> [] /\ l = [s] /\ sl_mode s = md /\ sl_data s = d /\ step_lands st' s.

Lemma stage_of st' md d l : Psi_proofs.log_view l = Psi_proofs.logged md d -> Forall (step_lands st') l -> stage st' md d l.
Proof.
  unfold Psi_proofs.log_view, Psi_proofs.logged. destruct d as [|r d]; intros H F.
  - left. split; auto. destruct l; [auto|discriminate].
  - right. destruct l as [|s [|s' l]]; try discriminate. injection H as H1 H2. inversion F; subst.
    exists s. split; [discriminate|]. auto.
Qed.

Lemma update_stages cfg st data st' : aligned st -> psi_update cfg st data = Ok st' ->
  exists l1 l2 l3 l4, ps_log st' = ps_log st ++ l1 ++ l2 ++ l3 ++ l4
    /\ stage st' MNew (part_new st data) l1 /\ stage st' MNewUsers (part_new_users st data) l2
    /\ stage st' MNewItems (part_new_items st data) l3 /\ stage st' MOld (late_rows cfg st data) l4.
Proof.
  intros A E. destruct (Psi_main.psi_update_partition_main _ _ _ _ A E) as [l [EL [V [_ F]]]].
  rewrite Psi_main.expected_eq in V.
  apply map_eq_app in V as [l1 [k1 [-> [V1 V]]]]. apply map_eq_app in V as [l2 [k2 [-> [V2 V]]]].
  apply map_eq_app in V as [l3 [l4 [-> [V3 V4]]]].
  apply Forall_app in F as [F1 F]. apply Forall_app in F as [F2 F]. apply Forall_app in F as [F3 F4].
  exists l1, l2, l3, l4. split; auto. split; [|split; [|split]]; apply stage_of; auto.
  all: try (unfold Psi_proofs.log_view; rewrite V4); try reflexivity.
Qed.

Lemma update_aligned cfg st data st' : aligned st -> psi_update cfg st data = Ok st' ->
  aligned st' /\ (forall k v, fu st k = Some v -> fu st' k = Some v) /\ (forall k v, fi st k = Some v -> fi st' k = Some v)
  /\ (ps_n_users st <= ps_n_users st')%Z /\ (ps_n_items st <= ps_n_items st')%Z.
Proof.
  intros A E. pose proof (Psi_main.psi_update_good _ _ _ _ (Psi_main.aligned_core _ A) E) as G.
  destruct G as [C' [[X1 X2] [NU [NI [[us [is [EH [FU FI]]]] _]]]]].
  pose proof C' as [BU [BI [EU EI]]]. destruct A as [_ [_ [_ [_ H]]]].
  unfold Psi_proofs.count_u, Psi_proofs.count_i in *.
  assert (ps_n_users st <= ps_n_users st')%Z by lia. assert (ps_n_items st <= ps_n_items st')%Z by lia.
  split; [|auto]. split; auto. split; auto. split; auto. split; auto.
  intros u j I. rewrite EH in I. apply in_app_or in I as [I|I]; [apply H in I; lia|].
  pose proof (in_combine_l _ _ _ _ I) as I1. pose proof (in_combine_r _ _ _ _ I) as I2.
  assert (K : forall (f : row -> Z -> Prop) l (l' : list Z) y, Forall2 f l l' -> In y l' -> exists x, f x y).
  { intros f l l' y F. induction F; intros J; [destruct J|destruct J as [<-|J]; eauto]. }
  destruct (K _ _ _ _ FU I1) as [x [_ ?]]. destruct (K _ _ _ _ FI I2) as [y [_ ?]]. rewrite EU, EI. lia.
Qed.

Lemma late_early cfg st data :
  Permutation.Permutation (match cf_init cfg, cf_integrator cfg with
    | INone, _ => part_new st data ++ part_new_users st data ++ part_new_items st data
    | _, false => part_new st data | _, true => [] end ++ late_rows cfg st data) data.
Proof.
  unfold late_rows. pose proof (Psi_main.parts_partition st data) as P.
  pose proof (Psi_main.filter_neg_perm (fun r => unknown_user st r && unknown_item st r) data) as Q.
  destruct (cf_init cfg), (cf_integrator cfg); cbn; auto; rewrite <- !app_assoc; auto.
Qed.

Lemma update_known cfg st data st' : aligned st -> psi_update cfg st data = Ok st' ->
  Forall (fun r => fu st' (r_user r) <> None /\ fi st' (r_item r) <> None) data.
Proof.
  intros A E. destruct (Psi_main.psi_update_good _ _ _ _ (Psi_main.aligned_core _ A) E) as [_ [_ [_ [_ [[us [is [_ [FU FI]]]] _]]]]].
  assert (K : forall (P : row -> Z -> Prop) (Q : row -> Prop) l (l' : list Z), (forall r v, P r v -> Q r) -> Forall2 P l l' -> Forall Q l).
  { intros P Q l l' HQ F. induction F; constructor; eauto. }
  assert (KU : Forall (fun r => fu st' (r_user r) <> None) data).
  { eapply K; [|exact FU]. cbn. unfold fu. intros r v [-> _]. discriminate. }
  assert (KI : Forall (fun r => fi st' (r_item r) <> None) data).
  { eapply K; [|exact FI]. cbn. unfold fi. intros r v [-> _]. discriminate. }
  rewrite Forall_forall in *. auto.
Qed.

Lemma train_facts rank data st df ms : svd_train rank data = Ok st -> get_df_with_updated_indices data = Ok (df, ms) ->
  aligned st /\ (0 < rank < Z.min (ps_n_users st) (ps_n_items st))%Z
  /\ Forall2 (fun r b => fu st (r_user r) = Some (r_user b) /\ fi st (r_item r) = Some (r_item b) /\ r_rel b = r_rel r) data df
  /\ Forall (fun b => (0 <= r_user b < ps_n_users st)%Z /\ (0 <= r_item b < ps_n_items st)%Z) df.
Proof.
  intros T G. pose proof (Psi_main.inv_aligned _ _ (Psi_main.train_inv _ _ _ T)) as A.
  destruct (DataPrep_main.reindex_maps _ _ _ G) as [_ [_ F]].
  unfold svd_train in T. rewrite G in T. cbn [bind] in T. destruct df as [|b0 df0]; [discriminate|].
  destruct (_ && _) eqn:B in T; [|discriminate]. injection T as <-. apply andb_true_iff in B as [B1 B2].
  cbn [ps_n_users ps_n_items] in *. split; auto. apply Z.ltb_lt in B1, B2. split; [split; [exact B1|exact B2]|].
  assert (F' : Forall2 (fun r b => f_of (m_users ms) (r_user r) = Some (r_user b) /\ f_of (m_items ms) (r_item r) = Some (r_item b) /\ r_rel b = r_rel r) data (b0 :: df0)).
  { clear - F. induction F as [|a b l l' H]; constructor; auto. unfold reindexed in H. intuition congruence. }
  split; [exact F'|]. destruct A as [BU [BI [EU [EI _]]]]. cbn [ps_n_users ps_n_items ps_maps] in *.
  rewrite EU, EI. clear - F' BU BI. induction F'; constructor; auto.
  destruct H as [H1 [H2 _]]. apply DataPrep_main.bij_f_nonneg in H1, H2; auto.
Qed.

(** A chunk of rows of unknown users with known items is one new-users step. *)
Lemma users_only st data : Forall (fun r => unknown_user st r = true /\ unknown_item st r = false) data ->
  part_new st data = [] /\ part_new_users st data = data /\ part_new_items st data = [] /\ part_old st data = [].
Proof.
  intros F. assert (P1 : part_new st data = []).
  { unfold part_new. induction F as [|r l [H1 H2] F IH]; cbn; auto. now rewrite H2, andb_false_r. }
  split; auto. unfold part_new_users, part_new_items, part_old. rewrite P1. cbn.
  split; [|split]; induction F as [|r l [H1 H2] F IH]; cbn; auto; rewrite ?H1, ?H2; cbn; rewrite IH; auto;
    unfold part_new in *; cbn in P1; rewrite H2, andb_false_r in P1; auto.
Qed.

Lemma stage_nil st' md l : stage st' md [] l -> l = [].
Proof. intros [[_ ->]|[s [N _]]]; [reflexivity|contradiction N; reflexivity]. Qed.

Lemma new_item_index cfg st data st' k v : aligned st -> psi_update cfg st data = Ok st' ->
  fi st k = None -> fi st' k = Some v -> (ps_n_items st <= v)%Z.
Proof.
  intros A E N S. destruct (update_aligned _ _ _ _ A E) as [A' [_ [X _]]].
  destruct A as [_ [[_ [B R]] [_ [EI _]]]]. destruct A' as [_ [BI' _]].
  unfold fi in *. pose proof (DataPrep_main.bij_f_nonneg _ _ _ BI' S) as L.
  destruct (Z_lt_le_dec v (ps_n_items st)) as [H|H]; auto. rewrite EI in H.
  destruct (proj2 (R v)) as [k' Hk']; [lia|]. apply B in Hk'. pose proof (X _ _ Hk') as S'.
  destruct BI' as [_ [B' _]]. apply B' in S, S'. congruence.
Qed.
