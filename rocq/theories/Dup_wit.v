(** C108: tables on which repetitions matter. *)
From Coq Require Import ZArith List Bool Lia.
From Verif Require Import Prelude DataPrep_model History_model Psi_model Pipe_model Dup_spec Dup_main.
Import ListNotations.
Open Scope Z_scope.

Lemma z_adds_up : adds_up 0 Z.add.
Proof. repeat split; intros; lia. Qed.

(** User 5 has item 10, then item 20 twice. *)
Definition d_twice : list row := [mkRow 5 10 1 1; mkRow 5 20 2 1; mkRow 5 20 3 1; mkRow 6 30 1 1].
Definition d_once : list row := [mkRow 5 10 1 1; mkRow 5 20 2 2; mkRow 6 30 1 1].
Lemma d_view : same_view 0 Z.add (fun z => z) d_twice d_once.
Proof.
  split; [reflexivity|]. intros [u i]. unfold total, d_twice, d_once, who, same_pair. cbn [filter r_user r_item fst snd].
  destruct (5 =? u), (6 =? u), (10 =? i), (20 =? i), (30 =? i); reflexivity.
Qed.

Definition d_prepared (d : list row) : res train_data := do p <- entry_3d 2 d; tdrec_prepare p [] 2.
Definition d_items (d : list row) : res (list Z) := do t <- d_prepared d; Ok (map fst (old2new (m_items (td_mappings t)))).
Lemma d_sequential : exists t t', d_prepared d_twice = Ok t /\ d_prepared d_once = Ok t' /\
  dget 10 (old2new (m_items (td_mappings t))) = None /\ dget 10 (old2new (m_items (td_mappings t'))) <> None.
Proof.
  destruct (d_prepared d_twice) as [t|e] eqn:E; [|vm_compute in E; discriminate].
  destruct (d_prepared d_once) as [t'|e'] eqn:E'; [|vm_compute in E'; discriminate].
  exists t, t'. split; [reflexivity|split; [reflexivity|]].
  vm_compute in E, E'. injection E as <-. injection E' as <-. split; [reflexivity|discriminate].
Qed.

(** New users 3 and 4, a known item 10 and a new item 30. *)
Definition d_start : list row := [mkRow 1 10 1 1; mkRow 2 20 1 1].
Definition d_43 : list row := [mkRow 3 10 1 1; mkRow 4 30 1 1; mkRow 3 30 1 1; mkRow 4 10 1 1].
Definition d_34 : list row := [mkRow 3 10 1 1; mkRow 3 30 1 1; mkRow 4 30 1 1; mkRow 4 10 1 1].
Lemma d_same_totals : same_totals 0 Z.add (fun z => z) d_43 d_34.
Proof.
  split; [reflexivity|split; [reflexivity|split]].
  - intros p. unfold d_43, d_34, who. cbn [map In r_user r_item]. tauto.
  - intros [u i]. unfold total, d_43, d_34, who, same_pair. cbn [filter r_user r_item fst snd].
    destruct (3 =? u), (4 =? u), (10 =? i), (30 =? i); reflexivity.
Qed.
Lemma d_order : exists st s s', svd_train 1 d_start = Ok st /\
  psi_update (mkCfg IZero true) st d_43 = Ok s /\ psi_update (mkCfg IZero true) st d_34 = Ok s' /\
  dget 3 (old2new (m_users (ps_maps s))) = Some 3 /\ dget 3 (old2new (m_users (ps_maps s'))) = Some 2.
Proof.
  destruct (svd_train 1 d_start) as [st|e] eqn:E; [|vm_compute in E; discriminate].
  vm_compute in E. injection E as <-. eexists _, _, _. split; [reflexivity|].
  split; [vm_compute; reflexivity|]. split; [vm_compute; reflexivity|]. split; reflexivity.
Qed.

Lemma d_updates : exists d1 d2 initial rank cfg, same_totals 0 Z.add (fun z => z) d1 d2 /\
  exists st s s', svd_train rank initial = Ok st /\ psi_update cfg st d1 = Ok s /\ psi_update cfg st d2 = Ok s' /\
  exists u, dget u (old2new (m_users (ps_maps s))) <> dget u (old2new (m_users (ps_maps s'))).
Proof.
  destruct d_order as (st & s & s' & E0 & E1 & E2 & H1 & H2).
  exists d_43, d_34, d_start, 1, (mkCfg IZero true). split; [exact d_same_totals|].
  exists st, s, s'. split; [exact E0|split; [exact E1|split; [exact E2|]]]. exists 3. rewrite H1, H2. discriminate.
Qed.

Lemma d_windows : exists L d1 d2, same_view 0 Z.add (fun z => z) d1 d2 /\
  exists t t', (do p <- entry_3d L d1; tdrec_prepare p [] L) = Ok t /\ (do p <- entry_3d L d2; tdrec_prepare p [] L) = Ok t' /\
  exists i, dget i (old2new (m_items (td_mappings t))) = None /\ dget i (old2new (m_items (td_mappings t'))) <> None.
Proof.
  destruct d_sequential as (t & t' & E1 & E2 & H). exists 2%nat, d_twice, d_once. split; [exact d_view|].
  exists t, t'. split; [exact E1|split; [exact E2|]]. exists 10. exact H.
Qed.
