(** The same interactions in different chunks. *)
From Coq Require Import ZArith List Bool Sorted Permutation Lia.
From Verif Require Import Prelude DataPrep_model DataPrep_spec History_model History_spec Psi_model Psi_spec Tirec_model Chunks_spec.
Import ListNotations.
Open Scope Z_scope.

Definition rr (u i t : Z) : row := mkRow u i t 1.
Definition fails {A} (r : res A) : option exn := match r with Ok _ => None | Err e => Some e end.

(** ** PSI: three users, two items *)
Definition p_table : list row := [rr 1 10 1; rr 2 20 2; rr 3 10 3].
Definition p_plain : psi_cfg := mkCfg INone false.
Definition p_run (chunks : list (list row)) : res psi_state := do s <- svd_train 1 p_table; psi_stream p_plain s chunks.
(** Three new users with a known item. *)
Definition p_new : list row := [rr 4 10 5; rr 5 10 6; rr 6 10 7].
(** A new user with a new item. *)
Definition p_pair : list row := [rr 7 30 8].
Lemma p_trained : exists s, svd_train 1 p_table = Ok s.
Proof. eexists. vm_compute. reflexivity. Qed.
Lemma p_merging_fails : p_run [p_new] = Err ValueError /\ exists s, p_run [[rr 4 10 5; rr 5 10 6]; [rr 6 10 7]] = Ok s.
Proof. split; [vm_compute; reflexivity|eexists; vm_compute; reflexivity]. Qed.
Lemma p_splitting_fails : p_run [p_new; p_pair] = Err ValueError /\ exists s, p_run [p_new ++ p_pair] = Ok s.
Proof. split; [vm_compute; reflexivity|eexists; vm_compute; reflexivity]. Qed.
Lemma p_indices : exists s1 s2, p_run [[rr 4 10 5] ++ p_pair] = Ok s1 /\ p_run [[rr 4 10 5]; p_pair] = Ok s2 /\
  (fu s1 4 = Some 4 /\ fu s2 4 = Some 3) /\ (fu s1 7 = Some 3 /\ fu s2 7 = Some 4).
Proof. eexists. eexists. split; [vm_compute; reflexivity|]. split; [vm_compute; reflexivity|]. repeat split; vm_compute; reflexivity. Qed.

(** ** Sequential models: two users, three items, windows of two *)
Definition q_table : list row := [rr 1 10 1; rr 1 20 2; rr 2 10 1; rr 2 30 2].
Definition q_data : list prow := match get_df_with_cropped_pos_column q_table 2 true with Ok d => d | Err _ => [] end.
Definition q_run (v : variant) (chunks : list (list row)) : res ti_state :=
  do s <- tdrec_train 2 (1, 1, 1) q_data []; ti_stream v 2 true s chunks.
Lemma q_crop : get_df_with_cropped_pos_column q_table 2 true = Ok q_data.
Proof. vm_compute. reflexivity. Qed.
Lemma q_trained : exists s, tdrec_train 2 (1, 1, 1) q_data [] = Ok s.
Proof. eexists. vm_compute. reflexivity. Qed.

(** Three items of user 1, one of them new, and a new user. *)
Definition q_one : list (list row) := [[rr 1 40 3; rr 1 30 4; rr 1 10 5; rr 3 20 6]].
Definition q_two : list (list row) := [[rr 1 40 3; rr 1 30 4]; [rr 1 10 5; rr 3 20 6]].
Lemma q_same : same_histories (concat q_one) (concat q_two).
Proof. intros u. reflexivity. Qed.
Lemma q_order : chronological (q_table ++ concat q_one).
Proof.
  intros u. unfold rows_of, q_table, q_one, rr. cbn [concat app filter r_user]. destruct (Z.eqb_spec 1 u) as [<-|N1].
  - cbn. repeat constructor; cbn; lia.
  - destruct (Z.eqb_spec 2 u) as [<-|N2]; [cbn; repeat constructor; cbn; lia|]. destruct (Z.eqb_spec 3 u) as [<-|N3]; repeat constructor.
Qed.
Lemma q_short : short_chunks 2 q_two /\ ~ short_chunks 2 q_one.
Proof.
  split.
  - intros c u [<-|[<-|[]]]; unfold rows_of, rr; cbn [filter r_user].
    + destruct (1 =? u); cbn; lia.
    + destruct (1 =? u), (3 =? u); cbn; lia.
  - intros H. specialize (H _ 1 (or_introl eq_refl)). cbn in H. lia.
Qed.
Lemma q_forgets v : exists s1 s2, q_run v q_one = Ok s1 /\ q_run v q_two = Ok s2 /\
  (window s1 1 = Some [Some 30; Some 10] /\ window s2 1 = Some [Some 30; Some 10]) /\
  (window s1 3 = Some [None; Some 20] /\ window s2 3 = Some [None; Some 20]) /\
  ti_item s1 40 = None /\ ti_item s2 40 = Some 3 /\ ~ ti_seen s1 1 40 /\ ti_seen s2 1 40.
Proof.
  destruct v; (eexists; eexists; split; [vm_compute; reflexivity|]; split; [vm_compute; reflexivity|];
    do 4 (split; [try split; vm_compute; reflexivity|]); split;
    [intros [x [j [_ [E _]]]]; vm_compute in E; discriminate|exists 0, 3; split; [vm_compute; reflexivity|split; [vm_compute; reflexivity|vm_compute; tauto]]]).
Qed.

(** Rows of user 1 that arrive late: sorting works within a chunk only. *)
Lemma q_late v : exists s1 s2, q_run v [[rr 1 30 9; rr 1 10 8]] = Ok s1 /\ q_run v [[rr 1 30 9]; [rr 1 10 8]] = Ok s2 /\
  window s1 1 = Some [Some 10; Some 30] /\ window s2 1 = Some [Some 30; Some 10].
Proof. destruct v; (eexists; eexists; split; [vm_compute; reflexivity|]; split; [vm_compute; reflexivity|]; split; vm_compute; reflexivity). Qed.

(** A chunk that leads back to the same windows is refused. *)
Lemma q_merging_fails v : q_run v [[rr 1 10 3; rr 1 20 4]] = Err ValueError /\ exists s, q_run v [[rr 1 10 3]; [rr 1 20 4]] = Ok s.
Proof. destruct v; (split; [vm_compute; reflexivity|eexists; vm_compute; reflexivity]). Qed.
Definition q_back : list row := [rr 1 20 5].
Lemma q_splitting_fails v : q_run v [[rr 1 20 3]; q_back; [rr 2 20 6]] = Err ValueError /\ exists s, q_run v [[rr 1 20 3]; q_back ++ [rr 2 20 6]] = Ok s.
Proof. destruct v; (split; [vm_compute; reflexivity|eexists; vm_compute; reflexivity]). Qed.

(** ** Summaries *)
Definition p_0 : psi_state := match svd_train 1 p_table with Ok s => s | Err _ => mkPsi (mkMappings (mkMapping [] [] 0) (mkMapping [] [] 0)) 0 0 [] [] end.
Lemma p_0_ok : svd_train 1 p_table = Ok p_0.
Proof. vm_compute. reflexivity. Qed.
Lemma p_run_eq chunks : p_run chunks = psi_stream p_plain p_0 chunks.
Proof. unfold p_run. rewrite p_0_ok. reflexivity. Qed.
Lemma p_decides :
  (exists rank data cfg c1 c2 st0 s, svd_train rank data = Ok st0 /\
     psi_stream cfg st0 [c1 ++ c2] = Err ValueError /\ psi_stream cfg st0 [c1; c2] = Ok s)
  /\ (exists rank data cfg c1 c2 st0 s, svd_train rank data = Ok st0 /\
     psi_stream cfg st0 [c1 ++ c2] = Ok s /\ psi_stream cfg st0 [c1; c2] = Err ValueError)
  /\ (exists rank data cfg c1 c2 st0 s1 s2 u, svd_train rank data = Ok st0 /\
     psi_stream cfg st0 [c1 ++ c2] = Ok s1 /\ psi_stream cfg st0 [c1; c2] = Ok s2 /\ fu s1 u <> fu s2 u).
Proof.
  split; [|split].
  - destruct p_merging_fails as [E [s F]]. rewrite p_run_eq in E, F.
    exists 1, p_table, p_plain, [rr 4 10 5; rr 5 10 6], [rr 6 10 7], p_0, s. exact (conj p_0_ok (conj E F)).
  - destruct p_splitting_fails as [E [s F]]. rewrite p_run_eq in E, F. exists 1, p_table, p_plain, p_new, p_pair, p_0, s. exact (conj p_0_ok (conj F E)).
  - destruct p_indices as [s1 [s2 [E [F [[G H] _]]]]]. rewrite p_run_eq in E, F. exists 1, p_table, p_plain, [rr 4 10 5], p_pair, p_0, s1, s2, 4.
    split; [exact p_0_ok|]. split; [exact E|]. split; [exact F|]. rewrite G, H. discriminate.
Qed.

Lemma q_decides : forall v, exists L rank table data st0,
  get_df_with_cropped_pos_column table L true = Ok data /\ tdrec_train L rank data [] = Ok st0 /\
  let run := ti_stream v L true st0 in
  (exists c1 c2 s1 s2 u i, run [c1 ++ c2] = Ok s1 /\ run [c1; c2] = Ok s2 /\ ti_item s1 i = None /\ ~ ti_seen s1 u i /\ ti_seen s2 u i) /\
  (exists c1 c2 s1 s2 u, run [c1 ++ c2] = Ok s1 /\ run [c1; c2] = Ok s2 /\ window s1 u <> window s2 u) /\
  (exists c1 c2 s2, run [c1 ++ c2] = Err ValueError /\ run [c1; c2] = Ok s2) /\
  (exists c0 c1 c2 s1, run [c0; c1 ++ c2] = Ok s1 /\ run [c0; c1; c2] = Err ValueError).
Proof.
  intros v. destruct q_trained as [st0 T]. exists 2%nat, (1, 1, 1), q_table, q_data, st0. split; [exact q_crop|]. split; [exact T|].
  assert (Q : forall chunks, q_run v chunks = ti_stream v 2 true st0 chunks) by (intros; unfold q_run; rewrite T; reflexivity).
  cbv zeta. split; [|split; [|split]].
  - destruct (q_forgets v) as [s1 [s2 [E [F [_ [_ [N [_ [S1 S2]]]]]]]]]. rewrite Q in E, F.
    exists [rr 1 40 3; rr 1 30 4], [rr 1 10 5; rr 3 20 6], s1, s2, 1, 40. exact (conj E (conj F (conj N (conj S1 S2)))).
  - destruct (q_late v) as [s1 [s2 [E [F [W1 W2]]]]]. rewrite Q in E, F. exists [rr 1 30 9], [rr 1 10 8], s1, s2, 1.
    split; [exact E|]. split; [exact F|]. rewrite W1, W2. discriminate.
  - destruct (q_merging_fails v) as [E [s F]]. rewrite Q in E, F. exists [rr 1 10 3], [rr 1 20 4], s. exact (conj E F).
  - destruct (q_splitting_fails v) as [E [s F]]. rewrite Q in E, F. exists [rr 1 20 3], q_back, [rr 2 20 6], s. exact (conj F E).
Qed.
