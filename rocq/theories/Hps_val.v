(** Evaluation on validation rows, and the parts of the table. *)
From Coq Require Import ZArith QArith List Bool Lia Permutation.
From Verif Require Import Prelude Prelude_proofs DataPrep_model DataPrep_spec DataPrep_proofs DataPrep_main Eval_model Eval_spec Eval_proofs Eval_main
  Tables_model Stream_model Stream_spec Stream_main Search_model Search_spec Full_spec Hps_model Hps_spec.
From Verif Require Search_main Search_grid Full_exp.
Import ListNotations.
Open Scope Z_scope.

Section Val.
  Variables (ms : mappings) (rec : list Z -> res (list (list Z))) (P : list row) (k : nat).
  Variable chosen : Z -> list Z -> Prop.
  Hypothesis mu : bij (m_users ms) 0.
  Hypothesis mi : bij (m_items ms) 0.
  Hypothesis kn : forall r, known ms r = heard P r.
  Hypothesis rec_iff : forall us, (exists rows, rec us = Ok rows) <-> forall u, In u us -> serves k P u.
  Hypothesis rec_ext : forall us rows, rec us = Ok rows -> Forall2 (fun u row => offer k P u row /\ chosen u row) us rows.

  Lemma selection c : exists sel, get_users_to_recommend_test_items c ms = (map r_user sel, map r_item sel) /\
    tested P c sel /\ (forall r, In r sel -> In r c /\ heard P r = true) /\
    (forall r, In r c -> heard P r = true -> In (r_user r) (map r_user sel)) /\
    ((exists r, In r c /\ heard P r = true) <-> sel <> []).
  Proof.
    destruct (test_selection_main c ms mu mi) as [sel [E [F [_ [U I]]]]].
    exists sel. split; [exact E|].
    assert (F' : tested P c sel).
    { unfold tested. erewrite filter_ext; [exact F|]. intros r. now rewrite kn. }
    assert (I' : forall r, In r sel -> In r c /\ heard P r = true).
    { intros r Hr. rewrite <- kn. now apply I. }
    assert (U' : forall r, In r c -> heard P r = true -> In (r_user r) (map r_user sel)).
    { intros r Hr Hh. apply U. exists r. rewrite kn. auto. }
    split; auto. split; auto. split; auto. split.
    - intros [r [H1 H2]] ->. now specialize (U' r H1 H2).
    - destruct sel as [|r sel]; [congruence|]. intros _. exists r. apply I'. now left.
  Qed.

  Lemma validate_outcome c : match validate ms rec c with
    | Ok h => testable k [] P c /\ hit_report k chosen P c h
    | Err _ => ~ testable k [] P c end.
  Proof.
    destruct (selection c) as [sel [E [F [I [U N]]]]]. unfold validate. rewrite E. cbv zeta.
    destruct (rec (map r_user sel)) as [rows|e] eqn:R; cbn [bind].
    - assert (SV : forall u, In u (map r_user sel) -> serves k P u) by (apply rec_iff; eauto).
      pose proof (rec_ext _ _ R) as X. pose proof (Forall2_len _ _ _ X) as L. rewrite map_length in L.
      assert (L' : (length (map r_item sel) <= length rows)%nat) by (rewrite map_length; lia).
      destruct (list_eq_dec Z.eq_dec (map r_item sel) []) as [Z0|Ne'].
      + destruct (hr_exact_main rows (map r_item sel)) as [_ [H _]]. rewrite H by (rewrite Z0; cbn; auto; lia).
        intros [Ex _]. apply N in Ex. destruct sel; [congruence|discriminate].
      + destruct (hr_ok rows _ L' Ne') as [h [Eh Vh]]. rewrite Eh. rewrite map_length in Vh.
        assert (Ne : sel <> []) by (intros ->; now apply Ne').
        split.
        * split; [now apply N|]. split; [|intros u []]. intros r H1 H2. apply SV. auto.
        * exists sel, rows. split; auto. split; auto. split; [|auto].
          clear -X. remember (map r_user sel) as us eqn:Eu. revert sel Eu.
          induction X; intros [|r sel] Eu; try discriminate; constructor; injection Eu as -> ->; auto.
    - intros [Ex [SV _]]. destruct (proj2 (rec_iff (map r_user sel))) as [rows R'].
      { intros u Hu. apply in_map_iff in Hu as [r [<- Hr]]. apply I in Hr as [H1 H2]. auto. }
      congruence.
  Qed.
End Val.

(** The table and its parts. *)
Lemma prepare_none sort_days data cut : exists stream left,
  prepare_data_for_experiment tb_index tb_day sort_days data cut None = Ok (given_rows data cut, stream, left).
Proof. unfold prepare_data_for_experiment. eauto. Qed.

Lemma split_parted {A} (day : A -> Z) rows q : match train_test_split day rows q with
  | Ok (train, valid) => (0 <= q)%Q /\ (q <= 1)%Q /\ parted day q rows train valid
  | Err e => e = ValueError /\ ~ ((0 <= q)%Q /\ (q <= 1)%Q) end.
Proof.
  destruct (split_main day rows q) as [H1 [H2 H3]].
  assert (D : ((0 <= q)%Q /\ (q <= 1)%Q) \/ ~ ((0 <= q)%Q /\ (q <= 1)%Q)).
  { destruct (Qlt_le_dec q 0); [right; intros [? _]; apply (Qlt_not_le q 0); auto|].
    destruct (Qlt_le_dec 1 q); [right; intros [_ ?]; apply (Qlt_not_le 1 q); auto|]. auto. }
  destruct D as [[Q0 Q1]|B]; [|rewrite H3 by auto; auto].
  destruct rows as [|r rows].
  - rewrite H2 by auto. split; auto. split; auto. cbn. auto.
  - destruct (H1 ltac:(discriminate) Q0 Q1) as (i & pivot & Os & B & E & _). rewrite E. split; auto. split; auto. exists i, pivot. auto.
Qed.

Lemma parted_incl {A} (day : A -> Z) q rows train valid : parted day q rows train valid -> incl train rows /\ incl valid rows.
Proof.
  destruct rows; [intros [-> ->]; split; intros x []|]. intros (i & pivot & _ & _ & -> & ->).
  split; intros x H; apply filter_In in H; tauto.
Qed.

Lemma distinct_incl {B} (f : B -> Z) P Q : incl P Q -> (length (nodup Z.eq_dec (map f P)) <= length (nodup Z.eq_dec (map f Q)))%nat.
Proof.
  intros H. apply NoDup_incl_length; [apply NoDup_nodup|]. intros x. rewrite !nodup_In, !in_map_iff.
  intros [r [E I]]. exists r. auto.
Qed.
Lemma trainable_incl rank P Q : incl P Q -> trainable rank P -> trainable rank Q.
Proof.
  intros I [H1 [H2 H3]]. pose proof (distinct_incl r_user _ _ I). pose proof (distinct_incl r_item _ _ I).
  unfold trainable, n_users_in, n_items_in, ndistinct in *. lia.
Qed.

(** The grid of one parameter. *)
Lemma grid_one ranks (order : list config -> list config) : (forall l, Permutation (order l) l) ->
  exists grid names, full_grid [(0, ranks)] = Ok (grid, names) /\ Permutation (map (hd 0) (order grid)) (nodup Z.eq_dec ranks).
Proof.
  intros Or. destruct (Search_grid.full_grid_main [(0, ranks)]) as [H _].
  destruct (H ltac:(discriminate)) as [grid [E [Nd M]]]. exists grid. eexists. split; [exact E|].
  rewrite Or. assert (Sh : forall c, In c grid -> exists x, c = [x] /\ In x ranks).
  { intros c Hc. apply M in Hc. cbn in Hc. inversion Hc as [|x v c' l' Hx F]; subst. inversion F; subst. eauto. }
  apply NoDup_Permutation.
  - clear M E H. induction grid as [|c grid IH]; [constructor|]. inversion Nd as [|c' g' H1 H2]; subst.
    cbn [map]. constructor; [|apply IH; auto; intros; apply Sh; now right].
    intros J. apply in_map_iff in J as [d [Ed Hd]]. destruct (Sh c) as [x [-> _]]; [now left|]. destruct (Sh d) as [y [-> _]]; [now right|].
    cbn in Ed. subst y. auto.
  - apply NoDup_nodup.
  - intros x. rewrite nodup_In, in_map_iff. split.
    + intros [c [<- Hc]]. destruct (Sh c Hc) as [y [-> Hy]]. auto.
    + intros Hx. exists [x]. split; auto. apply M. cbn. constructor; auto.
Qed.

Lemma grid_outcome {C} (f : C -> res Q) grid : match metric_grid_svd f grid with
  | Ok table => map fst table = grid /\ forall c q, In (c, q) table -> f c = Ok q
  | Err e => exists c, In c grid /\ f c = Err e end.
Proof.
  unfold metric_grid_svd. induction grid as [|c grid IH]; [split; [reflexivity|intros c q []]|].
  cbn [mapM]. destruct (f c) as [q|e] eqn:E; cbn [bind].
  - destruct (mapM _ grid) as [table|e]; cbn [bind].
    + destruct IH as [IH1 IH2]. split; [cbn; now rewrite IH1|]. intros c' q' [H|H]; [injection H as <- <-; auto|auto].
    + destruct IH as [c' [H1 H2]]. exists c'. split; [now right|auto].
  - exists c. split; [now left|auto].
Qed.
