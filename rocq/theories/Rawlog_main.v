(** Proofs about experiments that start from a raw log. *)
From Coq Require Import ZArith Lia List Bool Sorting.Sorted Sorting.Permutation.
From Verif Require Import Prelude Prelude_proofs DataPrep_model DataPrep_spec DataPrep_main Pcore_model Pcore_spec Pcore_main Stream_model Stream_spec
  Stream_main Tables_model Tables_spec Tables_main Pipe_model Pipe_spec Rawlog_spec.
From Verif Require Pipe_main.
Import ListNotations.
Open Scope Z_scope.

Definition raw_dec (x y : raw) : {x = y} + {x <> y}.
Proof. repeat decide equality. Defined.
Lemma filter_perm {X} (f : X -> bool) l l' : Permutation l l' -> Permutation (filter f l) (filter f l').
Proof.
  induction 1 as [|x l l' P IH|x y l|l l' l'' P IH P' IH']; cbn; auto.
  - destruct (f x); auto.
  - destruct (f x), (f y); auto. constructor.
  - now transitivity (filter f l').
Qed.
Notation by_time := (StronglySorted (fun x y => raw_time x <= raw_time y)).
Notation count := (count_occ raw_dec).

(** * Rows determined by a cut *)
Lemma upto_firstn s t n : by_time s -> rows_upto (firstn n s) t = Nat.min n (rows_upto s t).
Proof.
  intro H. revert n. unfold rows_upto. induction H as [|x s H IH F]; intros [|n]; cbn; auto.
  destruct (Z.leb_spec (raw_time x) t) as [L|L]; cbn; [now rewrite IH|]. rewrite IH.
  replace (filter (fun r => raw_time r <=? t) s) with (@nil raw); [cbn; lia|].
  symmetry. rewrite Forall_forall in F. clear - F L. induction s as [|y s IH]; cbn; auto.
  pose proof (F y (or_introl eq_refl)). destruct (Z.leb_spec (raw_time y) t); [lia|]. apply IH. intros; apply F; now right.
Qed.
Lemma before_upto s t : rows_before s t = rows_upto s (t - 1).
Proof. unfold rows_before, rows_upto. f_equal. apply filter_ext. intro r. apply Bool.eq_iff_eq_true. rewrite Z.ltb_lt, Z.leb_le. lia. Qed.
Lemma upto_perm s s' t : Permutation s s' -> rows_upto s t = rows_upto s' t.
Proof. intro P. unfold rows_upto. apply Permutation_length. now apply filter_perm. Qed.

Definition at_time (t : Z) (l : list raw) : list raw := filter (fun r => raw_time r =? t) l.
Lemma at_time_length t l : (length (at_time t l) + rows_before l t = rows_upto l t)%nat.
Proof.
  unfold at_time, rows_before, rows_upto. induction l as [|x l IH]; cbn; auto.
  destruct (Z.eqb_spec (raw_time x) t), (Z.ltb_spec (raw_time x) t), (Z.leb_spec (raw_time x) t); cbn; lia.
Qed.
Lemma at_time_firstn s t n : by_time s ->
  (length (at_time t (firstn n s)) = Nat.min n (rows_upto s t) - Nat.min n (rows_before s t))%nat.
Proof.
  intro H. pose proof (at_time_length t (firstn n s)) as E. rewrite before_upto, !upto_firstn, <- before_upto in E by exact H. lia.
Qed.
Lemma count_at r l : (count l r <= length (at_time (raw_time r) l))%nat.
Proof.
  unfold at_time. induction l as [|x l IH]; cbn; auto. destruct (raw_dec x r) as [->|N].
  - rewrite Z.eqb_refl. cbn. lia.
  - destruct (_ =? _); cbn; lia.
Qed.
Lemma count_all r l : (forall x, In x l -> raw_time x = raw_time r -> x = r) -> count l r = length (at_time (raw_time r) l).
Proof.
  unfold at_time. induction l as [|x l IH]; intro H; cbn; auto. destruct (raw_dec x r) as [->|N].
  - rewrite Z.eqb_refl. cbn. f_equal. apply IH. intros; apply H; auto. now right.
  - destruct (Z.eqb_spec (raw_time x) (raw_time r)) as [E|E]; [destruct N; apply H; auto; now left|].
    apply IH. intros; apply H; auto. now right.
Qed.
Lemma perm_count (l l' : list raw) : Permutation l l' <-> forall r, count l r = count l' r.
Proof. apply Permutation_count_occ. Qed.

Lemma firstn_determined data n s s' : ~ torn data n -> Permutation data s -> Permutation data s' -> by_time s -> by_time s' ->
  Permutation (firstn n s) (firstn n s').
Proof.
  intros NT P P' H H'. apply perm_count. intro r.
  assert (U : forall t, rows_upto s t = rows_upto data t /\ rows_upto s' t = rows_upto data t)
    by (intro; split; symmetry; now apply upto_perm).
  assert (B : forall t, rows_before s t = rows_before data t /\ rows_before s' t = rows_before data t)
    by (intro; rewrite !before_upto; apply U).
  set (t := raw_time r). destruct (U t) as [U1 U2]. destruct (B t) as [B1 B2].
  pose proof (at_time_firstn s t n H) as A1. pose proof (at_time_firstn s' t n H') as A2. rewrite U1, B1 in A1. rewrite U2, B2 in A2.
  destruct (in_dec raw_dec r data) as [I|I].
  2: { assert (Z : forall l, Permutation data l -> count (firstn n l) r = 0%nat).
       { intros l Q. apply count_occ_not_In. intro J. apply I. apply (Permutation_in _ (Permutation_sym Q)).
         rewrite <- (firstn_skipn n l). apply in_or_app. now left. }
       now rewrite !Z. }
  destruct (Nat.le_gt_cases n (rows_before data t)) as [C|C].
  { pose proof (count_at r (firstn n s)). pose proof (count_at r (firstn n s')). fold t in H0, H1. lia. }
  destruct (Nat.le_gt_cases (rows_upto data t) n) as [D|D].
  - assert (Z : forall l, Permutation data l -> by_time l -> count (firstn n l) r = count data r).
    { intros l Q S. rewrite (proj1 (perm_count data l) Q r). rewrite <- (firstn_skipn n l) at 2. rewrite count_occ_app.
      pose proof (at_time_firstn l t n S) as A. rewrite before_upto, <- !(upto_perm _ _ _ Q), <- before_upto in A.
      pose proof (at_time_length t l) as L. rewrite before_upto, <- !(upto_perm _ _ _ Q), <- before_upto in L.
      assert (L' : length (at_time t l) = (length (at_time t (firstn n l)) + length (at_time t (skipn n l)))%nat).
      { rewrite <- app_length. unfold at_time. now rewrite <- filter_app, firstn_skipn. }
      pose proof (count_at r (skipn n l)) as K. fold t in K. lia. }
    now rewrite !Z.
  - assert (ALL : forall x, In x data -> raw_time x = raw_time r -> x = r).
    { intros x J E. destruct (raw_dec x r) as [|N]; auto. destruct NT. exists r, x. repeat split; auto. }
    assert (Z : forall l, Permutation data l -> count (firstn n l) r = length (at_time t (firstn n l))).
    { intros l Q. apply count_all. intros x J. apply ALL. apply (Permutation_in _ (Permutation_sym Q)).
      rewrite <- (firstn_skipn n l). apply in_or_app. now left. }
    rewrite !Z by assumption. lia.
Qed.

(** * A torn cut can be cut in two ways *)
Definition time_sort : list raw -> list raw := Prelude.sort_stable (fun x y => raw_time x <=? raw_time y).
Lemma time_sorts : sorts_by raw_time time_sort.
Proof.
  intro l. split; [apply sort_stable_perm|].
  assert (H := sort_stable_sorted (fun x y => raw_time x <=? raw_time y) (fun x y => Zleb_total (raw_time x) (raw_time y))
                (fun x y z => Zle_bool_trans (raw_time x) (raw_time y) (raw_time z)) l).
  unfold time_sort. eapply sorted_impl_in; [|exact H]. cbn. intros x y _ _ E. now apply Z.leb_le.
Qed.
Lemma parts_perm (t : Z) (l : list raw) :
  Permutation l (filter (fun r => raw_time r <? t) l ++ at_time t l ++ filter (fun r => t <? raw_time r) l).
Proof.
  unfold at_time. induction l as [|x l IH]; cbn; auto.
  destruct (Z.ltb_spec (raw_time x) t), (Z.eqb_spec (raw_time x) t), (Z.ltb_spec t (raw_time x)); try lia; cbn.
  - now constructor.
  - apply Permutation_cons_app. exact IH.
  - rewrite app_assoc in *. apply Permutation_cons_app. exact IH.
Qed.
Lemma sorted_app {X} (key : X -> Z) l l' : StronglySorted (fun x y => key x <= key y) l -> StronglySorted (fun x y => key x <= key y) l' ->
  (forall x y, In x l -> In y l' -> key x <= key y) -> StronglySorted (fun x y => key x <= key y) (l ++ l').
Proof.
  induction 1 as [|x l H IH F]; intros H' K; cbn; auto. constructor.
  - apply IH; auto. intros; apply K; auto. now right.
  - rewrite Forall_forall in *. intros y I. apply in_app_or in I as [I|I]; auto. apply K; auto. now left.
Qed.
Lemma sorted_same {X} (key : X -> Z) t l : (forall x, In x l -> key x = t) -> StronglySorted (fun x y => key x <= key y) l.
Proof.
  induction l as [|x l IH]; intro H; constructor.
  - apply IH. intros; apply H; now right.
  - apply Forall_forall. intros y I. rewrite (H x (or_introl eq_refl)), (H y (or_intror I)). lia.
Qed.

Lemma torn_swap data n : torn data n -> exists p x y q, x <> y /\ length p = (n - 1)%nat /\ (0 < n)%nat /\
  Permutation data (p ++ x :: y :: q) /\ by_time (p ++ x :: y :: q) /\ Permutation data (p ++ y :: x :: q) /\ by_time (p ++ y :: x :: q).
Proof.
  intros (x & y & Ix & Iy & NE & E & L1 & L2). set (t := raw_time x) in *.
  set (A := time_sort (filter (fun r => raw_time r <? t) data)). set (C := time_sort (filter (fun r => t <? raw_time r) data)).
  assert (Jx : In x (at_time t data)) by (apply filter_In; split; [exact Ix|apply Z.eqb_refl]).
  assert (Jy : In y (at_time t data)) by (apply filter_In; split; [exact Iy|rewrite <- E; apply Z.eqb_refl]).
  apply in_split in Jx as (e1 & e2 & EE).
  assert (Jy' : In y (e1 ++ e2)). { rewrite EE in Jy. apply in_app_or in Jy as [J|[J|J]]; [apply in_or_app; now left|contradiction|apply in_or_app; now right]. }
  apply in_split in Jy' as (b1 & b2 & EB). set (B := b1 ++ b2).
  assert (PB : Permutation (at_time t data) (x :: y :: B)).
  { rewrite EE. rewrite <- Permutation_middle. constructor. rewrite EB. symmetry. apply Permutation_middle. }
  assert (LB : (length B + 2 + rows_before data t = rows_upto data t)%nat).
  { rewrite <- at_time_length, (Permutation_length PB). cbn. lia. }
  assert (LA : length A = rows_before data t) by (unfold A; rewrite <- (Permutation_length (proj1 (time_sorts _))); reflexivity).
  set (m := (n - 1 - length A)%nat).
  assert (TB : forall z, In z (x :: y :: B) -> raw_time z = t).
  { intros z I. apply (Permutation_in _ (Permutation_sym PB)) in I. apply filter_In in I as [_ I]. now apply Z.eqb_eq. }
  assert (TA : forall z, In z A -> raw_time z < t).
  { intros z I. apply (Permutation_in _ (Permutation_sym (proj1 (time_sorts _)))) in I. apply filter_In in I as [_ I]. now apply Z.ltb_lt. }
  assert (TC : forall z, In z C -> t < raw_time z).
  { intros z I. apply (Permutation_in _ (Permutation_sym (proj1 (time_sorts _)))) in I. apply filter_In in I as [_ I]. now apply Z.ltb_lt. }
  assert (PD : Permutation data (A ++ (x :: y :: B) ++ C)).
  { rewrite (parts_perm t data) at 1. apply Permutation_app; [apply (proj1 (time_sorts _))|]. apply Permutation_app; [exact PB|apply (proj1 (time_sorts _))]. }
  assert (GOOD : forall a b, Permutation [x; y] [a; b] ->
     Permutation data ((A ++ firstn m B) ++ a :: b :: (skipn m B ++ C)) /\ by_time ((A ++ firstn m B) ++ a :: b :: (skipn m B ++ C))).
  { intros a b Q.
    assert (R : Permutation (x :: y :: B) (firstn m B ++ a :: b :: skipn m B)).
    { rewrite <- (firstn_skipn m B) at 1. change (Permutation ([x; y] ++ (firstn m B ++ skipn m B)) (firstn m B ++ [a; b] ++ skipn m B)).
      rewrite Q. rewrite !app_assoc. apply Permutation_app_tail. apply Permutation_app_comm. }
    split.
    - rewrite PD. rewrite <- app_assoc. apply Permutation_app_head. rewrite R. rewrite <- app_assoc. reflexivity.
    - rewrite <- app_assoc. apply sorted_app; [apply (proj2 (time_sorts _))| |].
      + change (firstn m B ++ a :: b :: skipn m B ++ C) with (firstn m B ++ (a :: b :: skipn m B) ++ C). rewrite app_assoc.
        apply sorted_app; [|apply (proj2 (time_sorts _))|].
        * apply (sorted_same raw_time t). intros z I. apply TB. apply (Permutation_in _ (Permutation_sym R)). exact I.
        * intros u v I J. apply (Permutation_in _ (Permutation_sym R)) in I. apply TB in I. apply TC in J. lia.
      + intros u v I J. apply TA in I. assert (t <= raw_time v); [|lia].
        change (firstn m B ++ a :: b :: skipn m B ++ C) with (firstn m B ++ (a :: b :: skipn m B) ++ C) in J. rewrite app_assoc in J.
        apply in_app_or in J as [J|J].
        * apply (Permutation_in _ (Permutation_sym R)) in J. apply TB in J. lia.
        * apply TC in J. lia. }
  exists (A ++ firstn m B), x, y, (skipn m B ++ C).
  destruct (GOOD x y (Permutation_refl _)) as [G1 G2]. destruct (GOOD y x (perm_swap _ _ _)) as [G3 G4].
  split; [exact NE|]. split; [|split; [lia|auto]].
  rewrite app_length, firstn_length_le by (unfold m; lia). unfold m. lia.
Qed.

(** A sort that returns [s] for [data]. *)
Definition sort_to (data s : list raw) (l : list raw) : list raw := if list_eq_dec raw_dec l data then s else time_sort l.
Lemma sort_to_ok data s : Permutation data s -> by_time s -> sorts_by raw_time (sort_to data s) /\ sort_to data s data = s.
Proof.
  intros P S. unfold sort_to. split.
  - intro l. destruct (list_eq_dec raw_dec l data) as [->|]; [auto|apply time_sorts].
  - destruct (list_eq_dec raw_dec data data); congruence.
Qed.

(** * Splits of tables with the same rows *)
Lemma np_unique_perm (l l' : list Z) : Permutation l l' -> np_unique l = np_unique l'.
Proof.
  intro P. apply Pipe_main.increasing_ext; try apply np_unique_increasing. intro x. rewrite !np_unique_In.
  split; apply Permutation_in; auto. now symmetry.
Qed.
Definition same_groups {A B} (f : A -> B) (s s' : list (Z * list A)) : Prop :=
  Forall2 (fun g g' => fst g = fst g' /\ Permutation (map f (snd g)) (map f (snd g'))) s s'.
Lemma groupby_same {A B} (f : A -> B) (key key' : A -> Z) (l l' : list A) (k : B -> Z) :
  (forall r, In r l -> key r = k (f r)) -> (forall r, In r l' -> key' r = k (f r)) -> Permutation (map f l) (map f l') ->
  same_groups f (groupby key l) (groupby key' l').
Proof.
  intros H H' P. unfold groupby.
  assert (E : np_unique (map key l) = np_unique (map key' l')).
  { rewrite (map_ext_in key (fun r => k (f r)) l H), (map_ext_in key' (fun r => k (f r)) l' H').
    rewrite <- (map_map f k l), <- (map_map f k l'). apply np_unique_perm. now apply Permutation_map. }
  rewrite E. generalize (np_unique (map key' l')). clear E. intro ds.
  assert (G : forall d key l, (forall r, In r l -> key r = k (f r)) -> map f (filter (fun r => key r =? d) l) = filter (fun x => k x =? d) (map f l)).
  { clear. intros d key l H. induction l as [|x l IH]; cbn; auto. rewrite (H x (or_introl eq_refl)).
    assert (IH' := IH (fun r I => H r (or_intror I))). destruct (k (f x) =? d); cbn; congruence. }
  induction ds as [|d ds IH]; cbn; constructor; [|exact IH]. cbn. split; [reflexivity|].
  rewrite (G d key l H), (G d key' l' H'). apply filter_perm. exact P.
Qed.

Lemma counts_same {A B} (f : A -> B) (s s' : list (Z * list A)) : same_groups f s s' ->
  map (fun g => (fst g, Z.of_nat (length (snd g)))) s = map (fun g => (fst g, Z.of_nat (length (snd g)))) s'.
Proof.
  induction 1 as [|g g' s s' [E P] H IH]; cbn; auto. rewrite IH, E. do 2 f_equal. f_equal.
  apply Permutation_length in P. now rewrite !map_length in P.
Qed.

(** Tables whose days are those of their times. *)
Definition dated (t : list trow) : Prop := forall r, In r t -> tb_day r = round_day (tb_time r).
Lemma chronological_dated t : chronological t -> dated t.
Proof. intros (_ & _ & _ & H) r I. symmetry. apply round_day_nearest. now apply H. Qed.

Lemma split_same sort_days sort_days' t t' cut hm : sorts_by tb_day sort_days -> sorts_by tb_day sort_days' ->
  chronological t -> chronological t' ->
  exists stream left stream' left',
    prepare_data_for_experiment tb_index tb_day sort_days t cut hm = Ok (firstn (Z.to_nat cut) t, stream, left) /\
    prepare_data_for_experiment tb_index tb_day sort_days' t' cut hm = Ok (firstn (Z.to_nat cut) t', stream', left') /\
    Permutation (concat (map snd stream)) (skipn (Z.to_nat cut) t) /\ Permutation (concat (map snd stream')) (skipn (Z.to_nat cut) t') /\
    (Permutation (map content (skipn (Z.to_nat cut) t)) (map content (skipn (Z.to_nat cut) t')) -> same_groups content stream stream').
Proof.
  intros SD SD' C C'.
  destruct (prepare_main tb_index tb_day sort_days t cut hm SD) as (i & st & lf & E & Ei & (Q & _) & _).
  destruct (prepare_main tb_index tb_day sort_days' t' cut hm SD') as (i' & st' & lf' & E' & Ei' & (Q' & _) & _).
  destruct (prepared_prefix tb_index t cut 0 (proj1 C)) as [F1 F2]. destruct (prepared_prefix tb_index t' cut 0 (proj1 C')) as [F1' F2'].
  rewrite Z.sub_0_r in *. rewrite F1 in Ei. rewrite F1' in Ei'. subst i i'. rewrite F2 in Q. rewrite F2' in Q'.
  exists st, lf, st', lf'. split; [exact E|]. split; [exact E'|]. split; [exact Q|]. split; [exact Q'|]. intro P.
  set (n := Z.to_nat cut) in *.
  assert (D : forall r, In r (skipn n t) -> tb_day r = (fun x => round_day (r_ts x)) (content r)).
  { intros r I. apply (chronological_dated t C). rewrite <- (firstn_skipn n t). apply in_or_app. now right. }
  assert (D' : forall r, In r (skipn n t') -> tb_day r = (fun x => round_day (r_ts x)) (content r)).
  { intros r I. apply (chronological_dated t' C'). rewrite <- (firstn_skipn n t'). apply in_or_app. now right. }
  unfold prepare_data_for_experiment in E, E'. rewrite F1, F2 in E. rewrite F1', F2' in E'.
  destruct hm as [hm|].
  - destruct (SD (skipn n t)) as [P1 _]. destruct (SD' (skipn n t')) as [P1' _].
    set (left := sort_days (skipn n t)) in *. set (left' := sort_days' (skipn n t')) in *.
    assert (DL : forall r, In r left -> tb_day r = (fun x => round_day (r_ts x)) (content r))
      by (intros r I; apply D; apply (Permutation_in _ (Permutation_sym P1)); exact I).
    assert (DL' : forall r, In r left' -> tb_day r = (fun x => round_day (r_ts x)) (content r))
      by (intros r I; apply D'; apply (Permutation_in _ (Permutation_sym P1')); exact I).
    assert (PL : Permutation (map content left) (map content left')) by (rewrite <- P1, <- P1'; exact P).
    rewrite (counts_same content _ _ (groupby_same content tb_day tb_day left left' _ DL DL' PL)) in E.
    set (m := get_date_to_group_mapping _ hm) in *.
    destruct (mapM _ left) as [lab|] eqn:M; [|discriminate]. destruct (mapM _ left') as [lab'|] eqn:M'; [|discriminate].
    cbn [bind] in E, E'. injection E as <- <-. injection E' as <- <-.
    set (key := fun r : trow => match dget (tb_day r) m with Some g => g | None => 0 end).
    assert (K : forall l lab, mapM (fun r : trow => match dget (tb_day r) m with Some g => Ok (r, g) | None => Err KeyError end) l = Ok lab ->
                lab = map (fun r => (r, key r)) l).
    { clear. intros l. induction l as [|r l IH]; intros lab M; cbn in M; [injection M as <-; reflexivity|].
      destruct (dget (tb_day r) m) as [g|] eqn:G; [|discriminate]. cbn in M. destruct (mapM _ l) as [lab1|]; [|discriminate].
      cbn in M. injection M as <-. assert (KR : key r = g) by (unfold key; now rewrite G).
      cbn [map]. rewrite KR. f_equal. exact (IH lab1 eq_refl). }
    rewrite (K _ _ M), (K _ _ M'), !groupby_labelled.
    apply (groupby_same content key key left left' (fun x => match dget (round_day (r_ts x)) m with Some g => g | None => 0 end)); auto.
    + intros r I. unfold key. now rewrite (DL r I).
    + intros r I. unfold key. now rewrite (DL' r I).
  - injection E as <- _. injection E' as <- _. apply (groupby_same content tb_day tb_day _ _ (fun x => round_day (r_ts x))); auto.
Qed.

(** * Prepared tables *)
Definition by_codes (cu ci : Z -> Z) (r : raw) : row := mkRow (cu (raw_user r)) (ci (raw_item r)) (raw_time r) 1.
Lemma table_content cu ci data : map content (table_of (map cu (map raw_user data)) (map ci (map raw_item data)) data) = map (by_codes cu ci) data.
Proof.
  unfold table_of. generalize 0. induction data as [|r data IH]; intro s; cbn; [reflexivity|]. f_equal. apply IH.
Qed.

Section Prepared.
  (** A way to prepare the log: drop the first [drop] rows in time order, and give codes. *)
  Variable prepare : (list raw -> list raw) -> list raw -> list trow.
  Variable drop : list raw -> nat.
  Variable code : list raw -> raw -> row.
  Hypothesis drop_perm : forall data data', Permutation data data' -> drop data = drop data'.
  Hypothesis code_perm : forall data data', Permutation data data' -> forall r, code data r = code data' r.
  Hypothesis code_inj : forall data x y, In x data -> In y data -> code data x = code data y -> x = y.
  Hypothesis contents : forall sort data, sorts_by raw_time sort ->
    map content (prepare sort data) = map (code data) (skipn (drop data) (sort data)).
  Hypothesis ordered : forall sort data, sorts_by raw_time sort -> chronological (prepare sort data).

  Lemma reproducible_iff data cut hm :
    (forall sort_time sort_time' sort_days sort_days' data' split split',
       sorts_by raw_time sort_time -> sorts_by raw_time sort_time' -> sorts_by tb_day sort_days -> sorts_by tb_day sort_days' ->
       Permutation data data' ->
       prepare_data_for_experiment tb_index tb_day sort_days (prepare sort_time data) cut hm = Ok split ->
       prepare_data_for_experiment tb_index tb_day sort_days' (prepare sort_time' data') cut hm = Ok split' ->
       same_split split split') <->
    ~ torn data (drop data) /\ ~ torn data (drop data + Z.to_nat cut).
  Proof.
    set (a := drop data). set (n := Z.to_nat cut). split.
    - intro H.
      assert (X : forall p x y q, Permutation data (p ++ x :: y :: q) -> by_time (p ++ x :: y :: q) ->
                  Permutation data (p ++ y :: x :: q) -> by_time (p ++ y :: x :: q) -> x <> y ->
                  Permutation (map (code data) (skipn a (p ++ x :: y :: q))) (map (code data) (skipn a (p ++ y :: x :: q))) /\
                  Permutation (map (code data) (firstn n (skipn a (p ++ x :: y :: q)))) (map (code data) (firstn n (skipn a (p ++ y :: x :: q))))).
      { intros p x y q P S P' S' NE.
        destruct (sort_to_ok _ _ P S) as [O1 E1]. destruct (sort_to_ok _ _ P' S') as [O2 E2].
        set (s1 := sort_to _ _) in O1, E1. set (s2 := sort_to _ _) in O2, E2.
        pose (sd := Prelude.sort_stable (fun u v : trow => tb_day u <=? tb_day v)).
        assert (SD : sorts_by tb_day sd).
        { intro l. split; [apply sort_stable_perm|].
          assert (G := sort_stable_sorted (fun u v : trow => tb_day u <=? tb_day v) (fun x y => Zleb_total (tb_day x) (tb_day y))
                (fun x y z => Zle_bool_trans (tb_day x) (tb_day y) (tb_day z)) l).
          eapply sorted_impl_in; [|exact G]. cbn. intros u v _ _ E. now apply Z.leb_le. }
        destruct (split_same sd sd (prepare s1 data) (prepare s2 data) cut hm SD SD (ordered s1 data O1) (ordered s2 data O2))
          as (st & lf & st' & lf' & F1 & F2 & Q1 & Q2 & _).
        specialize (H s1 s2 sd sd data _ _ O1 O2 SD SD (Permutation_refl _) F1 F2). destruct H as [H1 H2]. fold n in H1, Q1, Q2.
        rewrite <- !firstn_map, !contents, E1, E2 in H1 by assumption. fold a in H1. rewrite !firstn_map in H1. split; [|exact H1].
        assert (H3 : Permutation (map content (concat (map snd st))) (map content (concat (map snd st')))).
        { clear - H2. induction H2 as [|g g' st st' [_ P] _ IH]; cbn; auto. rewrite !map_app. now apply Permutation_app. }
        rewrite Q1, Q2, <- !skipn_map, !contents, E1, E2 in H3 by assumption. fold a in H3.
        rewrite <- !firstn_map in H1. assert (H4 := Permutation_app H1 H3). now rewrite !firstn_skipn in H4. }
      assert (NE : forall l l' x y r, x <> y -> In x data -> In y data -> ~ Permutation (map (code data) (l ++ x :: r ++ l')) (map (code data) (l ++ y :: r ++ l'))).
      { intros l l' x y r N Ix Iy P. rewrite !map_app in P. apply Permutation_app_inv_l in P. cbn in P. rewrite map_app in P.
        change (Permutation ([code data x] ++ (map (code data) r ++ map (code data) l')) ([code data y] ++ (map (code data) r ++ map (code data) l'))) in P.
        apply Permutation_app_inv_r in P. apply Permutation_length_1 in P. apply N. now apply (code_inj data). }
      split; intro T.
      + destruct (torn_swap _ _ T) as (p & x & y & q & N & L & POS & P & S & P' & S').
        assert (Ix : In x data) by (apply (Permutation_in _ (Permutation_sym P)), in_or_app; right; now left).
        assert (Iy : In y data) by (apply (Permutation_in _ (Permutation_sym P)), in_or_app; right; right; now left).
        destruct (X _ _ _ _ P S P' S' N) as [Y _].
        assert (SK : forall u v, skipn a (p ++ u :: v :: q) = v :: q).
        { intros u v. change (p ++ u :: v :: q) with (p ++ [u] ++ v :: q). rewrite app_assoc.
          rewrite skipn_app, skipn_all2 by (rewrite app_length; cbn; lia). replace (a - length (p ++ [u]))%nat with 0%nat by (rewrite app_length; cbn; lia). reflexivity. }
        rewrite !SK in Y. apply (NE [] [] y x q); auto. now rewrite app_nil_r.
      + destruct (Nat.eq_dec n 0) as [Z|NZ].
        { (* the same cut *)
          destruct (torn_swap _ _ T) as (p & x & y & q & N & L & POS & P & S & P' & S').
          assert (Ix : In x data) by (apply (Permutation_in _ (Permutation_sym P)), in_or_app; right; now left).
          assert (Iy : In y data) by (apply (Permutation_in _ (Permutation_sym P)), in_or_app; right; right; now left).
          destruct (X _ _ _ _ P S P' S' N) as [Y _].
          assert (SK : forall u v, skipn a (p ++ u :: v :: q) = v :: q).
          { intros u v. change (p ++ u :: v :: q) with (p ++ [u] ++ v :: q). rewrite app_assoc.
            rewrite skipn_app, skipn_all2 by (rewrite app_length; cbn; lia). replace (a - length (p ++ [u]))%nat with 0%nat by (rewrite app_length; cbn; lia). reflexivity. }
          rewrite !SK in Y. apply (NE [] [] y x q); auto. now rewrite app_nil_r. }
        destruct (torn_swap _ _ T) as (p & x & y & q & N & L & POS & P & S & P' & S').
        assert (Ix : In x data) by (apply (Permutation_in _ (Permutation_sym P)), in_or_app; right; now left).
        assert (Iy : In y data) by (apply (Permutation_in _ (Permutation_sym P)), in_or_app; right; right; now left).
        destruct (X _ _ _ _ P S P' S' N) as [_ Y].
        assert (SK : forall u v, firstn n (skipn a (p ++ u :: v :: q)) = skipn a p ++ [u]).
        { intros u v. rewrite skipn_app. replace (a - length p)%nat with 0%nat by lia. cbn [skipn].
          change (skipn a p ++ u :: v :: q) with (skipn a p ++ [u] ++ v :: q). rewrite app_assoc, firstn_app.
          assert (LS : length (skipn a p ++ [u]) = n) by (rewrite app_length, skipn_length; cbn; lia).
          rewrite firstn_all2 by lia. rewrite LS, Nat.sub_diag. cbn [firstn]. apply app_nil_r. }
        rewrite !SK in Y. apply (NE (skipn a p) [] x y []); auto.
    - intros [T1 T2] st st' sd sd' data' sp sp' O O' D D' P F F'.
      destruct (split_same sd sd' (prepare st data) (prepare st' data') cut hm D D' (ordered st data O) (ordered st' data' O'))
        as (s1 & lf1 & s2 & lf2 & F1 & F2 & _ & _ & G).
      rewrite F1 in F. rewrite F2 in F'. injection F as <-. injection F' as <-. fold n in G |- *.
      assert (Pd : Permutation data (st data)) by apply O. assert (Pd' : Permutation data (st' data')) by (rewrite P; apply O').
      assert (A1 := firstn_determined data a _ _ T1 Pd Pd' (proj2 (O data)) (proj2 (O' data'))).
      assert (A2 := firstn_determined data (a + n) _ _ T2 Pd Pd' (proj2 (O data)) (proj2 (O' data'))).
      assert (FS : forall l : list raw, firstn (a + n) l = firstn a l ++ firstn n (skipn a l)).
      { intro l. rewrite <- (firstn_skipn a l) at 1. rewrite firstn_app. destruct (Nat.le_gt_cases (length l) a).
        - rewrite skipn_all2, !firstn_nil by lia. rewrite !app_nil_r. rewrite firstn_firstn. f_equal. lia.
        - rewrite firstn_firstn, firstn_length_le by lia. f_equal; f_equal; lia. }
      rewrite !FS in A2. rewrite A1 in A2. apply Permutation_app_inv_l in A2.
      assert (A3 : Permutation (skipn n (skipn a (st data))) (skipn n (skipn a (st' data')))).
      { assert (Q : Permutation (st data) (st' data')) by (rewrite <- Pd; exact Pd').
        rewrite <- (firstn_skipn a (st data)), <- (firstn_skipn a (st' data')), A1 in Q. apply Permutation_app_inv_l in Q.
        rewrite <- (firstn_skipn n (skipn a (st data))), <- (firstn_skipn n (skipn a (st' data'))), A2 in Q. now apply Permutation_app_inv_l in Q. }
      assert (CE : forall l, map (code data') l = map (code data) l) by (intro; apply map_ext; intro; symmetry; now apply code_perm).
      assert (DE : drop data' = a) by (symmetry; now apply drop_perm).
      split.
      + rewrite <- !firstn_map, !contents by assumption. rewrite DE, CE. fold a. rewrite !firstn_map. now apply Permutation_map.
      + apply G. rewrite <- !skipn_map, !contents by assumption. rewrite DE, CE. fold a. rewrite !skipn_map. now apply Permutation_map.
  Qed.
End Prepared.

Definition code_of (values : list Z) (x : Z) : Z := index_of x (np_unique values).
Lemma code_of_inj values x y : In x values -> In y values -> code_of values x = code_of values y -> x = y.
Proof.
  intros Ix Iy E. unfold code_of in E. apply (proj2 (np_unique_In _ _)) in Ix, Iy.
  assert (S : StronglySorted (fun a b => Z.leb a b = true) (np_unique values)).
  { pose proof (np_unique_increasing values) as I. unfold increasing in I.
    clear - I. induction I as [|a l I IH F]; constructor; auto. rewrite Forall_forall in F. apply Forall_forall. intros b J. apply Z.leb_le. specialize (F b J). lia. }
  destruct (Z.lt_trichotomy x y) as [L|[L|L]]; auto; exfalso.
  - apply (index_lt x y (np_unique values) S Ix Iy) in L. lia.
  - apply (index_lt y x (np_unique values) S Iy Ix) in L. lia.
Qed.
Definition encoded (data : list raw) : raw -> row := by_codes (code_of (map raw_user data)) (code_of (map raw_item data)).
Lemma encoded_perm data data' : Permutation data data' -> forall r, encoded data r = encoded data' r.
Proof.
  intros P r. unfold encoded, by_codes, code_of.
  now rewrite (np_unique_perm (map raw_user data) (map raw_user data')), (np_unique_perm (map raw_item data) (map raw_item data')) by (now apply Permutation_map).
Qed.
Lemma encoded_inj data x y : In x data -> In y data -> encoded data x = encoded data y -> x = y.
Proof.
  intros Ix Iy E. injection E as E1 E2 E3.
  apply code_of_inj in E1; try now apply in_map. apply code_of_inj in E2; try now apply in_map.
  destruct x as [[u i] t], y as [[u' i'] t']. cbn in *. congruence.
Qed.
Lemma encoded_contents sort data : sorts_by raw_time sort ->
  map content (prepare_encoded sort data) = map (encoded data) (skipn 0 (sort data)).
Proof.
  intro S. unfold prepare_encoded, encode_column.
  change (map (fun x => index_of x (np_unique (map raw_user (sort data))))) with (map (code_of (map raw_user (sort data)))).
  change (map (fun x => index_of x (np_unique (map raw_item (sort data))))) with (map (code_of (map raw_item (sort data)))).
  rewrite table_content. cbn [skipn]. apply map_ext. intro r. symmetry. apply encoded_perm. apply S.
Qed.

Lemma encoded_main data cut hm :
  (forall sort_time sort_time' sort_days sort_days' data' split split',
     sorts_by raw_time sort_time -> sorts_by raw_time sort_time' -> sorts_by tb_day sort_days -> sorts_by tb_day sort_days' ->
     Permutation data data' ->
     prepare_data_for_experiment tb_index tb_day sort_days (prepare_encoded sort_time data) cut hm = Ok split ->
     prepare_data_for_experiment tb_index tb_day sort_days' (prepare_encoded sort_time' data') cut hm = Ok split' ->
     same_split split split') <-> ~ torn data (Z.to_nat cut).
Proof.
  rewrite (reproducible_iff prepare_encoded (fun _ => 0%nat) encoded (fun _ _ _ => eq_refl) encoded_perm encoded_inj encoded_contents
             (fun sort data S => proj1 (proj1 (prepared_main sort data S))) data cut hm).
  cbn [Nat.add]. split; [tauto|]. intro T. split; [|exact T]. intros (x & y & _ & _ & _ & _ & L & _). lia.
Qed.

Definition kept_as_is (data : list raw) : raw -> row := by_codes (fun x => x) (fun x => x).
Lemma ml20m_main keep data cut hm :
  (forall sort_time sort_time' sort_days sort_days' data' split split',
     sorts_by raw_time sort_time -> sorts_by raw_time sort_time' -> sorts_by tb_day sort_days -> sorts_by tb_day sort_days' ->
     Permutation data data' ->
     prepare_data_for_experiment tb_index tb_day sort_days (prepare_ml20m sort_time keep data) cut hm = Ok split ->
     prepare_data_for_experiment tb_index tb_day sort_days' (prepare_ml20m sort_time' keep data') cut hm = Ok split' ->
     same_split split split') <-> ~ torn data (length data - keep) /\ ~ torn data (length data - keep + Z.to_nat cut).
Proof.
  apply (reproducible_iff (fun sort data => prepare_ml20m sort keep data) (fun data => length data - keep)%nat kept_as_is).
  - intros d d' P. now rewrite (Permutation_length P).
  - reflexivity.
  - intros d [[u i] t] [[u' i'] t'] _ _ E. injection E as E1 E2 E3. cbn in E1, E2, E3. congruence.
  - intros sort d S. unfold prepare_ml20m, kept_as_is. set (k := lastn keep (sort d)).
    pose proof (table_content (fun x => x) (fun x => x) k) as T. rewrite !map_id in T. rewrite T.
    unfold k, lastn. now rewrite <- (Permutation_length (proj1 (S d))).
  - intros sort d S. apply (proj2 (prepared_main sort d S) keep).
Qed.

(** * Logs without ties *)
Lemma sorted_unique (l l' : list raw) : NoDup (map raw_time l) -> Permutation l l' -> by_time l -> by_time l' -> l = l'.
Proof.
  revert l'. induction l as [|x l IH]; intros l' N P S S'; [symmetry; now apply Permutation_nil|].
  destruct l' as [|y l']; [symmetry in P; now apply Permutation_nil in P|].
  inversion N as [|? ? Nx N']; subst. inversion S as [|? ? S1 F]; subst. inversion S' as [|? ? S1' F']; subst.
  rewrite Forall_forall in F, F'.
  assert (E : x = y).
  { assert (Iy : In y (x :: l)) by (apply (Permutation_in _ (Permutation_sym P)); now left).
    assert (Ix : In x (y :: l')) by (apply (Permutation_in _ P); now left).
    destruct Iy as [|Iy]; auto. destruct Ix as [|Ix]; auto. specialize (F y Iy). specialize (F' x Ix).
    exfalso. apply Nx. replace (raw_time x) with (raw_time y) by lia. now apply in_map. }
  subst y. f_equal. apply IH; auto. now apply Permutation_cons_inv in P.
Qed.
Lemma distinct_main (sort sort' : list raw -> list raw) data data' : sorts_by raw_time sort -> sorts_by raw_time sort' ->
  Permutation data data' -> NoDup (map raw_time data) ->
  prepare_encoded sort data = prepare_encoded sort' data' /\ (forall keep, prepare_ml20m sort keep data = prepare_ml20m sort' keep data').
Proof.
  intros S S' P N. assert (E : sort data = sort' data').
  { apply sorted_unique; [|rewrite <- (proj1 (S data)), P; apply S'|apply S|apply S'].
    apply (Permutation_NoDup (Permutation_map raw_time (proj1 (S data))) N). }
  unfold prepare_encoded, prepare_ml20m. now rewrite E.
Qed.

Lemma suited_main sort data : sorts_by raw_time sort -> in_day_order (prepare_encoded sort data) /\ forall keep, in_day_order (prepare_ml20m sort keep data).
Proof.
  intro S. destruct (prepared_main sort data S) as [[(A & _ & B & _) _] H]. split; [split; auto|].
  intro keep. destruct (H keep) as [(A' & _ & B' & _) _]. split; auto.
Qed.
