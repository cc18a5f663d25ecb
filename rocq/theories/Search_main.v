(** Proofs about early stopping, score grids, choice of parameters and grid sampling. *)
From Coq Require Import ZArith QArith List Bool Lia Lqa Sorting.Sorted Sorting.Permutation.
From Verif Require Import Prelude Prelude_proofs Pcore_spec Pcore_main Search_model Search_spec.
Import ListNotations.
Open Scope Z_scope.

(** * Early stopping *)
Lemma Qle_bool_false x y : Qle_bool x y = false <-> (y < x)%Q.
Proof.
  split; intro H.
  - destruct (Qlt_le_dec y x); auto. apply Qle_bool_iff in q. congruence.
  - destruct (Qle_bool x y) eqn:E; auto. apply Qle_bool_iff in E. lra.
Qed.

Lemma improves_iff P s rest m : best_score P m -> (improves (P ++ s :: rest) (length P) <-> (m < s)%Q).
Proof.
  intros (M0 & Mu & Mi). split.
  - intros (s' & E & S0 & H). rewrite nth_error_app2, Nat.sub_diag in E by lia. injection E as <-.
    destruct Mi as [->|I]; auto. apply In_nth_error in I as (j & J).
    assert (L : (j < length P)%nat) by (apply nth_error_Some; congruence).
    apply (H j m L). now rewrite nth_error_app1.
  - intro L. exists s. rewrite nth_error_app2, Nat.sub_diag by lia. split; auto. split; [lra|].
    intros j t Lj E. rewrite nth_error_app1 in E by lia. apply nth_error_In in E. specialize (Mu t E). lra.
Qed.

Definition stops (p : nat) (all : list Q) (i : nat) : Prop :=
  gives_up p all i /\ forall j, (j < i)%nat -> ~ gives_up p all j.

Lemma best_snoc_le P m s : best_score P m -> (s <= m)%Q -> best_score (P ++ [s]) m.
Proof.
  intros (A & B & C) L. split; auto. split.
  - intros t I. apply in_app_iff in I as [I|[<-|[]]]; auto.
  - destruct C; auto. right. apply in_or_app; auto.
Qed.

Lemma best_snoc_gt P m s : best_score P m -> (m < s)%Q -> best_score (P ++ [s]) s.
Proof.
  intros (A & B & C) L. split; [lra|]. split.
  - intros t I. apply in_app_iff in I as [I|[<-|[]]]; [specialize (B t I); lra | lra].
  - right. apply in_or_app; right; now left.
Qed.

Lemma run_inv p all : forall rest P m c,
  all = P ++ rest -> best_score P m -> (c <= length P)%nat ->
  (forall j, (length P - c <= j < length P)%nat -> ~ improves all j) ->
  ((c < length P)%nat -> improves all (length P - c - 1)) ->
  (forall i, (i < length P)%nat -> ~ gives_up p all i) ->
  let '(st, stop) := cb_run (Z.of_nat p) (mkCb P m (1 + Z.of_nat c)) rest in
  (stop = true /\ exists i, stops p all i /\ metric_list st = firstn i all /\ best_score (firstn (S i) all) (max_metric st)) \/
  (stop = false /\ (forall i, ~ gives_up p all i) /\ metric_list st = all /\ best_score all (max_metric st)).
Proof.
  induction rest as [|s rest IH]; intros P m c E B Lc Hc Hi Hn; cbn [cb_run].
  - right. rewrite app_nil_r in E. subst. split; auto. split; [|split; auto].
    intros i G. apply (Hn i); auto. destruct G as [G _]; lia.
  - unfold cb_step. cbn [max_metric n_iter metric_list].
    pose proof (improves_iff P s rest m B) as Im. rewrite <- E in Im.
    assert (La : (length P < length all)%nat) by (rewrite E, app_length; cbn; lia).
    assert (Ea : all = (P ++ [s]) ++ rest) by (rewrite E, <- app_assoc; reflexivity).
    destruct (Qle_bool s m) eqn:Q.
    + apply Qle_bool_iff in Q. assert (NI : ~ improves all (length P)) by (rewrite Im; lra). cbn [andb negb].
      destruct (Z.ltb_spec (Z.of_nat p) (1 + Z.of_nat c)) as [L|L].
      * left. split; auto. exists (length P). split; [split; auto|].
        -- split; [lia|]. intros j Hj. destruct (Nat.eq_dec j (length P)) as [->|]; auto. apply Hc; lia.
        -- split; [rewrite E, firstn_app, Nat.sub_diag, firstn_all, firstn_O, app_nil_r; reflexivity|].
           rewrite Ea, firstn_app, app_length. cbn [length]. rewrite firstn_all2 by (rewrite app_length; cbn; lia).
           replace (S (length P) - (length P + 1))%nat with 0%nat by lia. rewrite firstn_O, app_nil_r.
           now apply best_snoc_le.
      * cbn [metric_list max_metric n_iter]. specialize (IH (P ++ [s]) m (S c) Ea (best_snoc_le _ _ _ B Q)).
        rewrite app_length in IH. cbn [length] in IH.
        replace (1 + Z.of_nat c + 1) with (1 + Z.of_nat (S c)) by lia. apply IH; clear IH.
        -- lia.
        -- intros j Hj. destruct (Nat.eq_dec j (length P)) as [->|]; auto. apply Hc; lia.
        -- intro H. replace (length P + 1 - S c - 1)%nat with (length P - c - 1)%nat by lia. apply Hi; lia.
        -- intros i H G. destruct (Nat.eq_dec i (length P)) as [->|]; [|apply (Hn i); [lia|exact G]].
           destruct G as [[G1 G2] G3]. apply (G3 (length P - c - 1)%nat); [lia|]. apply Hi; lia.
    + apply Qle_bool_false in Q. assert (I : improves all (length P)) by now apply Im. cbn [andb negb metric_list max_metric n_iter].
      specialize (IH (P ++ [s]) s 0%nat Ea (best_snoc_gt _ _ _ B Q)). rewrite app_length in IH. cbn [length] in IH.
      apply IH; clear IH; try lia.
      * intros _. replace (length P + 1 - 0 - 1)%nat with (length P) by lia. exact I.
      * intros i H G. destruct (Nat.eq_dec i (length P)) as [->|]; [|apply (Hn i); [lia|exact G]].
        destruct G as [G1 G2]. apply (G2 (length P)); [lia|exact I].
Qed.

Lemma cb_run_main p scores :
  let '(st, stop) := cb_run (Z.of_nat p) cb_init scores in
  (stop = true /\ exists i, gives_up p scores i /\ (forall j, (j < i)%nat -> ~ gives_up p scores j) /\
     metric_list st = firstn i scores /\ best_score (firstn (S i) scores) (max_metric st)) \/
  (stop = false /\ (forall i, ~ gives_up p scores i) /\ metric_list st = scores /\ best_score scores (max_metric st)).
Proof.
  pose proof (run_inv p scores scores [] 0%Q 0%nat eq_refl) as H. cbn [length] in H. change (1 + Z.of_nat 0) with 1 in H.
  unfold cb_init. destruct (cb_run _ _ _) as [st stop]. destruct H as [(H1 & i & (G & F) & M & B)|H]; try lia.
  - split; [lra|]. split; [intros s []|auto].
  - left. split; auto. exists i. auto.
  - right; auto.
Qed.

(** * Grids of scores *)
Lemma recorded_run p scores : exists k, recorded p scores k /\
  metric_list (fst (cb_run (Z.of_nat p) cb_init scores)) = firstn k scores /\ (k <= length scores)%nat.
Proof.
  pose proof (cb_run_main p scores) as H. destruct (cb_run _ _ _) as [st stop].
  destruct H as [(_ & i & G & F & M & _)|(_ & N & M & _)].
  - exists i. split; [left; auto|]. split; auto. destruct G as [G _]; lia.
  - exists (length scores). split; [right; auto|]. rewrite firstn_all. auto.
Qed.

Lemma rows_combine {C} (cfg : C) scores k : (k <= length scores)%nat ->
  combine (map (fun j => (cfg, Z.of_nat j)) (seq 1 (length (firstn k scores)))) (firstn k scores) = config_rows cfg scores k.
Proof.
  intro L. rewrite firstn_length_le by lia. unfold config_rows. rewrite <- seq_shift, map_map.
  assert (G : forall s scores k, (k <= length scores)%nat ->
     combine (map (fun j => (cfg, Z.of_nat (S j))) (seq s k)) (firstn k scores) =
     map (fun j => (cfg, Z.of_nat (S j), nth (j - s) scores 0%Q)) (seq s k)).
  { clear. intros s scores k. revert s scores. induction k; intros s scores L; auto.
    destruct scores as [|x scores]; [cbn in L; lia|]. cbn [seq firstn map combine].
    rewrite Nat.sub_diag. cbn [nth]. f_equal. rewrite IHk by (cbn in L; lia). apply map_ext_in. intros j I.
    apply in_seq in I. replace (j - s)%nat with (S (j - S s)) by lia. reflexivity. }
  rewrite (G 0%nat scores k L). apply map_ext. intro j. now rewrite Nat.sub_0_r.
Qed.

Lemma tdrec_grid_main {C} (train : C -> res (list Q)) (scores : C -> list Q) p grid :
  (forall cfg, In cfg grid -> train cfg = Ok (scores cfg)) ->
  exists stop : C -> nat,
    (forall cfg, In cfg grid -> recorded p (scores cfg) (stop cfg)) /\
    metric_grid_tdrec train (Z.of_nat p) grid = Ok (flat_map (fun cfg => config_rows cfg (scores cfg) (stop cfg)) grid).
Proof.
  intro H.
  set (stop := fun cfg => length (metric_list (fst (cb_run (Z.of_nat p) cb_init (scores cfg))))).
  assert (Hs : forall cfg, recorded p (scores cfg) (stop cfg) /\
     metric_list (fst (cb_run (Z.of_nat p) cb_init (scores cfg))) = firstn (stop cfg) (scores cfg) /\
     (stop cfg <= length (scores cfg))%nat).
  { intro cfg. destruct (recorded_run p (scores cfg)) as (k & R & M & L).
    assert (E : stop cfg = k) by (unfold stop; rewrite M, firstn_length_le; auto). now rewrite E. }
  exists stop. split; [intros; apply Hs|].
  unfold metric_grid_tdrec.
  assert (G : forall grid metrics params, (forall cfg, In cfg grid -> train cfg = Ok (scores cfg)) -> length metrics = length params ->
     exists ms ps, tdrec_loop train (Z.of_nat p) grid metrics params = Ok (ms, ps) /\ length ms = length ps /\
       combine ps ms = combine params metrics ++ flat_map (fun cfg => config_rows cfg (scores cfg) (stop cfg)) grid).
  { clear H grid. induction grid as [|cfg grid IH]; intros metrics params H L; cbn [tdrec_loop flat_map].
    - exists metrics, params. split; auto. split; auto. now rewrite app_nil_r.
    - rewrite H by now left. cbn [bind]. destruct (Hs cfg) as (_ & M & Lk).
      destruct (cb_run _ _ (scores cfg)) as [st b] eqn:Ec. cbn [fst] in M. rewrite M.
      set (ps := map _ (seq 1 _)).
      assert (Lp : length ps = length (firstn (stop cfg) (scores cfg))) by (unfold ps; now rewrite map_length, seq_length).
      destruct (IH (metrics ++ firstn (stop cfg) (scores cfg)) (params ++ ps)) as (ms' & ps' & E & L' & C').
      { intros; apply H; now right. }
      { rewrite !app_length. lia. }
      exists ms', ps'. split; auto. split; auto. rewrite C', app_assoc. f_equal.
      rewrite <- (rows_combine cfg (scores cfg) (stop cfg) Lk). fold ps. clear -L Lp.
      revert params L. induction metrics; intros [|q params] L; try discriminate; cbn; auto.
      f_equal. apply IHmetrics. now injection L. }
  destruct (G grid [] [] H eq_refl) as (ms & ps & E & L & C'). rewrite E. cbn [bind].
  rewrite (proj2 (Nat.eqb_eq _ _) L). cbn in C'. now rewrite C'.
Qed.

(** * Choice of parameters *)
Lemma first_min_spec {A} (key : A -> Z) : forall l best,
  exists pre post, best :: l = pre ++ first_min key best l :: post /\
    (forall x, In x pre -> key (first_min key best l) < key x) /\
    (forall x, In x post -> key (first_min key best l) <= key x).
Proof.
  induction l as [|x l IH]; intro best; cbn [first_min].
  - exists [], []. repeat split; intros ? [].
  - destruct (Z.ltb_spec (key x) (key best)) as [L|L].
    + destruct (IH x) as (pre & post & E & H1 & H2). exists (best :: pre), post. split; [now rewrite E|]. split; auto.
      intros y [<-|I]; auto.
      assert (key (first_min key x l) <= key x); [|lia].
      assert (J : In x (pre ++ first_min key x l :: post)) by (rewrite <- E; now left).
      apply in_app_iff in J as [J|[J|J]]; [specialize (H1 x J); lia | rewrite <- J at 2; lia | auto].
    + destruct (IH best) as (pre & post & E & H1 & H2). set (m := first_min key best l) in *. clearbody m.
      destruct pre as [|b pre]; cbn in E; injection E as E1 E2.
      * exists [], (x :: post). subst m post. split; auto. split; [intros ? HF; destruct HF|].
        intros y [<-|I]; [lia|auto].
      * subst b. exists (best :: x :: pre), post. split; [cbn; now rewrite E2|]. split; auto.
        assert (J := H1 best (or_introl eq_refl)).
        intros y [<-|[<-|I]]; [auto|lia|]. apply H1; now right.
Qed.

Lemma argmin_row_spec {A} (key : A -> Z) l : l <> [] -> exists r, argmin_row key l = Ok r /\ first_smallest key l r.
Proof.
  destruct l as [|x l]; [congruence|]. intros _. exists (first_min key x l). split; auto. apply first_min_spec.
Qed.

Lemma qmax_spec : forall l, l <> [] -> In (qmax l) l /\ forall x, In x l -> (x <= qmax l)%Q.
Proof.
  destruct l as [|x l]; [congruence|]. intros _. cbn [qmax].
  set (f := fun m y => if Qle_bool y m then m else y).
  assert (G : forall l x, (fold_left f l x = x \/ In (fold_left f l x) l) /\ (x <= fold_left f l x)%Q /\
                        forall y, In y l -> (y <= fold_left f l x)%Q).
  { clear. induction l as [|y l IH]; intro x; cbn [fold_left].
    - split; auto. split; [lra|intros ? []].
    - destruct (IH (f x y)) as (A & B & C). assert (Fx : (x <= f x y)%Q /\ (y <= f x y)%Q /\ (f x y = x \/ f x y = y)).
      { unfold f. destruct (Qle_bool y x) eqn:E; [apply Qle_bool_iff in E | apply Qle_bool_false in E]; repeat split; auto; lra. }
      destruct Fx as (F1 & F2 & F3). split; [|split; [lra|]].
      + destruct A as [A|A]; [|right; now right]. rewrite A. destruct F3 as [->| ->]; [left; auto | right; now left].
      + intros z [<-|I]; [lra|auto]. }
  destruct (G l x) as (A & B & C). split.
  - destruct A as [A|A]; [left; auto|right; auto].
  - intros y [<-|I]; auto.
Qed.

Lemma svd_rank_main ds table : ds <> OTHER ->
  (table <> [] -> exists r, get_optimal_svd_rank ds table = Ok (fst r) /\ In r table /\ is_max snd table r /\
     forall x, In x table -> is_max snd table x -> fst r <= fst x) /\
  (table = [] -> get_optimal_svd_rank ds table = Err TypeError).
Proof.
  intro N.
  assert (E : get_optimal_svd_rank ds table =
     do r <- argmin_row fst (filter (fun r => Qle_bool (qmax (map snd table)) (snd r)) table); Ok (fst r)).
  { destruct ds; auto; congruence. }
  rewrite E. split; [|intros ->; reflexivity]. intro Nt.
  assert (Nm : map snd table <> []) by (destruct table; [congruence|discriminate]).
  destruct (qmax_spec _ Nm) as [Mi Mu]. set (mx := qmax (map snd table)) in *.
  assert (Hf : forall r, In r (filter (fun r => Qle_bool mx (snd r)) table) <-> In r table /\ is_max snd table r).
  { intro r. rewrite filter_In. split; intros [I H]; split; auto.
    - intros x J. apply Qle_bool_iff in H. specialize (Mu (snd x) (in_map snd _ _ J)). lra.
    - apply Qle_bool_iff. apply in_map_iff in Mi as (y & <- & J). apply H, J. }
  destruct (argmin_row_spec fst (filter (fun r => Qle_bool mx (snd r)) table)) as (r & Er & (pre & post & Es & H1 & H2)).
  { apply in_map_iff in Mi as (y & Ey & J). intro H.
    assert (K : In y (filter (fun r => Qle_bool mx (snd r)) table)).
    { apply filter_In; split; auto. apply Qle_bool_iff. rewrite Ey. lra. }
    rewrite H in K. destruct K. }
  exists r. rewrite Er. cbn [bind]. split; auto.
  assert (Ir : In r (filter (fun r => Qle_bool mx (snd r)) table)) by (rewrite Es; apply in_or_app; right; now left).
  apply Hf in Ir as [Ir Im]. split; auto. split; auto.
  intros x I M. assert (J : In x (filter (fun r => Qle_bool mx (snd r)) table)) by now apply Hf.
  rewrite Es in J. apply in_app_iff in J as [J|[<-|J]]; [specialize (H1 x J)| |specialize (H2 x J)]; lia.
Qed.

Lemma picks_filter {A} (key : A -> Z) (table : list A) (f : A -> bool) (P : A -> Prop) :
  (forall t, In t table -> (f t = true <-> P t)) ->
  ((exists t, In t table /\ P t) -> exists r, argmin_row key (filter f table) = Ok r /\ picks key table P r) /\
  ((forall t, In t table -> ~ P t) -> argmin_row key (filter f table) = Err TypeError).
Proof.
  intro H. split.
  - intros (t & I & Pt). destruct (argmin_row_spec key (filter f table)) as (r & E & F).
    { intro Hn. assert (J : In t (filter f table)) by (apply filter_In; split; auto; now apply H).
      rewrite Hn in J. destruct J. }
    exists r. split; auto. exists (filter f table). split; [apply sub_filter|]. split; auto.
    intro x. rewrite filter_In. split; intros [J K]; split; auto; now apply (H x J).
  - intro N. replace (filter f table) with (@nil A); auto. symmetry.
    destruct (filter f table) eqn:E; auto. exfalso.
    assert (J : In a (filter f table)) by (rewrite E; now left). apply filter_In in J as [J K].
    apply (N a J). now apply (H a J).
Qed.

(** Second largest value. *)
Lemma qunique_sub l : subsequence (qunique l) l.
Proof.
  induction l; cbn; [constructor|]. apply sub_keep. eapply sub_trans; [apply sub_filter | exact IHl].
Qed.

Lemma qunique_repr l x : In x l -> exists y, In y (qunique l) /\ (y == x)%Q.
Proof.
  induction l as [|a l IH]; [intros []|]. cbn. intros [->|I]; [exists x; split; [now left|reflexivity]|].
  destruct (IH I) as (y & J & E). destruct (Qeq_bool y a) eqn:B.
  - apply Qeq_bool_iff in B. exists a. split; [now left|]. rewrite <- E. now symmetry.
  - exists y. split; auto. right. apply filter_In; split; auto. now rewrite B.
Qed.

Lemma sub_sorted {A} (R : A -> A -> Prop) s l : subsequence s l -> StronglySorted R l -> StronglySorted R s.
Proof.
  induction 1; intro S; auto; inversion S; subst; auto. constructor; auto.
  rewrite Forall_forall in *. intros y I. apply H3. now apply (sub_In s).
Qed.

Lemma distinct_sorted l : StronglySorted (fun x y => Qle_bool y x = true) (distinct_desc l).
Proof.
  unfold distinct_desc. eapply sub_sorted; [apply qunique_sub|].
  apply (sort_stable_sorted (fun x y => Qle_bool y x)).
  - intros x y. rewrite !Qle_bool_iff. destruct (Qlt_le_dec x y); [right|left]; lra.
  - intros x y z. rewrite !Qle_bool_iff. lra.
Qed.

Lemma distinct_In l x : In x (distinct_desc l) -> In x l.
Proof.
  intro I. apply (sub_In _ _ _ (qunique_sub _)) in I.
  eapply Permutation_in; [symmetry; apply (sort_stable_perm (fun x y => Qle_bool y x))|exact I].
Qed.
Lemma distinct_repr l x : In x l -> exists y, In y (distinct_desc l) /\ (y == x)%Q.
Proof. intro I. apply qunique_repr. eapply Permutation_in; [apply sort_stable_perm|exact I]. Qed.

Lemma distinct_head l a r : distinct_desc l = a :: r -> forall y, In y r -> ~ (y == a)%Q.
Proof.
  unfold distinct_desc. destruct (sort_stable _ l) as [|x s]; cbn; [discriminate|].
  intro E. injection E as -> <-. intros y I H. apply filter_In in I as [_ I].
  apply Qeq_bool_iff in H. rewrite H in I. discriminate.
Qed.

Lemma second_main {A} (metric : A -> Q) (l : list A) :
  match nth_error (distinct_desc (map metric l)) 1 with
  | Some v => is_second metric l v
  | None => forall x y, In x l -> In y l -> (metric x == metric y)%Q
  end.
Proof.
  pose proof (distinct_sorted (map metric l)) as S. pose proof (distinct_In (map metric l)) as DI.
  pose proof (distinct_repr (map metric l)) as DR. pose proof (distinct_head (map metric l)) as DH.
  destruct (distinct_desc (map metric l)) as [|a [|v r]] eqn:E; cbn [nth_error].
  - intros x y I. destruct (DR (metric x) (in_map metric _ _ I)) as (z & [] & _).
  - intros x y I J. destruct (DR (metric x) (in_map metric _ _ I)) as (z & [<-|[]] & Z1).
    destruct (DR (metric y) (in_map metric _ _ J)) as (z & [<-|[]] & Z2). rewrite <- Z1. exact Z2.
  - inversion S as [|? ? S' F]; subst. inversion S' as [|? ? S'' F']; subst. rewrite Forall_forall in F, F'.
    assert (Ia : In a (map metric l)) by (apply DI; now left). apply in_map_iff in Ia as (top & Et & It).
    assert (Iv : In v (map metric l)) by (apply DI; right; now left). apply in_map_iff in Iv as (rr & Er & Ir).
    exists rr, top. rewrite Er, Et. split; auto. split; [reflexivity|]. split; auto.
    specialize (DH a (v :: r) eq_refl). split.
    + specialize (F v (or_introl eq_refl)). apply Qle_bool_iff in F. specialize (DH v (or_introl eq_refl)).
      destruct (Qlt_le_dec v a); auto. exfalso; apply DH. lra.
    + intros x I L. destruct (DR (metric x) (in_map metric _ _ I)) as (z & [<-|[<-|J]] & Z1); [now symmetry|lra|].
      specialize (F' z J). apply Qle_bool_iff in F'. lra.
Qed.

Lemma max_iff (params : list trial) t : In t params ->
  (Qle_bool (qmax (map t_metric params)) (t_metric t) = true <-> is_max t_metric params t).
Proof.
  intro I. assert (Nm : map t_metric params <> []) by (destruct params; [destruct I|discriminate]).
  destruct (qmax_spec _ Nm) as [Mi Mu]. rewrite Qle_bool_iff. split.
  - intros H x J. specialize (Mu (t_metric x) (in_map t_metric _ _ J)). lra.
  - intro H. apply in_map_iff in Mi as (y & <- & J). apply H, J.
Qed.

Lemma has_max (params : list trial) : params <> [] -> exists t, In t params /\ is_max t_metric params t.
Proof.
  intro N. assert (Nm : map t_metric params <> []) by (destruct params; [congruence|discriminate]).
  destruct (qmax_spec _ Nm) as [Mi Mu]. apply in_map_iff in Mi as (y & E & J). exists y. split; auto.
  intros x I. rewrite E. apply Mu. now apply in_map.
Qed.

Lemma tdrec_params_main table :
  let early := filter (fun t => t_iter t <=? 5) table in
  let chosen ds P := exists t, get_optimal_tdrec_params ds table = Ok (t_rank t, t_att t, t_iter t) /\ picks volume early P t in
  (forall ds, ds = AMZ_B \/ ds = STEAM ->
     (early <> [] -> chosen ds (is_max t_metric early)) /\
     (early = [] -> get_optimal_tdrec_params ds table = Err TypeError)) /\
  (let P t := is_max t_metric early t /\ ~ (t_att t == 0)%Q in
   ((exists t, In t early /\ P t) -> chosen ML20M P) /\
   ((forall t, In t early -> ~ P t) -> get_optimal_tdrec_params ML20M table = Err TypeError)) /\
  ((forall v, is_second t_metric early v -> chosen AMZ_G (fun t => (v <= t_metric t)%Q)) /\
   ((forall x y, In x early -> In y early -> (t_metric x == t_metric y)%Q) ->
    get_optimal_tdrec_params AMZ_G table = Err IndexError)) /\
  get_optimal_tdrec_params OTHER table = Err RuntimeError.
Proof.
  intros early chosen. split; [|split; [|split; [|reflexivity]]].
  - intros ds Hds.
    assert (E : get_optimal_tdrec_params ds table =
      do t <- argmin_row volume (filter (fun t => Qle_bool (qmax (map t_metric early)) (t_metric t)) early);
      Ok (t_rank t, t_att t, t_iter t)) by (destruct Hds as [->| ->]; reflexivity).
    pose proof (picks_filter volume early _ (is_max t_metric early) (max_iff early)) as [P1 P2]. split.
    + intro N. destruct (P1 (has_max early N)) as (r & Er & Pr). exists r. split; auto. rewrite E, Er. reflexivity.
    + intro N. rewrite E, P2; [reflexivity|]. rewrite N. intros ? [].
  - intro P.
    assert (E : get_optimal_tdrec_params ML20M table =
      do t <- argmin_row volume (filter (fun t => Qle_bool (qmax (map t_metric early)) (t_metric t) && negb (Qeq_bool (t_att t) 0)) early);
      Ok (t_rank t, t_att t, t_iter t)) by reflexivity.
    pose proof (picks_filter volume early (fun t => Qle_bool (qmax (map t_metric early)) (t_metric t) && negb (Qeq_bool (t_att t) 0)) P) as PF.
    destruct PF as [P1 P2].
    { intros t I. rewrite andb_true_iff, negb_true_iff. rewrite (max_iff early t I). unfold P.
      rewrite <- Qeq_bool_iff. destruct (Qeq_bool (t_att t) 0); intuition congruence. }
    split; intro H.
    + destruct (P1 H) as (r & Er & Pr). exists r. split; auto. rewrite E, Er. reflexivity.
    + rewrite E, P2; auto.
  - pose proof (second_main t_metric early) as SM.
    assert (E : get_optimal_tdrec_params AMZ_G table =
      do mask <- match nth_error (distinct_desc (map t_metric early)) 1 with
                 | None => Err IndexError
                 | Some second => Ok (filter (fun t => Qle_bool second (t_metric t)) early)
                 end;
      do t <- argmin_row volume mask; Ok (t_rank t, t_att t, t_iter t)) by reflexivity.
    destruct (nth_error _ 1) as [w|].
    + split.
      * intros v Sv.
        assert (Ev : (v == w)%Q).
        { destruct Sv as (r1 & t1 & I1 & E1 & J1 & L1 & H1). destruct SM as (r2 & t2 & I2 & E2 & J2 & L2 & H2).
          assert (T : (t_metric t1 == t_metric t2)%Q).
          { destruct (Qlt_le_dec (t_metric t1) (t_metric t2)) as [L|L].
            - symmetry; apply (H1 t2 J2). lra.
            - apply Qle_lteq in L as [L|L]; [|now symmetry]. apply (H2 t1 J1). lra. }
          destruct (Q_dec v w) as [[L|L]|L]; auto; exfalso.
          - specialize (H1 r2 I2 ltac:(lra)). lra.
          - specialize (H2 r1 I1 ltac:(lra)). lra. }
        cbn [bind] in E.
        destruct (picks_filter volume early (fun t => Qle_bool w (t_metric t)) (fun t => (v <= t_metric t)%Q)) as [P1 _].
        { intros t I. rewrite Qle_bool_iff, Ev. reflexivity. }
        destruct P1 as (r & Er & Pr).
        { destruct Sv as (r1 & t1 & I1 & E1 & J1 & L1 & H1). exists r1. split; auto. lra. }
        exists r. split; auto. rewrite E, Er. reflexivity.
      * intro H. exfalso. destruct SM as (r & t & I & Er & J & L & _). specialize (H r t I J). lra.
    + split; [|intros _; rewrite E; reflexivity].
      intros v (r & t & I & Er & J & L & _). exfalso. specialize (SM r t I J). lra.
Qed.
