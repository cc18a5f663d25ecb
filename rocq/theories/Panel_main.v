(** Lemmas for C111. *)
From Coq Require Import ZArith QArith Qfield List Bool Lia Permutation.
From Verif Require Import Prelude DataPrep_model Eval_model Eval_spec Tensor_model Recommend_model Recommend_spec Dynamic_model Dynamic_spec Panel_spec.
From Verif Require Eval_proofs Eval_main Dynamic_main Report_graph.
Import ListNotations.
Open Scope Z_scope.

Lemma Forall2_right {X Y} (P : X -> Y -> Prop) (g : X -> Y) l ys :
  (forall x y, In x l -> P x y -> y = g x) -> Forall2 P l ys -> ys = map g l.
Proof.
  intros G F. induction F as [|x y l ys p F IH]; [reflexivity|]. cbn [map].
  rewrite (G x y (or_introl eq_refl) p), IH; [reflexivity|]. intros ? ? I. apply G. now right.
Qed.
Lemma Forall2_in_left {X Y} (P : X -> Y -> Prop) l ys x : Forall2 P l ys -> In x l -> exists y, In y ys /\ P x y.
Proof.
  intros F. induction F as [|x' y l ys p F IH]; intros I; [destruct I|]. destruct I as [<-|I]; [exists y; cbn; auto|].
  destruct (IH I) as (y' & ? & ?). exists y'. cbn. auto.
Qed.

(** A single pair of lists. *)
Lemma single_wji a b k N : (exists q, wji_sim [a] [b] k N = Ok q) <-> (exists q, wji_user N k a b = Ok q).
Proof.
  split; intros [q E].
  - destruct (Eval_main.wji_sim_inv [a] [b] k N q eq_refl E) as (_ & qs & F). cbn [combine] in F. inversion F; subst. eauto.
  - destruct (Eval_main.wji_sim_ok [a] [b] k N [q] eq_refl) as (q' & E' & _); [discriminate|repeat constructor; exact E|]. eauto.
Qed.
Lemma single_value a b k N q q' : wji_user N k a b = Ok q -> wji_sim [a] [b] k N = Ok q' -> (q' == q)%Q.
Proof.
  intros E E'. destruct (Eval_main.wji_sim_ok [a] [b] k N [q] eq_refl) as (q2 & E2 & V); [discriminate|repeat constructor; exact E|].
  rewrite E' in E2. injection E2 as <-. rewrite V. cbn [Qsum length]. change (inject_Z (Z.of_nat 1)) with 1%Q. field.
Qed.

Section Panel.
  Context {S D A V T : Type} (zero : A) (sub : A -> A -> A) (norm : mat A -> V) (div : V -> V -> V) (minus_one : V)
    (clock : nat -> T) (m : api S D A) (grow : D -> list row -> res D) (chunk_mode : bool).
  Hypothesis B : by_user m.
  Hypothesis L : equal_lengths m.

  (** The list of one user in a state; how it changes between two states. *)
  Definition alone (s : S) (u : Z) : list Z := match recommend m s [u] true with Ok [r] => r | _ => [] end.
  Definition changed (s s' : S) (u : Z) : Q :=
    match wji_sim [alone s u] [alone s' u] (width [alone s u]) (n_items m s') with Ok q => q | Err _ => 0%Q end.

  Lemma one_list s u rows : recommend m s [u] true = Ok rows -> rows = [alone s u] /\ recommend m s [u] true = Ok [alone s u].
  Proof.
    intros E. pose proof (proj1 (B s [u] rows ltac:(discriminate)) E) as F. inversion F as [|? r ? ? P F']; subst. inversion F'; subst.
    unfold alone. rewrite P. auto.
  Qed.

  Lemma lists_of s us rows : us <> [] -> (recommend m s us true = Ok rows <->
    rows = map (alone s) us /\ forall u, In u us -> recommend m s [u] true = Ok [alone s u]).
  Proof.
    intros N. rewrite (B s us rows N). split.
    - intros F. split.
      + apply (Forall2_right _ _ _ _ (fun u r _ (P : recommend m s [u] true = Ok [r]) => f_equal (fun z => hd [] z) (proj1 (one_list s u [r] P))) F).
      + intros u I. destruct (Forall2_in_left _ _ _ _ F I) as (r & _ & P). exact (proj2 (one_list s u [r] P)).
    - intros [-> P]. clear N. induction us as [|u us IH]; cbn [map]; constructor; [apply P; now left|]. apply IH. intros v I. apply P. now right.
  Qed.

  Lemma width_lists s us u : us <> [] -> In u us -> (forall u, In u us -> recommend m s [u] true = Ok [alone s u]) ->
    width (map (alone s) us) = length (alone s u).
  Proof.
    intros N I P. destruct us as [|v us]; [congruence|]. cbn [map width]. apply (L s v u); apply P; [now left|exact I].
  Qed.

  (** Comparing the lists of several users is comparing those of each. *)
  Lemma wji_panel s s' us : us <> [] -> (forall u, In u us -> recommend m s [u] true = Ok [alone s u]) ->
    let W := wji_sim (map (alone s) us) (map (alone s') us) (width (map (alone s) us)) (n_items m s') in
    ((exists q, W = Ok q) <-> (forall u, In u us -> exists q, wji_sim [alone s u] [alone s' u] (width [alone s u]) (n_items m s') = Ok q)) /\
    (forall q, W = Ok q -> mean_over us (changed s s') q).
  Proof.
    intros N P. cbv zeta. set (k := width (map (alone s) us)). set (NI := n_items m s').
    assert (K : forall u, In u us -> length (alone s u) = k) by (intros u I; symmetry; now apply width_lists).
    assert (NN : map (alone s) us <> []) by (destruct us; [congruence|discriminate]).
    assert (LL : length (map (alone s) us) = length (map (alone s') us)) by now rewrite !map_length.
    assert (FF : forall vs qs, incl vs us -> Forall2 (fun rr q => wji_user NI k (fst rr) (snd rr) = Ok q) (combine (map (alone s) vs) (map (alone s') vs)) qs ->
      Forall2 (fun u q => wji_user NI (length (alone s u)) (alone s u) (alone s' u) = Ok q) vs qs).
    { induction vs as [|v vs IH]; intros qs I F; cbn [map combine] in F; inversion F; subst; constructor.
      - rewrite (K v (I v (or_introl eq_refl))). assumption.
      - apply IH; [intros x Ix; apply I; now right|assumption]. }
    assert (GG : forall vs, incl vs us -> (forall u, In u vs -> exists q, wji_user NI (length (alone s u)) (alone s u) (alone s' u) = Ok q) ->
      exists qs, Forall2 (fun rr q => wji_user NI k (fst rr) (snd rr) = Ok q) (combine (map (alone s) vs) (map (alone s') vs)) qs).
    { induction vs as [|v vs IH]; intros I E; [exists []; constructor|].
      destruct IH as [qs F]; [intros x Ix; apply I; now right|intros u Iu; apply E; now right|].
      destruct (E v (or_introl eq_refl)) as [q Eq]. exists (q :: qs). cbn [map combine]. constructor; [|exact F].
      cbn [fst snd]. rewrite <- (K v (I v (or_introl eq_refl))). exact Eq. }
    assert (I0 : incl us us) by (intros x; auto).
    split; [split|].
    - intros [q E] u I. apply single_wji. destruct (Eval_main.wji_sim_inv _ _ _ _ _ LL E) as (_ & qs & F).
      destruct (Forall2_in_left _ _ _ _ (FF us qs I0 F) I) as (q' & _ & E'). exists q'. exact E'.
    - intros E. destruct (GG us I0) as [qs F].
      { intros u I. apply single_wji. exact (E u I). }
      destruct (Eval_main.wji_sim_ok _ _ _ _ _ LL NN F) as (q & Eq & _). eauto.
    - intros q E. destruct (Eval_main.wji_sim_inv _ _ _ _ _ LL E) as (_ & qs & F).
      destruct (Eval_main.wji_sim_ok _ _ _ _ _ LL NN F) as (q' & E' & Vq). rewrite E in E'. injection E' as <-.
      unfold mean_over. rewrite map_length in Vq.
      assert (0 < inject_Z (Z.of_nat (length us)))%Q by (apply Eval_proofs.len_pos; destruct us; [congruence|cbn; lia]).
      transitivity (Qsum qs); [rewrite Vq; field; intros Z0; rewrite Z0 in H; discriminate|].
      apply FF in F; [|exact I0]. clear -F. induction F as [|u q us qs E F IH]; [reflexivity|]. cbn [map Qsum]. rewrite IH. apply Qplus_comp; [|reflexivity].
      unfold changed. destruct (single_wji (alone s u) (alone s' u) (length (alone s u)) NI) as [_ X]. destruct X as [q' Eq']; [eauto|].
      fold NI. cbn [width]. rewrite Eq'. symmetry. exact (single_value _ _ _ _ _ _ E Eq').
  Qed.

  Notation run hm us := (dynamical_experiment zero sub norm div minus_one clock m grow us chunk_mode hm).
  Notation hist us := (runs zero sub norm div minus_one m grow us chunk_mode).

  Definition with_lists (H : @history S D A V) (f : nat -> list (list Z)) (g : nat -> Q) : history :=
    mkHistory (st H) (table H) f (emb_u H) (emb_v H) (hits H) (ranks H) g (du H) (dv H).

  Lemma same_states us us' st0 d stream n H H' : hist us st0 d stream n H -> hist us' st0 d stream n H' -> (n <= length stream)%nat ->
    forall t, (t <= n)%nat -> st H' t = st H t /\ table H' t = table H t.
  Proof.
    intros (T1 & T2 & R & _) (T1' & T2' & R' & _) Hn t. induction t as [|t IH]; intros Ht; [split; congruence|].
    destruct IH as [E1 E2]; [lia|]. destruct (nth_error stream t) as [c|] eqn:Et; [|apply nth_error_None in Et; lia].
    destruct (R t c ltac:(lia) Et) as (_ & _ & _ & _ & U). destruct (R' t c ltac:(lia) Et) as (_ & _ & _ & _ & U').
    rewrite E1, E2 in U'. unfold updates in U, U'. destruct chunk_mode; destruct U as [U1 U2], U' as [U1' U2'].
    - split; congruence.
    - rewrite U1 in U1'. injection U1' as U1'. rewrite <- U1' in *. split; congruence.
  Qed.

  Lemma steps_le hm n : (n_steps hm n <= n)%nat.
  Proof. unfold n_steps. destruct (0 <? hm)%Z; lia. Qed.

  (** Only the lists and their comparisons depend on the users. *)
  Lemma change_panel us us' st0 d stream n H f g : hist us st0 d stream n H -> (n <= length stream)%nat ->
    (forall t, (t < n)%nat -> recommend m (st H t) us' true = Ok (f t)) ->
    (forall t, (Datatypes.S t < n)%nat -> wji_sim (f t) (f (Datatypes.S t)) (width (f t)) (n_items m (st H (Datatypes.S t))) = Ok (g t)) ->
    hist us' st0 d stream n (with_lists H f g).
  Proof.
    intros (T1 & T2 & R & C) Hn F G. split; [exact T1|]. split; [exact T2|]. split.
    - intros t c Ht Et. destruct (R t c Ht Et) as (R1 & _ & R3 & R4 & R5). cbn. repeat (split; auto).
    - intros t Ht. destruct (C t Ht) as (_ & C2 & C3). cbn. auto.
  Qed.

  (** From several users to one. *)
  Lemma panel_to_one us u st0 d stream n H : us <> [] -> In u us -> hist us st0 d stream n H -> (n <= length stream)%nat ->
    hist [u] st0 d stream n (with_lists H (fun t => [alone (st H t) u]) (fun t => changed (st H t) (st H (Datatypes.S t)) u)).
  Proof.
    intros N I R Hn.
    assert (RL : forall t, (t < n)%nat -> stab H t = map (alone (st H t)) us /\ forall v, In v us -> recommend m (st H t) [v] true = Ok [alone (st H t) v]).
    { intros t Ht. destruct (nth_error stream t) as [c|] eqn:Et; [|apply nth_error_None in Et; lia].
      destruct R as (_ & _ & R & _). destruct (R t c Ht Et) as (_ & E & _). now apply (proj1 (lists_of _ _ _ N)) in E. }
    apply (change_panel us); [exact R|exact Hn|intros t Ht; now apply RL|].
    intros t Ht. destruct (RL t ltac:(lia)) as [S1 P1]. destruct (RL (Datatypes.S t) Ht) as [S2 P2].
    destruct R as (_ & _ & _ & C). destruct (C t Ht) as (W & _). rewrite S1, S2 in W.
    destruct (wji_panel (st H t) (st H (Datatypes.S t)) us N P1) as [[X _] _]. destruct (X (ex_intro _ _ W) u I) as [q E].
    unfold changed. rewrite E. reflexivity.
  Qed.

  Theorem panel_succeeds_main hm st0 d stream us : us <> [] ->
    (exists dyn, run hm us st0 d stream = Ok dyn) <-> (forall u, In u us -> exists dyn, run hm [u] st0 d stream = Ok dyn).
  Proof.
    intros N. pose proof (steps_le hm (length stream)) as Hn. split.
    - intros [dyn E] u I. apply Dynamic_main.experiment_main in E. destruct E as (H & R & ->).
      eexists. apply Dynamic_main.experiment_main. eexists. split; [|reflexivity]. exact (panel_to_one us u st0 d stream _ H N I R Hn).
    - intros E. destruct us as [|u0 us']; [congruence|]. set (us := u0 :: us') in *.
      destruct (E u0 (or_introl eq_refl)) as [dyn0 E0]. apply Dynamic_main.experiment_main in E0. destruct E0 as (H & R & _).
      set (n := n_steps hm (length stream)) in *.
      assert (All : forall u, In u us -> exists H', hist [u] st0 d stream n H' /\ forall t, (t <= n)%nat -> st H' t = st H t).
      { intros u I. destruct (E u I) as [dyn' E']. apply Dynamic_main.experiment_main in E'. destruct E' as (H' & R' & _).
        exists H'. split; [exact R'|]. intros t Ht. now apply (same_states [u0] [u] st0 d stream n). }
      assert (P : forall t, (t < n)%nat -> forall u, In u us -> recommend m (st H t) [u] true = Ok [alone (st H t) u]).
      { intros t Ht u I. destruct (All u I) as (H' & R' & Sx). destruct (nth_error stream t) as [c|] eqn:Et; [|apply nth_error_None in Et; lia].
        destruct R' as (_ & _ & R' & _). destruct (R' t c Ht Et) as (_ & X & _). rewrite Sx in X by lia. exact (proj2 (one_list _ _ _ X)). }
      assert (W : forall t, (Datatypes.S t < n)%nat -> exists q, wji_sim (map (alone (st H t)) us) (map (alone (st H (Datatypes.S t))) us)
          (width (map (alone (st H t)) us)) (n_items m (st H (Datatypes.S t))) = Ok q).
      { intros t Ht. apply (wji_panel (st H t) (st H (Datatypes.S t)) us N); [now apply P; lia|].
        intros u I. destruct (All u I) as (H' & R' & Sx). destruct (nth_error stream t) as [c|] eqn:Et; [|apply nth_error_None in Et; lia].
        destruct (nth_error stream (Datatypes.S t)) as [c'|] eqn:Et'; [|apply nth_error_None in Et'; lia].
        destruct R' as (_ & _ & R' & C'). destruct (R' t c ltac:(lia) Et) as (_ & X & _). destruct (R' (Datatypes.S t) c' Ht Et') as (_ & X' & _).
        destruct (C' t Ht) as (W & _). rewrite !Sx in * by lia.
        rewrite (proj1 (one_list _ _ _ X)), (proj1 (one_list _ _ _ X')) in W. eauto. }
      set (g t := match wji_sim (map (alone (st H t)) us) (map (alone (st H (Datatypes.S t))) us)
          (width (map (alone (st H t)) us)) (n_items m (st H (Datatypes.S t))) with Ok q => q | Err _ => 0%Q end).
      eexists. apply Dynamic_main.experiment_main. exists (with_lists H (fun t => map (alone (st H t)) us) g). split; [|reflexivity].
      apply (change_panel [u0]); [exact R|exact Hn| |].
      + intros t Ht. apply (proj2 (lists_of _ _ _ N)). split; [reflexivity|]. now apply P.
      + intros t Ht. destruct (W t Ht) as [q Eq]. unfold g. rewrite Eq. reflexivity.
  Qed.

  Theorem panel_mean_main hm st0 d stream us dyn (dyns : Z -> dynamics T V) : us <> [] -> run hm us st0 d stream = Ok dyn ->
    (forall u, In u us -> run hm [u] st0 d stream = Ok (dyns u)) ->
    (forall u, In u us -> same_but_stability dyn (dyns u) /\ length (d_wji (dyns u)) = length (d_wji dyn)) /\
    (forall t w, nth_error (d_wji dyn) t = Some w -> mean_over us (fun u => nth t (d_wji (dyns u)) 0%Q) w).
  Proof.
    intros N E Es. pose proof (steps_le hm (length stream)) as Hn.
    apply Dynamic_main.experiment_main in E. destruct E as (H & R & ->). set (n := n_steps hm (length stream)) in *.
    assert (Is : forall u, In u us -> dyns u = reported norm clock n (with_lists H (fun t => [alone (st H t) u]) (fun t => changed (st H t) (st H (Datatypes.S t)) u))).
    { intros u I. specialize (Es u I).
      assert (E2 : run hm [u] st0 d stream = Ok (reported norm clock n (with_lists H (fun t => [alone (st H t) u]) (fun t => changed (st H t) (st H (Datatypes.S t)) u)))).
      { apply Dynamic_main.experiment_main. eexists. split; [|reflexivity]. exact (panel_to_one us u st0 d stream n H N I R Hn). }
      congruence. }
    split.
    - intros u I. rewrite (Is u I). split; [repeat split|]. cbn [d_wji reported]. now rewrite !Report_graph.series_len.
    - intros t w Ew. cbn [d_wji reported] in Ew.
      assert (Ht : (t < n - 1)%nat). { rewrite <- (Report_graph.series_len _ (n - 1) (agree H)). apply nth_error_Some. congruence. }
      assert (NS : forall X (f : nat -> X), nth_error (series (n - 1) f) t = Some (f t)).
      { intros X f. unfold series. rewrite nth_error_map. replace (nth_error (seq 0 (n - 1)) t) with (Some t); [reflexivity|].
        symmetry. rewrite (nth_error_nth' _ 0%nat) by (rewrite seq_length; exact Ht). now rewrite seq_nth. }
      rewrite NS in Ew. injection Ew as <-.
      assert (RL : forall t, (t < n)%nat -> stab H t = map (alone (st H t)) us /\ forall v, In v us -> recommend m (st H t) [v] true = Ok [alone (st H t) v]).
      { intros s Hs. destruct (nth_error stream s) as [c|] eqn:Et; [|apply nth_error_None in Et; lia].
        destruct R as (_ & _ & R & _). destruct (R s c Hs Et) as (_ & X & _). now apply (proj1 (lists_of _ _ _ N)) in X. }
      destruct (RL t ltac:(lia)) as [S1 P1]. destruct (RL (Datatypes.S t) ltac:(lia)) as [S2 P2].
      destruct R as (_ & _ & _ & C). destruct (C t ltac:(lia)) as (W & _). rewrite S1, S2 in W.
      pose proof (proj2 (wji_panel (st H t) (st H (Datatypes.S t)) us N P1) _ W) as M. unfold mean_over in *. rewrite M.
      clear - Is NS. induction us as [|u us IH]; [reflexivity|]. cbn [map Qsum]. rewrite IH by (intros v I; apply Is; now right).
      apply Qplus_comp; [|reflexivity]. rewrite (Is u (or_introl eq_refl)). cbn [d_wji reported agree with_lists].
      rewrite (nth_error_nth _ _ _ (NS _ _)). reflexivity.
  Qed.

  Theorem panel_order_main hm st0 d stream us us' dyn : us <> [] -> Permutation us us' -> run hm us st0 d stream = Ok dyn ->
    exists dyn', run hm us' st0 d stream = Ok dyn' /\ same_but_stability dyn dyn' /\ Forall2 Qeq (d_wji dyn) (d_wji dyn').
  Proof.
    intros N P E.
    assert (N' : us' <> []) by (intros ->; apply Permutation_sym, Permutation_nil in P; congruence).
    assert (A1 : forall u, In u us -> exists x, run hm [u] st0 d stream = Ok x) by (apply panel_succeeds_main; [exact N|eauto]).
    assert (A2 : forall u, In u us' -> exists x, run hm [u] st0 d stream = Ok x).
    { intros u I. apply A1. eapply Permutation_in; [apply Permutation_sym, P|exact I]. }
    destruct (proj2 (panel_succeeds_main hm st0 d stream us' N') A2) as [dyn' E']. exists dyn'. split; [exact E'|].
    set (dyns u := match run hm [u] st0 d stream with Ok x => x | Err _ => dyn end).
    assert (D1 : forall u, In u us -> run hm [u] st0 d stream = Ok (dyns u)) by (intros u I; unfold dyns; destruct (A1 u I) as [x ->]; reflexivity).
    assert (D2 : forall u, In u us' -> run hm [u] st0 d stream = Ok (dyns u)) by (intros u I; unfold dyns; destruct (A2 u I) as [x ->]; reflexivity).
    destruct (panel_mean_main hm st0 d stream us dyn dyns N E D1) as [M1 M2].
    destruct (panel_mean_main hm st0 d stream us' dyn' dyns N' E' D2) as [M1' M2'].
    destruct us as [|u us0]; [congruence|]. set (us := u :: us0) in *.
    assert (Iu : In u us) by now left. assert (Iu' : In u us') by (eapply Permutation_in; [exact P|exact Iu]).
    destruct (M1 u Iu) as [S1 L1]. destruct (M1' u Iu') as [S2 L2].
    split.
    - unfold same_but_stability in *. intuition congruence.
    - assert (LL : length (d_wji dyn) = length (d_wji dyn')) by congruence.
      enough (X : forall t w w', nth_error (d_wji dyn) t = Some w -> nth_error (d_wji dyn') t = Some w' -> (w == w')%Q).
      { clear -LL X. revert X LL. generalize (d_wji dyn), (d_wji dyn'). induction l as [|x l IH]; intros [|y l'] X LL; try discriminate; constructor.
        - apply (X 0%nat); reflexivity.
        - apply IH; [intros t w w'; apply (X (Datatypes.S t))|now injection LL]. }
      intros t w w' Ew Ew'. specialize (M2 t w Ew). specialize (M2' t w' Ew'). unfold mean_over in *.
      rewrite <- (Permutation_length P) in M2'.
      assert (Sm : (Qsum (map (fun u => nth t (d_wji (dyns u)) 0%Q) us) == Qsum (map (fun u => nth t (d_wji (dyns u)) 0%Q) us'))%Q).
      { clear -P. induction P; cbn [map Qsum]; [reflexivity|now rewrite IHP|ring|now rewrite IHP1]. }
      rewrite Sm, <- M2' in M2. apply Qmult_inj_r in M2; [exact M2|].
      intros Z0. assert (HP : (0 < inject_Z (Z.of_nat (length us)))%Q) by (apply Eval_proofs.len_pos; cbn; lia).
      apply (Qlt_not_eq _ _ HP). symmetry. exact Z0.
  Qed.
End Panel.

(** ** The recommenders of the repository *)
Section Rec.
  Context {A : Type} (leb : A -> A -> bool) (argpart : nat -> list A -> nat -> list nat) (k : nat) (fv : bool).
  Hypothesis C : argpartition_contract leb argpart.
  Hypothesis Same : forall i a kth, argpart i a kth = argpart 0%nat a kth.
  Notation rc := (Recommend_model.recommend argpart).

  Lemma user_same st k' i u : recommend_user argpart st fv true k' i u = recommend_user argpart st fv true k' 0 u.
  Proof.
    assert (T : forall a, top_positions argpart i a k' = top_positions argpart 0 a k') by (intros a; unfold top_positions; now rewrite Same).
    unfold recommend_user. destruct (rs_scores st u) as [sc|e]; [|reflexivity]. cbn [bind]. destruct fv; rewrite T; reflexivity.
  Qed.

  Lemma loop_rows st k' : forall us i rows, recommend_loop argpart st fv true k' i us = Ok rows <->
    Forall2 (fun u r => recommend_user argpart st fv true k' 0 u = Ok r) us rows.
  Proof.
    induction us as [|u us IH]; intros i rows; cbn [recommend_loop].
    - split; [intros [= <-]; constructor|intros F; inversion F; reflexivity].
    - rewrite user_same. split.
      + intros E. apply Dynamic_main.bind_Ok in E. destruct E as (r & E1 & E). apply Dynamic_main.bind_Ok in E. destruct E as (rs & E2 & [= <-]).
        constructor; [exact E1|]. now apply IH in E2.
      + intros F. inversion F as [|? r ? rs E1 E2]; subst. rewrite E1. cbn [bind]. apply (proj2 (IH (S i) rs)) in E2. rewrite E2. reflexivity.
  Qed.

  Definition alone_in (st : rec_state A) (u : Z) (r : list Z) : Prop :=
    exists a, getitem (old2new (m_users (rs_mappings st))) u = Ok a /\
      recommend_user argpart st fv true (Nat.min k (rs_n_items st)) 0 a = Ok r.
  Definition fits (st : rec_state A) : bool := negb (fv && negb (history_fits (rs_history st) (rs_n_users st) (rs_n_items st))).

  Lemma rec_rows st us rows : rc st us k fv true = Ok rows <-> fits st = true /\ Forall2 (alone_in st) us rows.
  Proof.
    unfold Recommend_model.recommend, fits.
    destruct (mapM (fun uid => getitem (old2new (m_users (rs_mappings st))) uid) us) as [ms|e] eqn:M; cbn [bind].
    - apply Eval_main.mapM_Forall2 in M. destruct (fv && negb _); cbn [negb]; [split; [discriminate|intros [? _]; discriminate]|].
      rewrite loop_rows. split.
      + intros F. split; [reflexivity|]. revert rows F. induction M as [|u a us ms E M IH]; intros rows F; inversion F; subst; constructor; [exists a; auto|].
        apply IH. assumption.
      + intros [_ F]. revert rows F. induction M as [|u a us ms E M IH]; intros rows F; inversion F as [|? ? ? ? (a' & E' & X) F']; subst; constructor; [congruence|].
        apply IH. assumption.
    - split; [discriminate|]. intros [_ F]. exfalso. revert e M. induction F as [|u r us rs (a & E & _) F IH]; intros e M; [discriminate|].
      cbn [mapM] in M. rewrite E in M. cbn [bind] in M. destruct (mapM _ us) as [x|e'] eqn:M'; [discriminate|]. exact (IH e' eq_refl).
  Qed.

  Lemma take_length c idx r : take_all c idx = Ok r -> length r = length idx.
  Proof. intros E. apply Eval_main.mapM_Forall2 in E. symmetry. now apply Eval_proofs.Forall2_length' in E. Qed.

  Lemma top_length i a k' idx : top_positions argpart i a k' = Ok idx -> length idx = k'.
  Proof.
    unfold top_positions. destruct (length a <? k')%nat eqn:Lt; [discriminate|]. intros [= <-]. apply Nat.ltb_ge in Lt.
    rewrite rev_length. unfold lastn. rewrite skipn_length. destruct k' as [|k']; [lia|].
    destruct (C i a (length a - S k')%nat) as [P _]; [lia|]. apply Permutation_length in P. rewrite seq_length in P. lia.
  Qed.

  Lemma row_length st u r : alone_in st u r -> length r = Nat.min k (rs_n_items st).
  Proof.
    intros (a & _ & E). unfold recommend_user in E. apply Dynamic_main.bind_Ok in E. destruct E as (sc & _ & E).
    apply Dynamic_main.bind_Ok in E. destruct E as (c & E & [= <-]). destruct fv.
    - destruct ((0 <=? a) && (a <? Z.of_nat (rs_n_users st))); [|discriminate].
      apply Dynamic_main.bind_Ok in E. destruct E as (idx & E1 & E). apply Dynamic_main.bind_Ok in E. destruct E as (c' & E2 & E).
      rewrite andb_false_r in E. injection E as <-. rewrite (take_length _ _ _ E2). exact (top_length _ _ _ _ E1).
    - apply Dynamic_main.bind_Ok in E. destruct E as (idx & E1 & [= <-]). rewrite map_length. exact (top_length _ _ _ _ E1).
  Qed.

  Theorem recommenders_main {S D B} (m : api S D B) (state : S -> rec_state A) :
    (forall s us internal, recommend m s us internal = rc (state s) us k fv internal) -> by_user m /\ equal_lengths m.
  Proof.
    intros R.
    assert (O : forall s u r, recommend m s [u] true = Ok [r] <-> fits (state s) = true /\ alone_in (state s) u r).
    { intros s u r. rewrite R, rec_rows. split; intros [F X]; (split; [exact F|]); [now inversion X|repeat constructor; exact X]. }
    split.
    - intros s us rows N. rewrite R, rec_rows. split.
      + intros [F X]. induction X as [|u r us rs Y X IH]; [constructor|]. constructor; [apply O; auto|].
        destruct us as [|v us]; [inversion X; constructor|]. apply IH. discriminate.
      + intros X. split.
        * destruct X as [|u r us rs Y X]; [congruence|]. exact (proj1 (proj1 (O s u r) Y)).
        * clear N. induction X as [|u r us rs Y X IH]; constructor; [exact (proj2 (proj1 (O s u r) Y))|exact IH].
    - intros s u v a b Ea Eb. apply O in Ea. apply O in Eb. rewrite (row_length _ _ _ (proj2 Ea)), (row_length _ _ _ (proj2 Eb)). reflexivity.
  Qed.
End Rec.
