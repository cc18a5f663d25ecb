(** Whole experiments for any model whose state describes a table that changes with every step
    in any way; what is asked of a model when the number of items does not fall. *)
From Coq Require Import ZArith QArith List Bool Lia Permutation.
From Verif Require Import Prelude Prelude_proofs DataPrep_model DataPrep_spec DataPrep_proofs DataPrep_main Eval_model Eval_spec Eval_proofs Eval_main Tensor_model Tensor_spec Matrix_model LinAlg_model Full_spec Full_rec Dynamic_model Dynamic_spec Dynamic_main Dynamic_extra.
From Verif Require Recommend_main.
Import ListNotations.
Open Scope Z_scope.

Section Exp.
  Context {S D A V T : Type} (zero : A) (sub : A -> A -> A).
  Variables (norm : mat A -> V) (div : V -> V -> V) (minus_one : V) (clock : nat -> T).
  Variable m : api S D A.
  Variables (grow : D -> list row -> res D) (test_users : list Z) (chunk_mode : bool) (hm : Z).
  Variables (st0 : S) (initial : D) (stream : list (list row)).
  Variable k : nat.
  Hypothesis k1 : (1 <= k)%nat.
  (** The rows the model knows before chunk [t]. *)
  Variable past : nat -> list row.
  Variable good : S -> D -> list row -> Prop.
  (** The histories hold only items of the model. *)
  Variable safe : S -> list row -> Prop.
  Variable fits : nat -> Prop.
  Variable starts : Prop.
  Variable chosen : S -> list row -> Z -> list Z -> Prop.
  Variables width_u width_v : nat.   (* numbers of columns of the embeddings *)

  Variable excuse : exn -> Prop.   (* exceptions of external routines *)

  Hypothesis train_cases : match train m st0 initial with
    | Ok s => starts /\ good s initial (past 0) /\ safe s (past 0)
    | Err e => starts -> excuse e end.
  Hypothesis good_users : forall s d P, good s d P -> bij (m_users (maps m s)) 0.
  Hypothesis good_items : forall s d P, good s d P -> bij (m_items (maps m s)) 0.
  Hypothesis good_known : forall s d P r, good s d P -> known (maps m s) r = heard P r.
  Hypothesis good_rec_only : forall s d P us b rows, good s d P -> recommend m s us b = Ok rows -> forall u, In u us -> serves k P u.
  Hypothesis good_rec_if : forall s d P us b, good s d P -> safe s P -> (forall u, In u us -> serves k P u) -> exists rows, recommend m s us b = Ok rows.
  Hypothesis good_external : forall s d P us rows, good s d P -> recommend m s us false = Ok rows ->
    Forall2 (fun u row => offer k P u row /\ chosen s P u row) us rows.
  Hypothesis good_internal : forall s d P us rows, good s d P -> recommend m s us true = Ok rows ->
    length rows = length us /\
    Forall (fun row => length row = k /\ NoDup row /\ forall j, In j row -> 0 <= j < Z.of_nat (length (catalogue P))) rows.
  Hypothesis good_n : forall s d P, good s d P -> n_items m s = length (catalogue P).
  Hypothesis good_u : forall s d P, good s d P -> exists u, get_u m s = Ok u /\
    mr u = length (nodup Z.eq_dec (map r_user P)) /\ mc u = width_u.
  Hypothesis good_v : forall s d P, good s d P -> exists v, get_v m s = Ok v /\
    mr v = length (catalogue P) /\ mc v = width_v.
  Definition upd_step (sd : S * D) (c : list row) : res (S * D) :=
    if chunk_mode then do s' <- update m (fst sd) (inl c); Ok (s', snd sd)
    else do d' <- grow (snd sd) c; do s' <- update m (fst sd) (inr d'); Ok (s', d').
  Notation n := (n_steps hm (length stream)).
  Definition users_grow t := (length (nodup Z.eq_dec (map r_user (past t))) <= length (nodup Z.eq_dec (map r_user (past (Datatypes.S t)))))%nat.
  Definition items_grow t := (length (catalogue (past t)) <= length (catalogue (past (Datatypes.S t))))%nat.
  Hypothesis update_cases : forall t c s d, (t < n)%nat -> nth_error stream t = Some c -> good s d (past t) -> match upd_step (s, d) c with
    | Ok (s', d') => fits t /\ good s' d' (past (Datatypes.S t)) /\ (safe s (past t) -> items_grow t -> safe s' (past (Datatypes.S t)))
    | Err e => fits t -> excuse e end.
  Hypothesis more_users : forall t, (Datatypes.S t < n)%nat -> users_grow t.

  Notation experiment := (dynamical_experiment zero sub norm div minus_one clock m grow test_users chunk_mode hm st0 initial stream).
  Notation runs := (runs zero sub norm div minus_one m grow test_users chunk_mode).

  Lemma n_le : (n <= length stream)%nat.
  Proof. unfold n_steps. destruct (0 <? hm); lia. Qed.
  Lemma chunk_at t : (t < n)%nat -> exists c, nth_error stream t = Some c.
  Proof.
    intros H. destruct (nth_error stream t) eqn:E; [eauto|]. apply nth_error_None in E. pose proof n_le. lia.
  Qed.
  (** The tests of a chunk. *)
  Lemma tests_of s d P c : good s d P -> exists sel, tests m c s = (map r_user sel, map r_item sel) /\
    tested P c sel /\ (forall r, In r sel -> In r c /\ heard P r = true) /\
    (forall r, In r c -> heard P r = true -> In (r_user r) (map r_user sel)) /\
    ((exists r, In r c /\ heard P r = true) <-> sel <> []).
  Proof.
    intros G. destruct (test_selection_main c (maps m s) (good_users _ _ _ G) (good_items _ _ _ G)) as [sel [E [F [_ [U I]]]]].
    exists sel. split; [exact E|].
    assert (F' : tested P c sel).
    { unfold tested. erewrite filter_ext; [exact F|]. intros r. symmetry. eapply good_known; eauto. }
    assert (I' : forall r, In r sel -> In r c /\ heard P r = true).
    { intros r Hr. rewrite <- (good_known _ _ _ r G). now apply I. }
    assert (U' : forall r, In r c -> heard P r = true -> In (r_user r) (map r_user sel)).
    { intros r Hr Hh. apply U. exists r. rewrite (good_known _ _ _ r G). auto. }
    split; auto. split; auto. split; auto. split.
    - intros [r [H1 H2]] ->. now specialize (U' r H1 H2).
    - destruct sel as [|r sel]; [congruence|]. intros _. exists r. apply I'. now left.
  Qed.

  (** Evaluation of a chunk. *)
  Lemma evaluates_only s d P c h q : good s d P -> evaluates m s c h q ->
    (exists r, In r c /\ heard P r = true) /\ (forall r, In r c -> heard P r = true -> serves k P (r_user r)).
  Proof.
    intros G. destruct (tests_of s d P c G) as [sel [E [F [I [U N]]]]]. unfold evaluates. rewrite E. cbn [fst snd].
    intros [rows [R [Eh Eq]]]. rewrite N. split.
    - intros ->. cbn [map] in Eh. destruct (hr_exact_main rows []) as [_ [H _]]. rewrite H in Eh by auto. discriminate.
    - intros r H1 H2. apply (good_rec_only s d P _ _ _ G R). auto.
  Qed.
  Lemma evaluates_if s d P c : good s d P -> safe s P ->
    (exists r, In r c /\ heard P r = true) -> (forall r, In r c -> heard P r = true -> serves k P (r_user r)) -> exists h q, evaluates m s c h q.
  Proof.
    intros G Sf. destruct (tests_of s d P c G) as [sel [E [F [I [U N]]]]]. rewrite N. unfold evaluates. rewrite E. cbn [fst snd].
    intros Ne SV. destruct (good_rec_if s d P (map r_user sel) false G Sf) as [rows R].
    { intros u Hu. apply in_map_iff in Hu as [r [<- Hr]]. apply I in Hr as [H1 H2]. auto. }
    pose proof (Forall2_len _ _ _ (good_external _ _ _ _ _ G R)) as L. rewrite map_length in L.
    assert (L' : (length (map r_item sel) <= length rows)%nat) by (rewrite map_length; lia).
    assert (Ne' : map r_item sel <> []) by (destruct sel; [congruence|discriminate]).
    destruct (hr_ok rows _ L' Ne') as [h [Eh _]]. destruct (mrr_ok rows _ L' Ne') as [q [Eq _]]. exists h, q, rows. auto.
  Qed.
  Lemma evaluates_report s d P c h q : good s d P -> evaluates m s c h q -> step_report k (chosen s P) P c h q.
  Proof.
    intros G. destruct (tests_of s d P c G) as [sel [E [F [I [U N]]]]]. unfold evaluates. rewrite E. cbn [fst snd].
    intros [rows [R [Eh Eq]]].
    pose proof (good_external _ _ _ _ _ G R) as X. pose proof (Forall2_len _ _ _ X) as L. rewrite map_length in L.
    assert (Ne : sel <> []). { intros ->. cbn [map] in Eh. destruct (hr_exact_main rows []) as [_ [H _]]. rewrite H in Eh by auto. discriminate. }
    assert (L' : (length (map r_item sel) <= length rows)%nat) by (rewrite map_length; lia).
    assert (Ne' : map r_item sel <> []) by (destruct sel; [congruence|discriminate]).
    destruct (hr_ok rows _ L' Ne') as [h' [Eh' Vh]]. rewrite Eh in Eh'. injection Eh' as <-.
    destruct (mrr_is_mean_main rows (map r_item sel)) as [_ [_ M]]. destruct (M L' Ne') as [q' [rrs [Eq' [Fr Vq]]]].
    rewrite Eq in Eq'. injection Eq' as <-. rewrite map_length in Vh, Vq.
    exists sel, rows, rrs. split; auto. split; auto. split; [|auto].
    clear -X. remember (map r_user sel) as us eqn:Eu. revert sel Eu. induction X; intros [|r sel] Eu; try discriminate; constructor.
    - injection Eu as -> ->. auto.
    - injection Eu as -> ->. auto.
  Qed.

  (** Stability and embeddings between two steps. *)
  Lemma agree_if s d P s' d' Q rows rows' : good s d P -> good s' d' Q -> (length (catalogue P) <= length (catalogue Q))%nat ->
    recommend m s test_users true = Ok rows -> recommend m s' test_users true = Ok rows' -> test_users <> [] ->
    exists w, wji_sim rows rows' (width rows) (n_items m s') = Ok w.
  Proof.
    intros G G' Le R R' Nt. destruct (good_internal _ _ _ _ _ G R) as [L F]. destruct (good_internal _ _ _ _ _ G' R') as [L' F'].
    rewrite (good_n _ _ _ G').
    assert (V1 : valid_arr (length (catalogue Q)) k rows).
    { unfold valid_arr. eapply Forall_impl; [|exact F]. intros row [H1 [_ H2]]. split; [auto|]. intros x Hx. specialize (H2 x Hx). lia. }
    assert (V2 : valid_arr (length (catalogue Q)) k rows').
    { unfold valid_arr. eapply Forall_impl; [|exact F']. intros row [H1 [_ H2]]. split; [auto|]. intros x Hx. specialize (H2 x Hx). lia. }
    assert (Ne : rows <> []) by (destruct rows; [destruct test_users; [congruence|discriminate]|congruence]).
    assert (Ew : width rows = k). { destruct rows as [|r0 rows]; [congruence|]. inversion F as [|? ? [H1 _]]; subst. auto. }
    rewrite Ew. destruct (wji_sim_range_main rows rows' k (length (catalogue Q)) ltac:(lia) Ne k1 V1 V2) as [w [Ew' _]]. eauto.
  Qed.
  Lemma agree_only s d P s' d' Q rows rows' w : good s d P -> good s' d' Q ->
    recommend m s test_users true = Ok rows -> recommend m s' test_users true = Ok rows' ->
    wji_sim rows rows' (width rows) (n_items m s') = Ok w -> test_users <> [] /\ (0 <= w <= 1)%Q.
  Proof.
    intros G G' R R' E. destruct (good_internal _ _ _ _ _ G R) as [L F]. destruct (good_internal _ _ _ _ _ G' R') as [L' F'].
    rewrite (good_n _ _ _ G') in E. assert (LL : length rows = length rows') by lia.
    destruct (wji_sim_inv _ _ _ _ _ LL E) as [Ne [qs FQ]].
    assert (Ew : width rows = k). { destruct rows as [|r0 rows]; [congruence|]. inversion F as [|? ? [H1 _]]; subst. auto. }
    rewrite Ew in *. split.
    { intros Et. rewrite Et in L. apply Ne. now destruct rows. }
    assert (B : forall row, In row rows -> forall x, In x row -> x < Z.of_nat (length (catalogue Q))).
    { intros row Hr x Hx. apply Z.nle_gt. intros Hge.
      assert (Hc : exists row', In (row, row') (combine rows rows')).
      { apply In_nth_error in Hr as [i Hi]. destruct (nth_error rows' i) as [row'|] eqn:Ei.
        - exists row'. clear -Hi Ei. revert rows rows' Hi Ei. induction i as [|i IH]; intros [|a l] [|b l'] Hi Ei; cbn in *; try discriminate.
          + injection Hi as ->. injection Ei as ->. auto.
          + right. eauto.
        - apply nth_error_None in Ei. assert (i < length rows)%nat by (apply nth_error_Some; congruence). lia. }
      destruct Hc as [row' Hc]. destruct (Recommend_main.Forall2_In_l _ _ _ _ FQ Hc) as [q [_ Hq]]. cbn [fst snd] in Hq. unfold wji_user in Hq.
      rewrite Forall_forall in F. destruct (F row Hr) as [H1 [_ H2]].
      rewrite (bow_bad (length (catalogue Q)) k row H1) in Hq; [discriminate| |eauto].
      apply Forall_forall. intros y Hy. now apply H2. }
    assert (V1 : valid_arr (length (catalogue Q)) k rows).
    { apply Forall_forall. intros row Hr. rewrite Forall_forall in F. destruct (F row Hr) as [H1 [_ H2]]. split; [auto|].
      intros x Hx. specialize (H2 x Hx). specialize (B row Hr x Hx). lia. }
    assert (V2 : valid_arr (length (catalogue Q)) k rows').
    { unfold valid_arr. eapply Forall_impl; [|exact F']. intros row [H1 [_ H2]]. split; [auto|]. intros x Hx. specialize (H2 x Hx). lia. }
    destruct (wji_sim_range_main rows rows' k (length (catalogue Q)) LL Ne k1 V1 V2) as [w' [Ew' [Bw _]]].
    rewrite E in Ew'. injection Ew' as <-. exact Bw.
  Qed.
  Lemma change_defined (old new : mat A) : (mr old <= mr new)%nat -> mc old = mc new ->
    exists x, user_change zero sub norm div old new x.
  Proof.
    intros L C.
    assert (P : exists o, pad_rows zero old new = Ok o /\ mr o = mr new /\ mc o = mc new).
    { unfold pad_rows. destruct (Nat.ltb_spec (mr old) (mr new)) as [L'|L']; [|exists old; split; [auto|lia]].
      unfold set_block. rewrite !Nat.eqb_refl, <- C, Nat.eqb_refl. cbn [orb andb]. eexists. split; [reflexivity|]. cbn [zeros build mr mc]. auto. }
    destruct P as [o [Eo [R1 R2]]]. eexists. apply change_compute. rewrite Eo. cbn [bind].
    rewrite (msub_same zero sub) by auto. cbn [bind]. unfold rel_norm. rewrite (msub_same zero sub) by reflexivity. reflexivity.
  Qed.

  (** The run as a function. *)
  Lemma upd_step_updates s d c s' d' : upd_step (s, d) c = Ok (s', d') <-> updates m grow chunk_mode s d c s' d'.
  Proof.
    unfold upd_step, updates. cbn [fst snd]. destruct chunk_mode.
    - destruct (update m s (inl c)) as [x|]; cbn [bind]; split; intros H; try discriminate.
      + injection H as -> ->. auto.
      + destruct H as [-> H]. injection H as ->. reflexivity.
      + destruct H as [_ H]. discriminate.
    - destruct (grow d c) as [y|]; cbn [bind]; [|split; [discriminate|intros [H _]; discriminate]].
      destruct (update m s (inr y)) as [x|] eqn:Ex; cbn [bind].
      + split; [intros H; injection H as <- <-; auto|]. intros [H1 H2]. injection H1 as ->. rewrite Ex in H2. injection H2 as ->. reflexivity.
      + split; [discriminate|]. intros [H1 H2]. injection H1 as ->. rewrite Ex in H2. discriminate.
  Qed.
  Fixpoint trace (s0 : S) (t : nat) : S * D :=
    match t with
    | O => (s0, initial)
    | Datatypes.S t' => match nth_error stream t' with
                        | Some c => match upd_step (trace s0 t') c with Ok x => x | Err _ => trace s0 t' end
                        | None => trace s0 t'
                        end
    end.
  Definition got {X} (d : X) (r : res X) : X := match r with Ok x => x | Err _ => d end.
  Definition built (s0 : S) : history :=
    let s t := fst (trace s0 t) in
    let test t := tests m (nth t stream []) (s t) in
    let rec t := got [] (recommend m (s t) (fst (test t)) false) in
    let stb t := got [] (recommend m (s t) test_users true) in
    let eu t := got (mkMat 0 0 []) (get_u m (s t)) in
    let ev t := got (mkMat 0 0 []) (get_v m (s t)) in
    let ch (f : nat -> mat A) t := got minus_one (do o <- pad_rows zero (f t) (f (Datatypes.S t));
                                                  do df <- msub zero sub (f (Datatypes.S t)) o;
                                                  rel_norm zero sub norm div df (f (Datatypes.S t))) in
    mkHistory s (fun t => snd (trace s0 t)) stb eu ev
      (fun t => got 0%Q (hr (rec t) (snd (test t)))) (fun t => got 0%Q (mrr (rec t) (snd (test t))))
      (fun t => got 0%Q (wji_sim (stb t) (stb (Datatypes.S t)) (width (stb t)) (n_items m (s (Datatypes.S t)))))
      (ch eu) (ch ev).

  Definition all_fit : Prop := starts /\
    (forall t c, (t < n)%nat -> nth_error stream t = Some c -> testable k test_users (past t) c /\ fits t) /\
    ((2 <= n)%nat -> test_users <> []).
  Definition always_grow : Prop := forall t, (Datatypes.S t < n)%nat -> items_grow t.

  Lemma runs_good t H : runs st0 initial stream t H -> (t <= n)%nat ->
    good (st H t) (table H t) (past t) /\ (always_grow -> (t < n)%nat -> safe (st H t) (past t)).
  Proof.
    intros [R1 [R2 [R3 _]]]. revert R3. induction t as [|t IH]; intros R3 Ht.
    - rewrite R2. rewrite R1 in train_cases. destruct train_cases as [_ [G Sf]]. auto.
    - destruct (chunk_at t ltac:(lia)) as [c Ec]. destruct (R3 t c ltac:(lia) Ec) as [_ [_ [_ [_ U]]]].
      destruct IH as [G Sf]; [intros t' c' Ht' Ec'; apply R3; auto; lia|lia|].
      apply upd_step_updates in U. pose proof (update_cases _ c _ _ Ht Ec G) as X. rewrite U in X.
      destruct X as [_ [X1 X2]]. split; [exact X1|]. intros AG Hn. apply X2; [apply Sf; auto; lia|]. now apply AG.
  Qed.
  Lemma runs_less t t' H : (t' <= t)%nat -> runs st0 initial stream t H -> runs st0 initial stream t' H.
  Proof.
    intros L [R1 [R2 [R3 R4]]]. split; auto. split; auto. split; [intros j c Hj Ec; apply R3; auto; lia|].
    intros j Hj. apply R4. lia.
  Qed.

  (** An exception of the update leaves the experiment. *)
  Lemma body_err t c (H : history) s d l calls dyn e :
    inv norm clock t H s d l calls dyn ->
    evaluates m (st H t) c (Dynamic_spec.hits H t) (ranks H t) -> recommend m (st H t) test_users true = Ok (stab H t) ->
    get_u m (st H t) = Ok (emb_u H t) -> get_v m (st H t) = Ok (emb_v H t) ->
    (forall j, t = Datatypes.S j -> pair_facts zero sub norm div minus_one m j H) -> upd_step (st H t, table H t) c = Err e ->
    body zero sub norm div minus_one clock m grow test_users chunk_mode (Z.of_nat t + 1) c s d l calls dyn = Err e.
  Proof.
    intros (-> & -> & L & -> & ->) (rec & Er & Eh & Em) Es Eu Ev Pf Up. unfold tests in *.
    unfold body. destruct (get_users_to_recommend_test_items c (maps m (st H t))) as [users items]. cbn [fst snd] in *.
    rewrite Er. cbn [bind]. rewrite Eh. cbn [bind]. rewrite Em. cbn [bind].
    assert (W : exists l1 l2 w x y, wji_step m test_users (Z.of_nat t + 1) (st H t) l (d_wji (reported norm clock t H)) = Ok (l1, w) /\
       emb_step zero sub norm div minus_one m (Z.of_nat t + 1) (st H t) l1 (rnd_users (reported norm clock t H)) (rnd_items (reported norm clock t H)) = Ok (l2, x, y)).
    { destruct t as [|t].
      - do 5 eexists. cbn [Z.of_nat Z.add]. rewrite (wji_0 m test_users H _ _ Es). split; [reflexivity|].
        rewrite (emb_0 zero sub norm div minus_one m H _ _ _ Eu Ev). reflexivity.
      - destruct (Pf t eq_refl) as (F1 & F2 & F3).
        rewrite (wji_S m test_users t H _ _ L Es F1).
        destruct (emb_S zero sub norm div minus_one clock m t H (mkLocals (Some (stab H t)) (Some (stab H (Datatypes.S t))) (emb1 l) (emb2 l))
                    (rnd_users (reported norm clock (Datatypes.S t) H)) (rnd_items (reported norm clock (Datatypes.S t) H))) as (e1 & Ee); auto.
        { destruct t as [|t]; cbn [emb1 emb2]; apply L. }
        do 5 eexists. split; [reflexivity|]. exact Ee. }
    destruct W as (l1 & l2 & w & x & y & W1 & W2). rewrite W1. cbn [bind]. rewrite W2. cbn [bind]. rewrite Eu. cbn [bind]. rewrite Ev. cbn [bind].
    unfold upd_step in Up. cbn [fst snd] in Up. destruct chunk_mode; cbn [bind] in *.
    - destruct (update m (st H t) (inl c)); cbn [bind] in *; [discriminate|]. injection Up as ->. reflexivity.
    - destruct (grow (table H t) c) as [d'|]; cbn [bind] in *; [|injection Up as ->; reflexivity].
      destruct (update m (st H t) (inr d')); cbn [bind] in *; [discriminate|]. injection Up as ->. reflexivity.
  Qed.

  Lemma build_step s0 t c : train m st0 initial = Ok s0 -> all_fit -> always_grow -> (t < n)%nat -> nth_error stream t = Some c ->
    runs st0 initial stream t (built s0) ->
    let H := built s0 in
    evaluates m (st H t) c (Dynamic_spec.hits H t) (ranks H t) /\ recommend m (st H t) test_users true = Ok (stab H t) /\
    get_u m (st H t) = Ok (emb_u H t) /\ get_v m (st H t) = Ok (emb_v H t) /\
    (forall j, t = Datatypes.S j -> pair_facts zero sub norm div minus_one m j H).
  Proof.
    intros Es [_ [F Ne]] AG Ht Ec R. cbv zeta.
    assert (G : forall j, (j <= t)%nat -> good (fst (trace s0 j)) (snd (trace s0 j)) (past j)).
    { intros j Hj. apply (runs_good j (built s0)); [|lia]. apply (runs_less t); auto. }
    assert (Sf : forall j, (j <= t)%nat -> safe (fst (trace s0 j)) (past j)).
    { intros j Hj. apply (runs_good j (built s0)); auto; [|lia|lia]. apply (runs_less t); auto. }
    assert (Stab : forall j, (j <= t)%nat -> exists rows, recommend m (fst (trace s0 j)) test_users true = Ok rows /\ stab (built s0) j = rows).
    { intros j Hj. destruct (chunk_at j ltac:(lia)) as [c' Ec']. destruct (F j c' ltac:(lia) Ec') as [[_ [_ X]] _].
      apply (good_rec_if _ _ _ test_users true (G j Hj) (Sf j Hj)) in X as [rows E]. exists rows. split; auto. cbn [built stab]. now rewrite E. }
    assert (Emb : forall j, (j <= t)%nat -> exists u v, get_u m (fst (trace s0 j)) = Ok u /\ get_v m (fst (trace s0 j)) = Ok v /\
        emb_u (built s0) j = u /\ emb_v (built s0) j = v /\
        mr u = length (nodup Z.eq_dec (map r_user (past j))) /\ mc u = width_u /\ mr v = length (catalogue (past j)) /\ mc v = width_v).
    { intros j Hj. destruct (good_u _ _ _ (G j Hj)) as [u [Eu [W2 W3]]].
      destruct (good_v _ _ _ (G j Hj)) as [v [Ev [X2 X3]]]. exists u, v. cbn [built emb_u emb_v]. rewrite Eu, Ev. cbn [got]. auto 10. }
    split.
    { destruct (F t c Ht Ec) as [[T1 [T2 _]] _]. destruct (evaluates_if _ _ _ c (G t (le_n _)) (Sf t (le_n _)) T1 T2) as [h [q [rows [Rr [Eh Eq]]]]].
      exists rows. cbn [built Dynamic_spec.hits ranks st]. rewrite (nth_error_nth stream t [] Ec). rewrite Rr. cbn [got]. rewrite Eh, Eq. auto. }
    destruct (Stab t (le_n _)) as [rows [Er Es']]. destruct (Emb t (le_n _)) as [u [v [Eu [Ev' [Hu [Hv _]]]]]].
    split; [rewrite Es'; exact Er|]. split; [rewrite Hu; exact Eu|]. split; [rewrite Hv; exact Ev'|].
    clear rows Er Es' u v Eu Ev' Hu Hv Ec. intros j ->. destruct (chunk_at j ltac:(lia)) as [c' Ec].
    destruct (Stab j ltac:(lia)) as [r1 [E1 S1]]. destruct (Stab (Datatypes.S j) ltac:(lia)) as [r2 [E2 S2]].
    destruct (Emb j ltac:(lia)) as [u1 [v1 [_ [_ [Hu1 [Hv1 [Ru1 [Cu1 [Rv1 Cv1]]]]]]]]].
    destruct (Emb (Datatypes.S j) ltac:(lia)) as [u2 [v2 [_ [_ [Hu2 [Hv2 [Ru2 [Cu2 [Rv2 Cv2]]]]]]]]].
    pose proof (G j ltac:(lia)) as G1. pose proof (G (Datatypes.S j) ltac:(lia)) as G2.
    assert (LC := AG j ltac:(lia)). assert (LU := more_users j ltac:(lia)). unfold items_grow in LC. unfold users_grow in LU.
    destruct (agree_if _ _ _ _ _ _ _ _ G1 G2 LC E1 E2 (Ne ltac:(lia))) as [w Ew].
    split; [rewrite S1, S2; cbn [built agree]; cbn [built stab] in S1, S2; cbn [built st]; rewrite S1, S2; rewrite Ew; reflexivity|].
    destruct (change_defined u1 u2 ltac:(lia) ltac:(lia)) as [x Hx]. destruct (change_defined v1 v2 ltac:(lia) ltac:(lia)) as [y Hy].
    split.
    - rewrite Hu1, Hu2. cbn [built du]. cbn [built emb_u] in Hu1, Hu2. rewrite Hu1, Hu2. apply change_compute in Hx. rewrite Hx. apply change_compute in Hx. exact Hx.
    - unfold item_change. rewrite Hv1, Hv2. destruct (Nat.ltb_spec (mr v2) (mr v1)) as [Lt|_]; [lia|]. rewrite andb_false_r.
      cbn [built dv]. cbn [built emb_v] in Hv1, Hv2. rewrite Hv1, Hv2. apply change_compute in Hy. rewrite Hy. apply change_compute in Hy. exact Hy.
  Qed.

  Lemma outcome_main : match experiment with Ok _ => all_fit /\ ((2 <= n)%nat -> (2 <= length (catalogue (past 1)))%nat -> items_grow 0) | Err e => all_fit -> always_grow -> excuse e end.
  Proof.
    destruct experiment as [dyn|e0] eqn:E.
    - apply experiment_main in E as [H [R _]]. assert (G : forall t, (t <= n)%nat -> good (st H t) (table H t) (past t)).
      { intros t Ht. apply runs_good; auto. apply (runs_less n); auto. }
      destruct R as [R1 [R2 [R3 R4]]]. split.
      + split; [rewrite R1 in train_cases; apply train_cases|]. split.
        * intros t c Ht Ec. specialize (G t ltac:(lia)). destruct (R3 t c Ht Ec) as [Ev [Rs [_ [_ U]]]].
          split; [|apply upd_step_updates in U; pose proof (update_cases _ c _ _ Ht Ec G) as X; rewrite U in X; apply X].
          destruct (evaluates_only _ _ _ _ _ _ G Ev) as [X Y]. split; [auto|split; [auto|]].
          apply (good_rec_only _ _ _ _ _ _ G Rs).
        * intros N. destruct (R4 0%nat ltac:(lia)) as [W _].
          pose proof (G 0%nat ltac:(lia)) as G0. pose proof (G 1%nat ltac:(lia)) as G1.
          destruct (chunk_at 0 ltac:(lia)) as [c0 E0]. destruct (chunk_at 1 ltac:(lia)) as [c1 E1].
          destruct (R3 0%nat c0 ltac:(lia) E0) as [_ [S0 _]]. destruct (R3 1%nat c1 ltac:(lia) E1) as [_ [S1 _]].
          eapply (agree_only _ _ _ _ _ _ _ _ _ G0 G1 S0 S1 W).
      + intros N Two. destruct (R4 0%nat ltac:(lia)) as [_ [_ W]].
        pose proof (G 0%nat ltac:(lia)) as G0. pose proof (G 1%nat ltac:(lia)) as G1.
        destruct (chunk_at 0 ltac:(lia)) as [c0 E0]. destruct (chunk_at 1 ltac:(lia)) as [c1 E1].
        destruct (R3 0%nat c0 ltac:(lia) E0) as [_ [_ [_ [V0 _]]]]. destruct (R3 1%nat c1 ltac:(lia) E1) as [_ [_ [_ [V1 _]]]].
        destruct (good_v _ _ _ G0) as [v0 [Ev0 [Rv0 Cv0]]]. destruct (good_v _ _ _ G1) as [v1 [Ev1 [Rv1 Cv1]]].
        assert (v0 = emb_v H 0) by congruence. assert (v1 = emb_v H 1) by congruence. subst v0 v1.
        unfold items_grow. rewrite <- Rv0, <- Rv1. unfold item_change in W. cbn [Nat.ltb Nat.leb andb] in W.
        apply change_compute in W. unfold pad_rows in W. destruct (Nat.ltb_spec (mr (emb_v H 0)) (mr (emb_v H 1))) as [Lt|Ge]; [lia|].
        cbn [bind] in W. unfold msub, broadcast, bdim in W. rewrite <- Rv1 in Two.
        destruct (Nat.eqb_spec (mr (emb_v H 1)) (mr (emb_v H 0))); [lia|].
        destruct (Nat.eqb_spec (mr (emb_v H 1)) 1); [lia|]. destruct (Nat.eqb_spec (mr (emb_v H 0)) 1); [lia|]. cbn [bind] in W. discriminate.
    - intros Fit AG. assert (X0 : (exists s0, train m st0 initial = Ok s0) \/ exists e, train m st0 initial = Err e)
        by (destruct (train m st0 initial); eauto).
      destruct X0 as [[s0 Es]|[e Es]].
      2:{ assert (E' : experiment = Err e) by (unfold dynamical_experiment; rewrite Es; reflexivity).
          assert (e0 = e) by congruence. subst. rewrite Es in train_cases. apply train_cases. apply Fit. }
      assert (St : forall t, (t <= n)%nat -> excuse e0 \/ runs st0 initial stream t (built s0)).
      { induction t as [|t IH]; intros Ht.
        - right. split; [exact Es|]. split; [reflexivity|]. split; intros; lia.
        - destruct (IH ltac:(lia)) as [|R]; [auto|]. destruct (chunk_at t ltac:(lia)) as [c Ec].
          destruct (build_step s0 t c Es Fit AG ltac:(lia) Ec R) as [B1 [B2 [B3 [B4 B5]]]].
          pose proof (runs_good t _ R ltac:(lia)) as [G _]. pose proof (update_cases _ c _ _ Ht Ec G) as X.
          destruct Fit as [_ [F Ne]]. destruct (F t c ltac:(lia) Ec) as [_ Fi].
          destruct (upd_step (st (built s0) t, table (built s0) t) c) as [[s' d']|e] eqn:Eu.
          + right. assert (Et : trace s0 (Datatypes.S t) = (s', d')).
            { cbn [trace]. rewrite Ec. rewrite (surjective_pairing (trace s0 t)). cbn [built st table] in Eu. now rewrite Eu. }
            destruct R as [R1 [R2 [R3 R4]]]. split; auto. split; auto. split.
            * intros j c' Hj Ec'. destruct (Nat.eq_dec j t) as [->|Nj]; [|apply R3; auto; lia].
              rewrite Ec in Ec'. injection Ec' as <-. do 4 (split; [assumption|]). apply upd_step_updates.
              change (st (built s0) (Datatypes.S t)) with (fst (trace s0 (Datatypes.S t))).
              change (table (built s0) (Datatypes.S t)) with (snd (trace s0 (Datatypes.S t))). rewrite Et. exact Eu.
            * intros j Hj. destruct (Nat.eq_dec (Datatypes.S j) t) as [Ej|Nj]; [now apply B5|]. apply R4. lia.
          + left. destruct (experiment_from zero sub norm div minus_one clock m grow test_users chunk_mode hm st0 initial stream t c (built s0) ltac:(lia) Ec R)
              as (l & calls & dyn & I & B).
            assert (E' : experiment = Err e) by (apply B; eapply body_err; eauto). assert (e0 = e) by congruence. subst. auto. }
      destruct (St n (le_n _)) as [|R]; auto. exfalso.
      assert (experiment = Ok (reported norm clock n (built s0))) by (apply experiment_main; eauto). congruence.
  Qed.

  Lemma report_main dyn : experiment = Ok dyn -> exists (model : nat -> S) (table : nat -> D),
    train m st0 initial = Ok (model 0%nat) /\ table 0%nat = initial /\
    (forall t c, (t < n)%nat -> nth_error stream t = Some c ->
       updates m grow chunk_mode (model t) (table t) c (model (Datatypes.S t)) (table (Datatypes.S t)) /\
       exists h q, nth_error (d_hr dyn) t = Some h /\ nth_error (d_mrr dyn) t = Some q /\
         step_report k (chosen (model t) (past t)) (past t) c h q) /\
    length (d_hr dyn) = n /\ length (d_mrr dyn) = n /\ length (d_wji dyn) = (n - 1)%nat /\
    Forall (fun w => 0 <= w <= 1)%Q (d_wji dyn).
  Proof.
    intros E. apply experiment_main in E as [H [R ->]]. assert (G : forall t, (t <= n)%nat -> good (st H t) (table H t) (past t)).
    { intros t Ht. apply runs_good; auto. apply (runs_less n); auto. }
    destruct R as [R1 [R2 [R3 R4]]]. exists (st H), (table H). split; auto. split; auto. cbn [reported d_hr d_mrr d_wji]. unfold series. rewrite !map_length, !seq_length.
    split; [|split; [auto|split; [auto|split; [auto|]]]].
    - intros t c Ht Ec. destruct (R3 t c Ht Ec) as [Ev [_ [_ [_ U]]]]. split; auto. exists (Dynamic_spec.hits H t), (ranks H t).
      assert (Nth : forall (f : nat -> Q), nth_error (map f (seq 0 n)) t = Some (f t)).
      { intros f. apply map_nth_error. rewrite (nth_error_nth' _ 0%nat) by (rewrite seq_length; auto). f_equal. now rewrite seq_nth. }
      split; [apply Nth|]. split; [apply Nth|]. eapply evaluates_report; [apply G; lia|exact Ev].
    - apply Forall_forall. intros w Hw. apply in_map_iff in Hw as [t [<- Ht]]. apply in_seq in Ht.
      destruct (chunk_at t ltac:(lia)) as [c Ec]. destruct (chunk_at (Datatypes.S t) ltac:(lia)) as [c' Ec'].
      destruct (R3 t c ltac:(lia) Ec) as [_ [S1 _]]. destruct (R3 (Datatypes.S t) c' ltac:(lia) Ec') as [_ [S2 _]].
      destruct (R4 t ltac:(lia)) as [W _].
      eapply (agree_only _ _ _ _ _ _ _ _ _ (G t ltac:(lia)) (G (Datatypes.S t) ltac:(lia)) S1 S2 W).
  Qed.
End Exp.
