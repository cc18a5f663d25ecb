(** Proofs about the dynamic experiment. *)
From Coq Require Import ZArith QArith List Bool Lia.
From Verif Require Import Prelude Prelude_proofs DataPrep_model Eval_model Tensor_model Matrix_model LinAlg_model Dynamic_model Dynamic_spec.
Import ListNotations.
Open Scope Z_scope.

Lemma bind_Ok {X Y} (x : res X) (f : X -> res Y) y : bind x f = Ok y -> exists a, x = Ok a /\ f a = Ok y.
Proof. destruct x; cbn; intro H; [eauto|discriminate]. Qed.
Ltac ib H := let a := fresh "a" in let E := fresh "E" in apply bind_Ok in H as (a & E & H).

Definition upd {X} (f : nat -> X) (i : nat) (v : X) (j : nat) : X := if (j =? i)%nat then v else f j.
Lemma upd_eq {X} (f : nat -> X) i v : upd f i v i = v.
Proof. unfold upd. now rewrite Nat.eqb_refl. Qed.
Lemma upd_neq {X} (f : nat -> X) i v j : j <> i -> upd f i v j = f j.
Proof. unfold upd. intro. now rewrite (proj2 (Nat.eqb_neq j i)). Qed.

Lemma series_S {X} n (f : nat -> X) : series (S n) f = series n f ++ [f n].
Proof. unfold series. now rewrite seq_S, map_app. Qed.
Lemma series_ext {X} n (f g : nat -> X) : (forall i, (i < n)%nat -> f i = g i) -> series n f = series n g.
Proof. intro H. apply map_ext_in. intros i I. apply in_seq in I. apply H. lia. Qed.

Section Exp.
  Context {S D A V T : Type} (zero : A) (sub : A -> A -> A).
  Variable norm : mat A -> V.
  Variable div : V -> V -> V.
  Variable minus_one : V.
  Variable clock : nat -> T.
  Variable m : api S D A.
  Variable grow : D -> list row -> res D.
  Variable test_users : list Z.
  Variable chunk_mode : bool.
  Variable hm : Z.
  Notation wji_step := (wji_step m test_users).
  Notation emb_step := (emb_step zero sub norm div minus_one m).
  Notation exp_loop := (exp_loop zero sub norm div minus_one clock m grow test_users chunk_mode hm).
  Notation user_change := (user_change zero sub norm div).
  Notation item_change := (item_change zero sub norm div minus_one).
  Notation updates := (updates m grow chunk_mode).
  Notation runs := (runs zero sub norm div minus_one m grow test_users chunk_mode).
  Notation reported := (reported norm clock).
  Notation history := (@history S D A V).

  Definition body (iter : Z) (chunk : list row) (s : S) (d : D) (l : locals) (calls : nat) (dyn : dynamics T V)
    : res (S * D * locals * dynamics T V) :=
    let '(users, items) := get_users_to_recommend_test_items chunk (maps m s) in
    do rec <- recommend m s users false;
    do h <- hr rec items; do r <- mrr rec items;
    do '(l1, wjis) <- wji_step iter s l (d_wji dyn);
    do '(l2, us, vs) <- emb_step iter s l1 (rnd_users dyn) (rnd_items dyn);
    do u <- get_u m s; do v <- get_v m s;
    do d' <- (if chunk_mode then Ok d else grow d chunk);
    do s' <- update m s (if chunk_mode then inl chunk else inr d');
    Ok (s', d', l2,
        mkDyn (calculation_time dyn ++ [clock calls]) (d_hr dyn ++ [h]) (d_mrr dyn ++ [r]) wjis us vs
              (nd_users dyn ++ [norm u]) (nd_items dyn ++ [norm v])).

  Lemma exp_loop_cons iter chunk stream s d l calls dyn :
    exp_loop iter (chunk :: stream) s d l calls dyn =
    do '(s', d', l', dyn') <- body iter chunk s d l calls dyn;
    if iter =? hm then Ok dyn' else exp_loop (iter + 1) stream s' d' l' (calls + 1) dyn'.
  Proof.
    cbn [Dynamic_model.exp_loop]. unfold body.
    destruct (get_users_to_recommend_test_items chunk (maps m s)) as [users items].
    destruct (recommend m s users false) as [rec|]; cbn [bind]; auto.
    destruct (hr rec items) as [h|]; cbn [bind]; auto.
    destruct (mrr rec items) as [r|]; cbn [bind]; auto.
    destruct (wji_step iter s l (d_wji dyn)) as [[l1 wj]|]; cbn [bind]; auto.
    destruct (emb_step iter s l1 _ _) as [[[l2 us] vs]|]; cbn [bind]; auto.
    destruct (get_u m s) as [u|]; cbn [bind]; auto. destruct (get_v m s) as [v|]; cbn [bind]; auto.
    destruct (if chunk_mode then Ok d else grow d chunk) as [d'|]; cbn [bind]; auto.
    destruct (update m s _) as [s'|]; cbn [bind]; auto.
  Qed.

  (** What the local variables hold before step [t]. *)
  Definition locals_ok (t : nat) (H : history) (l : locals) : Prop :=
    match t with
    | O => True
    | Datatypes.S O => rec_t1 l = Some (stab H 0) /\ emb1 l = Some (emb_u H 0, emb_v H 0)
    | Datatypes.S (Datatypes.S k) => rec_t2 l = Some (stab H (Datatypes.S k)) /\ emb2 l = Some (emb_u H (Datatypes.S k), emb_v H (Datatypes.S k))
    end.
  Definition inv (t : nat) (H : history) (s : S) (d : D) (l : locals) (calls : nat) (dyn : dynamics T V) : Prop :=
    s = st H t /\ d = table H t /\ locals_ok t H l /\ calls = (t + 1)%nat /\ dyn = reported t H.

  (** Facts about step [t] of a history. *)
  Definition step_facts (t : nat) (chunk : list row) (H : history) : Prop :=
    evaluates m (st H t) chunk (hits H t) (ranks H t) /\
    recommend m (st H t) test_users true = Ok (stab H t) /\
    get_u m (st H t) = Ok (emb_u H t) /\ get_v m (st H t) = Ok (emb_v H t) /\
    updates (st H t) (table H t) chunk (st H (Datatypes.S t)) (table H (Datatypes.S t)).
  Definition pair_facts (t : nat) (H : history) : Prop :=
    wji_sim (stab H t) (stab H (Datatypes.S t)) (width (stab H t)) (n_items m (st H (Datatypes.S t))) = Ok (agree H t) /\
    user_change (emb_u H t) (emb_u H (Datatypes.S t)) (du H t) /\
    item_change t (emb_v H t) (emb_v H (Datatypes.S t)) (dv H t).

  Lemma pad_guard (old new old' : mat A) : pad_rows zero old new = Ok old' -> (mr new <? mr old')%nat = (mr new <? mr old)%nat.
  Proof.
    unfold pad_rows. destruct (Nat.ltb_spec (mr old) (mr new)) as [L|L].
    - unfold set_block. destruct (_ && _); [|discriminate]. intro E. injection E as <-. cbn [mr build zeros].
      destruct (Nat.ltb_spec (mr new) (mr new)), (Nat.ltb_spec (mr new) (mr old)); auto; lia.
    - intro E. injection E as <-. reflexivity.
  Qed.

  Lemma change_compute old new x : user_change old new x <->
    (do o <- pad_rows zero old new; do df <- msub zero sub new o; rel_norm zero sub norm div df new) = Ok x.
  Proof.
    split.
    - intros (o & df & rs & E1 & E2 & E3 & ->). rewrite E1. cbn [bind]. rewrite E2. cbn [bind]. unfold rel_norm. rewrite E3. reflexivity.
    - intro H. ib H. ib H. unfold rel_norm in H. ib H. injection H as <-. exists a, a0, a1. auto.
  Qed.

  Lemma item_compute t old new y : item_change t old new y <->
    (do o <- pad_rows zero old new;
     if (0 <? t)%nat && (mr new <? mr o)%nat then Ok minus_one
     else do df <- msub zero sub new o; rel_norm zero sub norm div df new) = Ok y.
  Proof.
    unfold Dynamic_spec.item_change. destruct (0 <? t)%nat eqn:Et; cbn [andb]; [|apply change_compute].
    destruct (Nat.ltb_spec (mr new) (mr old)) as [L|L].
    - assert (E : pad_rows zero old new = Ok old).
      { unfold pad_rows. destruct (Nat.ltb_spec (mr old) (mr new)); [lia|auto]. }
      rewrite E. cbn [bind]. rewrite (proj2 (Nat.ltb_lt _ _) L). split; [intros ->; auto|]. intro H; now injection H.
    - rewrite change_compute. destruct (pad_rows zero old new) as [o|] eqn:E; cbn [bind]; [|tauto].
      rewrite (pad_guard _ _ _ E). rewrite (proj2 (Nat.ltb_ge _ _) L). tauto.
  Qed.

  Lemma change_inv old new x : user_change old new x ->
    exists o df, pad_rows zero old new = Ok o /\ msub zero sub new o = Ok df /\ rel_norm zero sub norm div df new = Ok x.
  Proof. intro H. apply change_compute in H. ib H. ib H. exists a, a0. auto. Qed.

  (** The two series steps. *)
  Lemma wji_0 (H : history) l ser : recommend m (st H 0) test_users true = Ok (stab H 0) ->
    wji_step 1 (st H 0%nat) l ser = Ok (mkLocals (Some (stab H 0%nat)) (rec_t2 l) (emb1 l) (emb2 l), ser).
  Proof. intro E. unfold Dynamic_model.wji_step. cbn. rewrite E. reflexivity. Qed.

  Lemma wji_S t (H : history) l ser : locals_ok (Datatypes.S t) H l ->
    recommend m (st H (Datatypes.S t)) test_users true = Ok (stab H (Datatypes.S t)) ->
    wji_sim (stab H t) (stab H (Datatypes.S t)) (width (stab H t)) (n_items m (st H (Datatypes.S t))) = Ok (agree H t) ->
    wji_step (Z.of_nat (Datatypes.S t) + 1) (st H (Datatypes.S t)) l ser =
    Ok (mkLocals (Some (stab H t)) (Some (stab H (Datatypes.S t))) (emb1 l) (emb2 l), ser ++ [agree H t]).
  Proof.
    intros L E1 E2. unfold Dynamic_model.wji_step.
    destruct (Z.eqb_spec (Z.of_nat (Datatypes.S t) + 1) 1); [lia|].
    destruct (Z.eqb_spec (Z.of_nat (Datatypes.S t) + 1) 2) as [e|e].
    - assert (t = 0%nat) by lia. subst t. destruct L as [L _]. rewrite E1, L. cbn [bind local]. rewrite E2. reflexivity.
    - destruct t as [|t]; [lia|]. destruct L as [L _]. rewrite L. cbn [bind local]. rewrite E1. cbn [bind]. rewrite E2. reflexivity.
  Qed.

  Lemma emb_0 (H : history) l us vs : get_u m (st H 0) = Ok (emb_u H 0%nat) -> get_v m (st H 0) = Ok (emb_v H 0%nat) ->
    emb_step 1 (st H 0%nat) l us vs = Ok (mkLocals (rec_t1 l) (rec_t2 l) (Some (emb_u H 0%nat, emb_v H 0%nat)) (emb2 l), us, vs).
  Proof. intros E1 E2. unfold Dynamic_model.emb_step. cbn. rewrite E1, E2. reflexivity. Qed.

  Lemma emb_S t (H : history) l us vs :
    (match t with O => emb1 l | _ => emb2 l end) = Some (emb_u H t, emb_v H t) ->
    get_u m (st H (Datatypes.S t)) = Ok (emb_u H (Datatypes.S t)) -> get_v m (st H (Datatypes.S t)) = Ok (emb_v H (Datatypes.S t)) ->
    user_change (emb_u H t) (emb_u H (Datatypes.S t)) (du H t) ->
    item_change t (emb_v H t) (emb_v H (Datatypes.S t)) (dv H t) ->
    exists e1, emb_step (Z.of_nat (Datatypes.S t) + 1) (st H (Datatypes.S t)) l us vs =
    Ok (mkLocals (rec_t1 l) (rec_t2 l) e1 (Some (emb_u H (Datatypes.S t), emb_v H (Datatypes.S t))), us ++ [du H t], vs ++ [dv H t]).
  Proof.
    intros L E1 E2 C1 C2. unfold Dynamic_model.emb_step.
    destruct (Z.eqb_spec (Z.of_nat (Datatypes.S t) + 1) 1); [lia|].
    apply change_inv in C1 as (o & df & P1 & P2 & P3).
    apply item_compute in C2. apply bind_Ok in C2 as (o' & Q1 & C2).
    destruct (Z.eqb_spec (Z.of_nat (Datatypes.S t) + 1) 2) as [e|e].
    - assert (t = 0%nat) by lia. subst t. cbn [andb Nat.ltb Nat.leb] in C2. ib C2.
      rewrite E1. cbn [bind]. rewrite E2. cbn [bind]. rewrite L. cbn [bind local]. rewrite P1. cbn [bind].
      rewrite Q1. cbn [bind]. rewrite P2. cbn [bind]. rewrite P3. cbn [bind]. rewrite E. cbn [bind]. rewrite C2. cbn [bind]. eauto.
    - destruct t as [|t]; [lia|]. rewrite L. cbn [bind local]. rewrite E1. cbn [bind]. rewrite E2. cbn [bind].
      rewrite P1. cbn [bind]. rewrite P2. cbn [bind]. rewrite P3. cbn [bind]. rewrite Q1. cbn [bind].
      change ((0 <? Datatypes.S t)%nat) with true in C2. cbn [andb] in C2. rewrite C2. cbn [bind]. eauto.
  Qed.

  (** Step [t] of a history is what the body computes. *)
  Lemma body_run t chunk (H : history) s d l calls dyn :
    inv t H s d l calls dyn -> step_facts t chunk H -> (forall k, t = Datatypes.S k -> pair_facts k H) ->
    exists s' d' l' dyn', body (Z.of_nat t + 1) chunk s d l calls dyn = Ok (s', d', l', dyn') /\
      inv (Datatypes.S t) H s' d' l' (calls + 1) dyn'.
  Proof.
    intros (-> & -> & L & -> & ->) ((rec & Er & Eh & Em) & Es & Eu & Ev & Up) Pf. unfold tests in *.
    unfold body. destruct (get_users_to_recommend_test_items chunk (maps m (st H t))) as [users items]. cbn [fst snd] in *.
    rewrite Er. cbn [bind]. rewrite Eh. cbn [bind]. rewrite Em. cbn [bind].
    assert (W : exists l1 l2, wji_step (Z.of_nat t + 1) (st H t) l (d_wji (reported t H)) = Ok (l1, series (Datatypes.S t - 1) (agree H)) /\
       emb_step (Z.of_nat t + 1) (st H t) l1 (rnd_users (reported t H)) (rnd_items (reported t H)) =
         Ok (l2, series (Datatypes.S t - 1) (du H), series (Datatypes.S t - 1) (dv H)) /\ locals_ok (Datatypes.S t) H l2).
    { destruct t as [|t].
      - do 2 eexists. rewrite (wji_0 H _ _ Es). split; [reflexivity|]. rewrite (emb_0 H _ _ _ Eu Ev). split; [reflexivity|]. cbn. auto.
      - destruct (Pf t eq_refl) as (F1 & F2 & F3).
        rewrite (wji_S t H _ _ L Es F1).
        replace (Datatypes.S (Datatypes.S t) - 1)%nat with (Datatypes.S t) by lia. rewrite !series_S.
        cbn [d_wji rnd_users rnd_items Dynamic_spec.reported]. replace (Datatypes.S t - 1)%nat with t by lia.
        destruct (emb_S t H (mkLocals (Some (stab H t)) (Some (stab H (Datatypes.S t))) (emb1 l) (emb2 l))
                    (series t (du H)) (series t (dv H))) as (e1 & Ee); auto.
        { destruct t as [|t]; cbn [emb1 emb2]; apply L. }
        do 2 eexists. split; [reflexivity|]. rewrite Ee. split; [reflexivity|]. destruct t; cbn; auto. }
    destruct W as (l1 & l2 & W1 & W2 & W3). rewrite W1. cbn [bind]. rewrite W2. cbn [bind]. rewrite Eu. cbn [bind]. rewrite Ev. cbn [bind].
    exists (st H (Datatypes.S t)), (table H (Datatypes.S t)), l2, (reported (Datatypes.S t) H).
    unfold Dynamic_spec.updates in Up.
    assert (Ed : (if chunk_mode then Ok (table H t) else grow (table H t) chunk) = Ok (table H (Datatypes.S t)) /\
                 update m (st H t) (if chunk_mode then inl chunk else inr (table H (Datatypes.S t))) = Ok (st H (Datatypes.S t))).
    { destruct chunk_mode; destruct Up as [-> U]; auto. }
    destruct Ed as [Ed1 Ed2]. rewrite Ed1. cbn [bind]. rewrite Ed2. cbn [bind].
    split; [|repeat split; auto; lia]. f_equal. f_equal. unfold Dynamic_spec.reported.
    cbn [calculation_time d_hr d_mrr nd_users nd_items]. replace (Datatypes.S t + 1)%nat with (Datatypes.S (t + 1)) by lia.
    rewrite !(series_S t), (series_S (t + 1)). reflexivity.
  Qed.

  (** Conversely the body produces the next step of a history. *)
  Definition extend (t : nat) (H : history) (s' : S) (d' : D) (sb : list (list Z)) (u v : mat A) (h r w : Q) (x y : V) : history :=
    mkHistory (upd (st H) (Datatypes.S t) s') (upd (table H) (Datatypes.S t) d') (upd (stab H) t sb)
      (upd (emb_u H) t u) (upd (emb_v H) t v) (upd (hits H) t h) (upd (ranks H) t r)
      (upd (agree H) (t - 1) w) (upd (du H) (t - 1) x) (upd (dv H) (t - 1) y).

  Lemma wji_inv t (H : history) l ser l1 ser' : locals_ok t H l -> wji_step (Z.of_nat t + 1) (st H t) l ser = Ok (l1, ser') ->
    exists sb, recommend m (st H t) test_users true = Ok sb /\ emb1 l1 = emb1 l /\ emb2 l1 = emb2 l /\
      forall k, t = Datatypes.S k -> exists w, wji_sim (stab H k) sb (width (stab H k)) (n_items m (st H t)) = Ok w.
  Proof.
    unfold Dynamic_model.wji_step. intros L E. destruct (Z.eqb_spec (Z.of_nat t + 1) 1) as [e|e].
    - ib E. injection E as <- <-. exists a. repeat split; auto. intros k ->. lia.
    - destruct (Z.eqb_spec (Z.of_nat t + 1) 2) as [e2|e2].
      + assert (t = 1%nat) by lia. subst t. destruct L as [L _]. ib E. rewrite L in E. cbn [bind local] in E. ib E.
        injection E as <- <-. exists a. repeat split; auto. intros k Ek. injection Ek as <-. eauto.
      + destruct t as [|[|t]]; try lia. destruct L as [L _]. rewrite L in E. cbn [bind local] in E. ib E. ib E.
        injection E as <- <-. exists a. repeat split; auto. intros k Ek. injection Ek as <-. eauto.
  Qed.

  Lemma emb_inv t (H : history) l us vs r : (match t with O => True | 1%nat => emb1 l = Some (emb_u H 0, emb_v H 0)
       | Datatypes.S k => emb2 l = Some (emb_u H k, emb_v H k) end)%nat ->
    emb_step (Z.of_nat t + 1) (st H t) l us vs = Ok r ->
    exists u v, get_u m (st H t) = Ok u /\ get_v m (st H t) = Ok v /\
      forall k, t = Datatypes.S k -> exists x y, user_change (emb_u H k) u x /\ item_change k (emb_v H k) v y.
  Proof.
    unfold Dynamic_model.emb_step. intros L E. destruct (Z.eqb_spec (Z.of_nat t + 1) 1) as [e|e].
    - ib E. ib E. exists a, a0. repeat split; auto. intros k ->. lia.
    - destruct (Z.eqb_spec (Z.of_nat t + 1) 2) as [e2|e2].
      + assert (t = 1%nat) by lia. subst t. rewrite L in E. ib E. ib E. cbn [bind local] in E.
        ib E. ib E. ib E. ib E. ib E. ib E. exists a, a0. repeat split; auto. intros k Ek. injection Ek as <-.
        exists a4, a6. split.
        * apply change_compute. rewrite E2. cbn [bind]. rewrite E4. cbn [bind]. exact E5.
        * apply item_compute. rewrite E3. cbn [bind andb Nat.ltb Nat.leb]. rewrite E6. cbn [bind]. exact E7.
      + destruct t as [|[|t]]; try lia. rewrite L in E. cbn [bind local] in E. ib E. ib E. ib E. ib E. ib E. ib E. ib E.
        exists a, a0. repeat split; auto. intros k Ek. injection Ek as <-. exists a3, a5. split.
        * apply change_compute. rewrite E2. cbn [bind]. rewrite E3. cbn [bind]. exact E4.
        * apply item_compute. rewrite E5. cbn [bind]. exact E6.
  Qed.

  Lemma body_step t chunk (H : history) s d l calls dyn r :
    inv t H s d l calls dyn -> body (Z.of_nat t + 1) chunk s d l calls dyn = Ok r ->
    exists s' d' sb u v h rk w x y, let H' := extend t H s' d' sb u v h rk w x y in
      inv t H' s d l calls dyn /\ step_facts t chunk H' /\ (forall k, t = Datatypes.S k -> pair_facts k H').
  Proof.
    intros (-> & -> & L & -> & ->) E. unfold body in E.
    destruct (get_users_to_recommend_test_items chunk (maps m (st H t))) as [users items] eqn:Et.
    ib E. ib E. ib E. ib E. destruct a2 as [l1 wj]. ib E. destruct a2 as [[l2 us] vs]. ib E. ib E. ib E. ib E.
    destruct (wji_inv t H l _ _ _ L E3) as (sb & Eb & Le1 & Le2 & Hw).
    assert (Le : (match t with O => True | 1%nat => emb1 l1 = Some (emb_u H 0, emb_v H 0)
       | Datatypes.S k => emb2 l1 = Some (emb_u H k, emb_v H k) end)%nat).
    { rewrite Le1, Le2. destruct t as [|[|t]]; auto; apply L. }
    destruct (emb_inv t H l1 _ _ _ Le E4) as (u & v & Eu & Ev & Hc).
    rewrite Eu in E5. injection E5 as <-. rewrite Ev in E6. injection E6 as <-.
    assert (P : exists w x y, forall k, t = Datatypes.S k ->
       wji_sim (stab H k) sb (width (stab H k)) (n_items m (st H t)) = Ok w /\
       user_change (emb_u H k) u x /\ item_change k (emb_v H k) v y).
    { destruct t as [|k].
      - exists 0%Q, (norm u), (norm u). discriminate.
      - destruct (Hw k eq_refl) as (w & W). destruct (Hc k eq_refl) as (x & y & X & Y).
        exists w, x, y. intros k' Ek. injection Ek as <-. auto. }
    destruct P as (w & x & y & P).
    exists a5, a4, sb, u, v, a0, a1, w, x, y. cbv zeta. split; [|split].
    - unfold inv, extend. cbn [st table]. rewrite !upd_neq by lia. repeat split; auto.
      + destruct t as [|[|t]]; cbn [locals_ok stab emb_u emb_v] in *; auto; rewrite !upd_neq by lia; auto.
      + unfold Dynamic_spec.reported. cbn [hits ranks agree du dv emb_u emb_v].
        f_equal; apply series_ext; intros i Hi; rewrite upd_neq by lia; auto.
    - unfold step_facts, extend. cbn [st table stab emb_u emb_v hits ranks]. rewrite !upd_eq, !upd_neq by lia.
      split; [exists a; unfold tests; rewrite Et; auto|]. repeat split; auto.
      unfold Dynamic_spec.updates. destruct chunk_mode; auto. injection E7 as <-. auto.
    - intros k ->. destruct (P k eq_refl) as (P1 & P2 & P3). unfold pair_facts, extend.
      cbn [st stab emb_u emb_v agree du dv]. replace (Datatypes.S k - 1)%nat with k by lia.
      rewrite !upd_eq. rewrite !(upd_neq _ (Datatypes.S k) _ k) by lia. rewrite upd_neq by lia. auto.
  Qed.

  Definition rest_steps (t : nat) (n : nat) : nat := (n_steps hm (t + n) - t)%nat.

  Lemma rest_cons t n : (hm <= 0 \/ Z.of_nat t < hm) ->
    rest_steps t (Datatypes.S n) = if Z.of_nat t + 1 =? hm then 1%nat else Datatypes.S (rest_steps (Datatypes.S t) n).
  Proof.
    intro L. unfold rest_steps, n_steps. destruct (Z.ltb_spec 0 hm); destruct (Z.eqb_spec (Z.of_nat t + 1) hm); lia.
  Qed.
  Lemma rest_nil t : (hm <= 0 \/ Z.of_nat t < hm) -> rest_steps t 0 = 0%nat.
  Proof. intro L. unfold rest_steps, n_steps. destruct (Z.ltb_spec 0 hm); lia. Qed.

  (** A history describes the loop. *)
  Lemma loop_run (H : history) : forall rest pre s d l calls dyn,
    let t := length pre in
    hm <= 0 \/ Z.of_nat t < hm -> inv t H s d l calls dyn ->
    (forall j chunk, (t <= j < t + rest_steps t (length rest))%nat -> nth_error (pre ++ rest) j = Some chunk -> step_facts j chunk H) ->
    (forall j, (Datatypes.S j < t + rest_steps t (length rest))%nat -> pair_facts j H) ->
    exp_loop (Z.of_nat t + 1) rest s d l calls dyn = Ok (reported (t + rest_steps t (length rest)) H).
  Proof.
    induction rest as [|chunk rest IH]; intros pre s d l calls dyn t L I F P.
    - cbn [Dynamic_model.exp_loop length]. rewrite rest_nil by auto. rewrite Nat.add_0_r. f_equal. apply I.
    - rewrite exp_loop_cons. cbn [length] in F, P |- *. rewrite (rest_cons t _ L) in F, P |- *.
      assert (N : nth_error (pre ++ chunk :: rest) t = Some chunk).
      { rewrite nth_error_app2 by (unfold t; lia). unfold t. now rewrite Nat.sub_diag. }
      destruct (body_run t chunk H s d l calls dyn I) as (s' & d' & l' & dyn' & E & I').
      { apply F; auto. destruct (_ =? hm); lia. }
      { intros k Ek. apply P. destruct (_ =? hm); lia. }
      rewrite E. cbn [bind]. destruct (Z.eqb_spec (Z.of_nat t + 1) hm) as [e|e].
      + f_equal. rewrite Nat.add_1_r. apply I'.
      + specialize (IH (pre ++ [chunk]) s' d' l' (calls + 1)%nat dyn'). rewrite app_length in IH. cbn [length] in IH.
        fold t in IH. rewrite Nat.add_1_r in IH. cbv zeta in IH.
        replace (Z.of_nat t + 1 + 1) with (Z.of_nat (Datatypes.S t) + 1) by lia.
        rewrite IH; auto; try lia.
        * f_equal. f_equal. lia.
        * intros j c Hj Nj. apply F; [lia|]. rewrite <- app_assoc in Nj. exact Nj.
        * intros j Hj. apply P. lia.
  Qed.

  Lemma loop_exists : forall rest pre H s d l calls dyn dynr,
    let t := length pre in
    hm <= 0 \/ Z.of_nat t < hm -> inv t H s d l calls dyn ->
    (forall j chunk, (j < t)%nat -> nth_error (pre ++ rest) j = Some chunk -> step_facts j chunk H) ->
    (forall j, (Datatypes.S j < t)%nat -> pair_facts j H) ->
    exp_loop (Z.of_nat t + 1) rest s d l calls dyn = Ok dynr ->
    exists H', st H' 0%nat = st H 0%nat /\ table H' 0%nat = table H 0%nat /\
      dynr = reported (t + rest_steps t (length rest)) H' /\
      (forall j chunk, (j < t + rest_steps t (length rest))%nat -> nth_error (pre ++ rest) j = Some chunk -> step_facts j chunk H') /\
      (forall j, (Datatypes.S j < t + rest_steps t (length rest))%nat -> pair_facts j H').
  Proof.
    induction rest as [|chunk rest IH]; intros pre H s d l calls dyn dynr t L I F P E.
    - cbn [Dynamic_model.exp_loop length] in *. injection E as <-. exists H. rewrite rest_nil by auto. rewrite Nat.add_0_r.
      split; auto. split; auto. split; [apply I|]. auto.
    - rewrite exp_loop_cons in E. cbn [length]. rewrite (rest_cons t _ L).
      apply bind_Ok in E as (r & Eb & E).
      destruct (body_step t chunk H s d l calls dyn r I Eb) as (s1 & d1 & sb & u & v & h & rk & w & x & y & I1 & F1 & P1).
      set (H1 := extend t H s1 d1 sb u v h rk w x y) in *.
      assert (Ag : forall j, (j < t)%nat -> st H1 (Datatypes.S j) = st H (Datatypes.S j) /\ table H1 (Datatypes.S j) = table H (Datatypes.S j)
         /\ st H1 j = st H j /\ table H1 j = table H j /\ stab H1 j = stab H j /\ emb_u H1 j = emb_u H j /\ emb_v H1 j = emb_v H j
         /\ hits H1 j = hits H j /\ ranks H1 j = ranks H j).
      { intros j Hj. unfold H1, extend. cbn [st table stab emb_u emb_v hits ranks].
        repeat split; apply upd_neq; lia. }
      assert (F' : forall j c, (j < Datatypes.S t)%nat -> nth_error (pre ++ chunk :: rest) j = Some c -> step_facts j c H1).
      { intros j c Hj Nj. destruct (Nat.eq_dec j t) as [->|].
        - unfold t in Nj. rewrite nth_error_app2, Nat.sub_diag in Nj by lia. injection Nj as <-. exact F1.
        - assert (Hj' : (j < t)%nat) by lia. destruct (Ag j Hj') as (A1 & A2 & A3 & A4 & A5 & A6 & A7 & A8 & A9).
          unfold step_facts. rewrite A1, A2, A3, A4, A5, A6, A7, A8, A9. exact (F j c Hj' Nj). }
      assert (P' : forall j, (Datatypes.S j < Datatypes.S t)%nat -> pair_facts j H1).
      { intros j Hj. destruct (Nat.eq_dec (Datatypes.S j) t) as [e|e]; [apply P1; auto|].
        assert (Hj' : (Datatypes.S j < t)%nat) by lia. specialize (P j Hj').
        destruct (Ag j ltac:(lia)) as (A1 & A2 & A3 & A4 & A5 & A6 & A7 & A8 & A9).
        destruct (Ag (Datatypes.S j) Hj') as (B1 & B2 & B3 & B4 & B5 & B6 & B7 & B8 & B9).
        assert (C : agree H1 j = agree H j /\ du H1 j = du H j /\ dv H1 j = dv H j).
        { unfold H1, extend. cbn [agree du dv]. repeat split; apply upd_neq; lia. }
        destruct C as (C1 & C2 & C3). unfold pair_facts. rewrite A1, A5, A6, A7, B5, B6, B7, C1, C2, C3. exact P. }
      destruct (body_run t chunk H1 s d l calls dyn I1 F1 P1) as (s' & d' & l' & dyn' & Eb' & I').
      rewrite Eb' in Eb. injection Eb as <-.
      assert (St : st H1 0%nat = st H 0%nat /\ table H1 0%nat = table H 0%nat).
      { unfold H1, extend. cbn [st table]. split; apply upd_neq; lia. }
      destruct St as [St1 St2].
      destruct (Z.eqb_spec (Z.of_nat t + 1) hm) as [e|e].
      + injection E as <-. exists H1. rewrite Nat.add_1_r. split; auto. split; auto. split; [apply I'|]. auto.
      + specialize (IH (pre ++ [chunk]) H1 s' d' l' (calls + 1)%nat dyn' dynr). rewrite app_length in IH. cbn [length] in IH.
        fold t in IH. rewrite Nat.add_1_r in IH. cbv zeta in IH.
        replace (Z.of_nat t + 1 + 1) with (Z.of_nat (Datatypes.S t) + 1) in E by lia.
        destruct IH as (H' & S1 & S2 & Er & F2 & P2); auto; try lia.
        * rewrite <- app_assoc. exact F'.
        * exists H'. rewrite S1, S2. split; auto. split; auto.
          replace (t + Datatypes.S (rest_steps (Datatypes.S t) (length rest)))%nat
            with (Datatypes.S t + rest_steps (Datatypes.S t) (length rest))%nat by lia.
          split; auto. split; auto. rewrite <- app_assoc in F2. exact F2.
  Qed.

  Variables (st0 : S) (initial : D) (stream : list (list row)).
  Notation experiment := (dynamical_experiment zero sub norm div minus_one clock m grow test_users chunk_mode hm st0 initial stream).

  Lemma inv_start (H : history) l : st H 0%nat = st H 0%nat -> inv 0 H (st H 0%nat) (table H 0%nat) l 1 (mkDyn [clock 0%nat] [] [] [] [] [] [] []).
  Proof. intros _. repeat split. Qed.

  Lemma experiment_main dyn :
    experiment = Ok dyn <->
    exists H, runs st0 initial stream (n_steps hm (length stream)) H /\ dyn = reported (n_steps hm (length stream)) H.
  Proof.
    assert (Rs : rest_steps 0 (length stream) = n_steps hm (length stream)) by (unfold rest_steps; cbn; lia).
    assert (L0 : hm <= 0 \/ 0 < hm) by lia.
    split.
    - intro E. unfold Dynamic_model.dynamical_experiment in E. apply bind_Ok in E as (s & Es & E).
      set (H0 := mkHistory (fun _ => s) (fun _ => initial) (fun _ => []) (fun _ => mkMat 0 0 []) (fun _ => mkMat 0 0 [])
                  (fun _ => 0%Q) (fun _ => 0%Q) (fun _ => 0%Q) (fun _ => minus_one) (fun _ => minus_one) : history).
      pose proof (loop_exists stream [] H0 s initial _ 1%nat _ dyn L0 (inv_start H0 (mkLocals None None None None) eq_refl)) as G.
      destruct G as (H' & S1 & S2 & Ed & F & P); [intros j c Hj; cbn in Hj; lia|intros j Hj; cbn in Hj; lia|exact E|].
      cbn [length app] in F, P, Ed. rewrite Rs in F, P, Ed. exists H'. split; auto.
      split; [rewrite S1; exact Es|]. split; [exact S2|]. split; [exact F|exact P].
    - intros (H & (R1 & R2 & R3 & R4) & ->). unfold Dynamic_model.dynamical_experiment. rewrite R1. cbn [bind]. rewrite <- R2.
      pose proof (loop_run H stream [] _ _ (mkLocals None None None None) 1%nat _ L0 (inv_start H _ eq_refl)) as G.
      cbn [length app Z.of_nat Z.add Nat.add] in G. rewrite Rs in G. apply G.
      + intros j c Hj Nj. apply R3; auto; lia.
      + intros j Hj. apply R4. exact Hj.
  Qed.

  (** After [t] steps the rest of the loop is run from the state reached. *)
  Lemma experiment_from t chunk (H : history) :
    (t < n_steps hm (length stream))%nat -> nth_error stream t = Some chunk -> runs st0 initial stream t H ->
    exists l calls dyn, inv t H (st H t) (table H t) l calls dyn /\
      forall e, body (Z.of_nat t + 1) chunk (st H t) (table H t) l calls dyn = Err e -> experiment = Err e.
  Proof.
    intros Lt Nt (R1 & R2 & R3 & R4).
    assert (G : forall k, (k <= t)%nat -> exists l calls dyn, inv k H (st H k) (table H k) l calls dyn /\
       experiment = exp_loop (Z.of_nat k + 1) (skipn k stream) (st H k) (table H k) l calls dyn).
    { induction k as [|k IH]; intro Lk.
      - do 3 eexists. split; [apply (inv_start H (mkLocals None None None None) eq_refl)|].
        unfold Dynamic_model.dynamical_experiment. rewrite R1. cbn [bind]. rewrite R2. reflexivity.
      - destruct IH as (l & calls & dyn & I & E); [lia|].
        assert (Ls : (k < length stream)%nat).
        { assert (nth_error stream t <> None) by congruence. apply nth_error_Some in H0. lia. }
        destruct (nth_error stream k) as [c|] eqn:Nk; [|apply nth_error_None in Nk; lia].
        assert (Sk : skipn k stream = c :: skipn (Datatypes.S k) stream).
        { clear -Nk. revert k Nk. induction stream as [|a s IHs]; intros [|k] Nk; try discriminate; cbn in *; [congruence|].
          apply IHs. exact Nk. }
        destruct (body_run k c H _ _ l calls dyn I) as (s' & d' & l' & dyn' & Eb & I').
        { apply R3; auto; lia. }
        { intros j ->. apply R4. lia. }
        rewrite E, Sk, exp_loop_cons, Eb. cbn [bind].
        destruct I' as (I1 & I2 & I3 & I4 & I5). subst s' d'.
        exists l', (calls + 1)%nat, dyn'. split; [repeat split; auto|].
        destruct (Z.eqb_spec (Z.of_nat k + 1) hm) as [e|e].
        + exfalso. unfold n_steps in Lt. destruct (Z.ltb_spec 0 hm); lia.
        + f_equal. lia. }
    destruct (G t (le_n _)) as (l & calls & dyn & I & E). exists l, calls, dyn. split; auto. intros e Eb.
    assert (Sk : skipn t stream = chunk :: skipn (Datatypes.S t) stream).
    { clear -Nt. revert t Nt. induction stream as [|a s IHs]; intros [|k] Nk; try discriminate; cbn in *; [congruence|].
      apply IHs. exact Nk. }
    rewrite E, Sk, exp_loop_cons, Eb. reflexivity.
  Qed.

  (** A chunk without known pairs. *)
  Lemma empty_chunk_main t chunk (H : history) rec :
    (t < n_steps hm (length stream))%nat -> nth_error stream t = Some chunk -> runs st0 initial stream t H ->
    tests m chunk (st H t) = ([], []) -> recommend m (st H t) [] false = Ok rec ->
    experiment = Err ZeroDivisionError.
  Proof.
    intros Lt Nt R Et Er. destruct (experiment_from t chunk H Lt Nt R) as (l & calls & dyn & I & B). apply B.
    unfold body. unfold tests in Et. rewrite Et, Er. cbn [bind]. unfold hr. cbn [length Nat.ltb Nat.leb].
    destruct rec; reflexivity.
  Qed.

  (** Embeddings that cannot be read. *)
  Lemma no_embeddings_main e : (forall s, get_u m s = Err e) -> (0 < length stream)%nat -> forall dyn, experiment <> Ok dyn.
  Proof.
    intros Hu L dyn E. apply experiment_main in E as (H & (R1 & R2 & R3 & R4) & _).
    destruct stream as [|c s] eqn:Es; [cbn in L; lia|].
    destruct (R3 0%nat c) as (_ & _ & U & _); auto.
    - unfold n_steps. destruct (Z.ltb_spec 0 hm); cbn [length]; lia.
    - rewrite Hu in U. discriminate.
  Qed.

  (** No users to test stability on. *)
  Lemma no_test_users_main : (forall s, recommend m s test_users true = Ok []) -> (1 < n_steps hm (length stream))%nat ->
    forall dyn, experiment <> Ok dyn.
  Proof.
    intros Hr L dyn E. apply experiment_main in E as (H & (R1 & R2 & R3 & R4) & _).
    destruct (R4 0%nat L) as (W & _).
    assert (Lg : (1 < length stream)%nat) by (unfold n_steps in L; destruct (0 <? hm); lia).
    destruct stream as [|c0 [|c1 s]]; cbn in Lg; try lia.
    destruct (R3 0%nat c0 ltac:(lia) eq_refl) as (_ & A0 & _).
    rewrite Hr in A0. injection A0 as A0. rewrite <- A0 in W.
    destruct (R3 1%nat c1 ltac:(lia) eq_refl) as (_ & A1 & _). rewrite Hr in A1. injection A1 as A1. rewrite <- A1 in W.
    cbn in W. discriminate.
  Qed.
End Exp.

(** * Causality: what is reported about the first chunks does not depend on later ones. *)
Section Causal.
  Context {S D A V T : Type} (zero : A) (sub : A -> A -> A).
  Variables (norm : mat A -> V) (div : V -> V -> V) (minus_one : V) (clock : nat -> T).
  Variables (m : api S D A) (grow : D -> list row -> res D) (test_users : list Z) (chunk_mode : bool).
  Variables (st0 : S) (initial : D).
  Notation experiment hm stream := (dynamical_experiment zero sub norm div minus_one clock m grow test_users chunk_mode hm st0 initial stream).

  Lemma runs_weaken stream k n H :
    (k <= n)%nat ->
    runs zero sub norm div minus_one m grow test_users chunk_mode st0 initial stream n H ->
    (forall j, (j < k)%nat -> (j < length stream)%nat) ->
    runs zero sub norm div minus_one m grow test_users chunk_mode st0 initial (firstn k stream) k H.
  Proof.
    intros L (R1 & R2 & R3 & R4) Ls. split; auto. split; auto. split.
    - intros t c Lt Nt. apply R3; [lia|].
      rewrite <- (firstn_skipn k stream). rewrite nth_error_app1; auto. rewrite firstn_length. specialize (Ls t Lt). lia.
    - intros t Lt. apply R4. lia.
  Qed.

  Lemma causal_main hm stream dyn k : experiment hm stream = Ok dyn -> (k <= n_steps hm (length stream))%nat ->
    exists dyn', experiment hm (firstn k stream) = Ok dyn' /\
      calculation_time dyn' = firstn (k + 1) (calculation_time dyn) /\ d_hr dyn' = firstn k (d_hr dyn) /\ d_mrr dyn' = firstn k (d_mrr dyn) /\
      d_wji dyn' = firstn (k - 1) (d_wji dyn) /\ rnd_users dyn' = firstn (k - 1) (rnd_users dyn) /\
      rnd_items dyn' = firstn (k - 1) (rnd_items dyn) /\ nd_users dyn' = firstn k (nd_users dyn) /\ nd_items dyn' = firstn k (nd_items dyn).
  Proof.
    intros E Lk. apply experiment_main in E as (H & R & ->).
    set (n := n_steps hm (length stream)) in *.
    assert (Ls : (n <= length stream)%nat) by (unfold n, n_steps; destruct (0 <? hm); lia).
    assert (Nk : n_steps hm (length (firstn k stream)) = k).
    { rewrite firstn_length_le by lia. unfold n, n_steps in *. destruct (Z.ltb_spec 0 hm); lia. }
    assert (Fs : forall X j i (f : nat -> X), (j <= i)%nat -> series j f = firstn j (series i f)).
    { intros X j i f Lj. unfold series. rewrite firstn_map. f_equal. replace i with (j + (i - j))%nat by lia.
      rewrite seq_app, firstn_app, seq_length, Nat.sub_diag, firstn_O, app_nil_r, firstn_all2; auto. rewrite seq_length; auto. }
    exists (reported norm clock k H). split.
    - apply experiment_main. exists H. rewrite Nk. split; auto. eapply runs_weaken; eauto. intros; lia.
    - unfold reported. cbn. repeat split; apply Fs; lia.
  Qed.
End Causal.
