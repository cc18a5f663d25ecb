(** Proofs about the parsers of the downloaded files. *)
From Coq Require Import ZArith Lia List Bool String.
From Verif Require Import Prelude Prelude_proofs Parse_model Parse_spec.
Import ListNotations.

Section Induction.
  Variable P : json -> Prop.
  Hypotheses (H0 : P JNull) (H1 : forall b, P (JBool b)) (H2 : forall n, P (JNum n)) (H3 : forall s, P (JStr s))
    (H4 : forall l, (forall x, In x l -> P x) -> P (JArr l)) (H5 : forall l, (forall k x, In (k, x) l -> P x) -> P (JObj l)).
  Fixpoint json_deep (j : json) : P j.
  Proof.
    destruct j as [|b|n|s|l|l]; [exact H0|apply H1|apply H2|apply H3| |].
    - apply H4. induction l as [|x l IH]; [intros ? []|]. intros y [<-|I]; [apply json_deep|apply IH, I].
    - apply H5. induction l as [|[k x] l IH]; [intros ? ? []|]. intros k' y [E|I]; [injection E as _ <-; apply json_deep|eapply IH, I].
  Defined.
End Induction.

(** * Keys *)
Lemma getkey_spec {A} (l : list (string * A)) key :
  match getkey l key with Ok v => binding l key v | Err e => e = KeyError /\ ~ In key (map fst l) end.
Proof.
  induction l as [|[k v] l IH]; cbn; [auto|]. destruct (getkey l key) as [w|e].
  - destruct IH as (pre & post & -> & N). exists ((k, v) :: pre), post. auto.
  - destruct IH as [-> N]. destruct (String.eqb_spec k key) as [->|D].
    + exists [], l. auto.
    + split; auto. intros [E|I]; congruence.
Qed.
Lemma binding_In {A} (l : list (string * A)) key v : binding l key v -> In (key, v) l.
Proof. intros (pre & post & -> & _). apply in_app_iff. right. now left. Qed.
Lemma getkey_binding {A} (l : list (string * A)) key v : binding l key v <-> getkey l key = Ok v.
Proof.
  split.
  - intros (pre & post & -> & N).
    assert (E : getkey post key = Err KeyError).
    { pose proof (getkey_spec post key) as H. destruct (getkey post key) as [w|e]; [|destruct H as [-> _]; reflexivity].
      exfalso. apply N. apply binding_In in H. now apply (in_map fst) in H. }
    induction pre as [|[k w] pre IH]; cbn; [now rewrite E, String.eqb_refl|now rewrite IH].
  - intro E. pose proof (getkey_spec l key) as H. now rewrite E in H.
Qed.
Lemma keys_spec {A} (keys : list string) (l : list (string * A)) :
  match mapM (getkey l) keys with
  | Ok vs => has_keys keys l /\ Forall2 (fun key v => binding l key v) keys vs
  | Err e => e = KeyError /\ ~ has_keys keys l
  end.
Proof.
  induction keys as [|key keys IH]; cbn.
  - split; [intros ? []|constructor].
  - pose proof (getkey_spec l key) as G. destruct (getkey l key) as [v|e]; cbn.
    + destruct (mapM (getkey l) keys) as [vs|e']; cbn.
      * destruct IH as [H F]. split; [|constructor; auto]. intros k [<-|I]; auto. apply binding_In in G. now apply (in_map fst) in G.
      * destruct IH as [-> N]. split; auto. intro H. apply N. intros k I. apply H. now right.
    + destruct G as [-> N]. split; auto. intro H. apply N, H. now left.
Qed.

(** * Lines of Amazon *)
Lemma loads_array fields l : loads fields (JArr l) = (do vs <- mapM (loads fields) l; Ok (VList vs)).
Proof.
  cbn [loads]. set (go := fix go (l : list json) : res (list value) := _).
  assert (E : go l = mapM (loads fields) l); [|now rewrite E]. induction l as [|x l IH]; cbn; auto. now rewrite IH.
Qed.
Fixpoint items (fields : list string) (l : list (string * json)) : res (list (string * value)) :=
  match l with
  | [] => Ok []
  | (k, x) :: l' => do v <- loads fields x; do vs <- items fields l'; Ok ((k, v) :: vs)
  end.
Lemma loads_object fields l : loads fields (JObj l) = (do dct <- items fields l; hook fields dct).
Proof.
  cbn [loads]. set (go := fix go (l : list (string * json)) : res (list (string * value)) := _).
  assert (E : go l = items fields l); [|now rewrite E]. induction l as [|[k x] l IH]; cbn; auto. now rewrite IH.
Qed.

Lemma items_spec fields l (G : forall k x, In (k, x) l -> match loads fields x with Ok _ => all_objects_have fields x | Err e => e = KeyError /\ ~ all_objects_have fields x end) :
  match items fields l with
  | Ok dct => Forall2 (fun p q => fst p = fst q /\ loads fields (snd p) = Ok (snd q)) l dct /\ forall k x, In (k, x) l -> all_objects_have fields x
  | Err e => e = KeyError /\ exists k x, In (k, x) l /\ ~ all_objects_have fields x
  end.
Proof.
  induction l as [|[k x] l IH]; cbn.
  - split; [constructor|intros ? ? []].
  - pose proof (G k x (or_introl eq_refl)) as Gx. destruct (loads fields x) as [v|e] eqn:E; cbn.
    + specialize (IH (fun k x I => G k x (or_intror I))). destruct (items fields l) as [dct|e]; cbn.
      * destruct IH as [F A]. split; [constructor; auto|]. intros k' y [D|I]; [injection D as _ <-; exact Gx|eapply A; eauto].
      * destruct IH as (-> & k' & y & I & N). split; auto. exists k', y. split; [now right|exact N].
    + destruct Gx as [-> N]. split; auto. exists k, x. split; [now left|exact N].
Qed.
Lemma F2_keys fields l dct : Forall2 (fun (p : string * json) (q : string * value) => fst p = fst q /\ loads fields (snd p) = Ok (snd q)) l dct -> map fst dct = map fst l.
Proof. intro F. induction F as [|p q l dct [E _] F IH]; cbn; congruence. Qed.

Lemma loads_main fields j : match loads fields j with Ok _ => all_objects_have fields j | Err e => e = KeyError /\ ~ all_objects_have fields j end.
Proof.
  induction j as [|b|n|s|l IH|l IH] using json_deep; try (cbn; intros l I; inversion I; fail).
  - rewrite loads_array.
    assert (G : match mapM (loads fields) l with Ok _ => forall x, In x l -> all_objects_have fields x
                | Err e => e = KeyError /\ exists x, In x l /\ ~ all_objects_have fields x end).
    { induction l as [|x l IHl]; cbn; [intros ? []|]. pose proof (IH x (or_introl eq_refl)) as Gx. destruct (loads fields x) as [v|e]; cbn.
      - specialize (IHl (fun x I => IH x (or_intror I))). destruct (mapM (loads fields) l) as [vs|e]; cbn.
        + intros y [<-|I]; auto.
        + destruct IHl as (-> & y & I & N). split; auto. exists y. split; [now right|exact N].
      - destruct Gx as [-> N]. split; auto. exists x. split; [now left|exact N]. }
    destruct (mapM (loads fields) l) as [vs|e]; cbn.
    + intros o I. inversion I as [|k l' Ik Io|]; subst. exact (G k Ik o Io).
    + destruct G as (-> & x & I & N). split; auto. intro A. apply N. intros o Io. apply A. eapply inside_array; eauto.
  - rewrite loads_object. pose proof (items_spec fields l IH) as G. destruct (items fields l) as [dct|e]; cbn.
    + destruct G as [F A]. unfold hook. pose proof (keys_spec fields dct) as K. unfold has_keys in K. rewrite (F2_keys _ _ _ F) in K.
      destruct (mapM (getkey dct) fields) as [vs|e]; cbn.
      * intros o I. inversion I as [| |key k l' Ik Io]; subst; [exact (proj1 K)|exact (A key k Ik o Io)].
      * destruct K as [-> N]. split; auto. intro H. apply N. apply (H l). constructor.
    + destruct G as (-> & k & x & I & N). split; auto. intro H. apply N. intros o Io. apply H. eapply inside_object; eauto.
Qed.
Lemma F2_binding fields l dct key v : Forall2 (fun (p : string * json) (q : string * value) => fst p = fst q /\ loads fields (snd p) = Ok (snd q)) l dct ->
  binding dct key v -> exists j, binding l key j /\ loads fields j = Ok v.
Proof.
  intros F (pre & post & -> & N). apply Forall2_app_inv_r in F as (pre' & r & F1 & F2 & ->). inversion F2 as [|[k j] q post' ? [E1 E2] F3]; subst.
  cbn in *. subst k. exists j. split; auto. exists pre', post'. split; auto. now rewrite <- (F2_keys _ _ _ F3).
Qed.
Lemma object_main fields l v : loads fields (JObj l) = Ok v ->
  exists vs, v = VTuple vs /\ Forall2 (fun key x => exists j, binding l key j /\ loads fields j = Ok x) fields vs.
Proof.
  rewrite loads_object. pose proof (items_spec fields l (fun k x _ => loads_main fields x)) as G. destruct (items fields l) as [dct|e]; cbn; [|discriminate].
  destruct G as [F _]. unfold hook. pose proof (keys_spec fields dct) as K. destruct (mapM (getkey dct) fields) as [vs|e]; cbn; [|discriminate].
  intro E. injection E as <-. exists vs. split; auto. destruct K as [_ K]. revert K. clear - F. generalize fields at 1 3. intros keys K.
  induction K as [|key x keys vs B K IH]; constructor; auto. exact (F2_binding fields l dct key x F B).
Qed.
Lemma amazon_main l u i t : binding l "reviewerID" (JStr u) -> binding l "asin" (JStr i) -> binding l "unixReviewTime" (JNum t) ->
  ((forall key k, In (key, k) l -> all_objects_have amazon_fields k) -> loads amazon_fields (JObj l) = Ok (VTuple [VStr u; VStr i; VNum t])) /\
  (forall key k, In (key, k) l -> ~ all_objects_have amazon_fields k -> loads amazon_fields (JObj l) = Err KeyError).
Proof.
  intros Bu Bi Bt. split.
  - intro A. pose proof (loads_main amazon_fields (JObj l)) as H. destruct (loads amazon_fields (JObj l)) as [v|e] eqn:E.
    + destruct (object_main _ _ _ E) as (vs & -> & F). unfold amazon_fields in F.
      inversion F as [|? x1 ? r1 (j1 & B1 & L1) F1]; subst. inversion F1 as [|? x2 ? r2 (j2 & B2 & L2) F2]; subst.
      inversion F2 as [|? x3 ? r3 (j3 & B3 & L3) F3]; subst. inversion F3; subst.
      apply (proj1 (getkey_binding _ _ _)) in Bu, Bi, Bt, B1, B2, B3.
      rewrite Bu in B1. rewrite Bi in B2. rewrite Bt in B3. injection B1 as <-. injection B2 as <-. injection B3 as <-.
      cbn in L1, L2, L3. congruence.
    + destruct H as [_ N]. exfalso. apply N. intros o I. inversion I as [| |key k l' Ik Io]; subst; [|exact (A key k Ik o Io)].
      intros key K. apply binding_In in Bu, Bi, Bt. apply (in_map fst) in Bu, Bi, Bt. cbn in K, Bu, Bi, Bt.
      destruct K as [<-|[<-|[<-|[]]]]; assumption.
  - intros key k I N. pose proof (loads_main amazon_fields (JObj l)) as H. destruct (loads amazon_fields (JObj l)) as [v|e].
    + exfalso. apply N. intros o Io. apply H. eapply inside_object; eauto.
    + now destruct H as [-> _].
Qed.

(** * Lines of Steam *)
Lemma literal_binding l key v : binding (map (fun p => (fst p, literal (snd p))) l) key v <-> exists j, binding l key j /\ v = literal j.
Proof.
  split.
  - intros (pre & post & E & N). apply map_eq_app in E as (p & q & -> & <- & E). destruct q as [|[k j] q]; [discriminate|]. cbn in E. injection E as -> <- <-.
    exists j. split; auto. exists p, q. split; auto. rewrite map_map in N. exact N.
  - intros (j & (pre & post & -> & N) & ->). exists (map (fun p => (fst p, literal (snd p))) pre), (map (fun p => (fst p, literal (snd p))) post).
    rewrite map_app. split; auto. now rewrite map_map.
Qed.
Lemma steam_line_main fields j :
  match steam_line fields (literal j) with
  | Ok row => exists l, j = JObj l /\ has_keys fields l /\ Forall2 (fun key v => exists k, binding l key k /\ v = literal k) fields row
  | Err e => (e = TypeError /\ forall l, j <> JObj l) \/ (e = KeyError /\ exists l, j = JObj l /\ ~ has_keys fields l)
  end.
Proof.
  destruct j as [|b|n|s|l|l]; cbn; try (left; split; [reflexivity|discriminate]).
  set (d := map _ l). assert (KD : map fst d = map fst l) by (unfold d; now rewrite map_map).
  pose proof (keys_spec fields d) as K. unfold has_keys in K. rewrite KD in K. destruct (mapM (getkey d) fields) as [row|e].
  - exists l. split; auto. destruct K as [H F]. split; auto. clear - F. induction F as [|key v keys vs B F IH]; constructor; auto. now apply (proj1 (literal_binding l key v)).
  - right. destruct K as [-> N]. split; auto. exists l. auto.
Qed.

(** * Files *)
Lemma mapM_lines {A B} (f : A -> res B) l : line_by_line f l (mapM f l).
Proof.
  induction l as [|x l IH]; cbn; [constructor|]. destruct (f x) as [r|e] eqn:E; cbn.
  - destruct (mapM f l) as [rows|e]; cbn in *; [now constructor|]. destruct IH as (pre & y & post & -> & Ey & H).
    exists (x :: pre), y, post. split; auto. split; auto. intros z [<-|I]; eauto.
  - exists [], x, l. split; auto. split; auto. intros ? [].
Qed.
Lemma amazon_file_main read fields lines :
  line_by_line (fun s => do j <- read s; loads fields j) lines (parse_lines_amz read fields lines).
Proof. apply mapM_lines. Qed.

(** * Records without objects inside *)
Lemma plain_loads fields j : (forall l, ~ inside (JObj l) j) -> loads fields j = Ok (literal j).
Proof.
  induction j as [|b|n|s|l IH|l IH] using json_deep; intro H; try reflexivity.
  - rewrite loads_array. assert (E : mapM (loads fields) l = Ok (map literal l)).
    { assert (G : forall x, In x l -> loads fields x = Ok (literal x)).
      { intros x I. apply IH; auto. intros o Io. apply (H o). eapply inside_array; eauto. }
      clear - G. induction l as [|x l IHl]; cbn; auto. rewrite (G x (or_introl eq_refl)). cbn. rewrite (IHl (fun x I => G x (or_intror I))). reflexivity. }
    rewrite E. reflexivity.
  - exfalso. apply (H l). constructor.
Qed.
Lemma agree_main fields l : (forall key k o, In (key, k) l -> ~ inside (JObj o) k) ->
  loads fields (JObj l) = (do row <- steam_line fields (literal (JObj l)); Ok (VTuple row)).
Proof.
  intro H. rewrite loads_object.
  assert (E : items fields l = Ok (map (fun p => (fst p, literal (snd p))) l)).
  { assert (G : forall key k, In (key, k) l -> loads fields k = Ok (literal k)).
    { intros key k I. apply plain_loads. intros o. exact (H key k o I). }
    clear - G. induction l as [|[key k] l IH]; cbn; auto. rewrite (G key k (or_introl eq_refl)). cbn. rewrite IH; auto. intros key' k' I. exact (G key' k' (or_intror I)). }
  rewrite E. reflexivity.
Qed.
