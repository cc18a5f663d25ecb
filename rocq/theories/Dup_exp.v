(** C108: experiments of SVD and PSI. *)
From Coq Require Import ZArith List Bool Lia.
From Verif Require Import Prelude Prelude_proofs DataPrep_model DataPrep_proofs Recommend_model Eval_model Psi_model Tensor_model Matrix_model Attention_model
  LinAlg_model Num_model Dynamic_model Full_model Dup_spec Dup_main.
Import ListNotations.
Open Scope Z_scope.

(** ** The tested rows *)
Definition kept (seen : list Z) (l : list (Z * Z)) : list (Z * Z) := select (map negb (mfo seen (map fst l))) l.

Lemma kept_cons seen x l : kept seen (x :: l) = if memZ (fst x) seen then kept (fst x :: seen) l else x :: kept (fst x :: seen) l.
Proof. unfold kept. cbn [map mfo select]. destruct (memZ (fst x) seen); reflexivity. Qed.

Lemma kept_ext s s' l : (forall x, In x s <-> In x s') -> kept s l = kept s' l.
Proof. intros H. unfold kept. rewrite (mfo_ext s s' _ H). reflexivity. Qed.

Lemma kept_drop x l : forall seen, In (fst x) seen -> kept seen (filter (fun y => negb (same_pair y x)) l) = kept seen l.
Proof.
  induction l as [|y l IH]; intros seen H; [reflexivity|]. cbn [filter]. destruct (same_pair y x) eqn:E; cbn [negb].
  - apply same_pair_iff in E. subst y. rewrite kept_cons.
    assert (M : memZ (fst x) seen = true) by (apply existsb_exists; exists (fst x); split; [exact H|apply Z.eqb_refl]).
    rewrite M, (IH seen H). apply kept_ext. intros z. cbn [In]. split; [auto|]. intros [<-|K]; assumption.
  - rewrite !kept_cons, (IH (fst y :: seen)) by (right; exact H). reflexivity.
Qed.

Lemma kept_firsts l : forall seen, kept seen (firsts l) = kept seen l.
Proof.
  induction l as [|x l IH]; intros seen; [reflexivity|]. cbn [firsts]. rewrite !kept_cons, kept_drop, IH by (left; reflexivity). reflexivity.
Qed.

Lemma targets_firsts c1 c2 ms : firsts (map who c1) = firsts (map who c2) ->
  get_users_to_recommend_test_items c1 ms = get_users_to_recommend_test_items c2 ms.
Proof.
  intros E. unfold get_users_to_recommend_test_items, get_inds_vals, get_known_ui_df_mask. cbn [fst].
  rewrite !Dup_main.select_filter, !mask_first_occurence_mfo.
  set (p := fun q : Z * Z => negb (get_or_pad (old2new (m_users ms)) (fst q) =? PAD_VALUE) && negb (get_or_pad (old2new (m_items ms)) (snd q) =? PAD_VALUE)).
  assert (K : forall c, map (fun r => (r_user r, r_item r)) (filter (fun r =>
      let u := get_or_pad (old2new (m_users ms)) (r_user r) in let i := get_or_pad (old2new (m_items ms)) (r_item r) in
      negb (u =? PAD_VALUE) && negb (i =? PAD_VALUE)) c) = filter p (map who c)) by (intros c; exact (map_who_filter p c)).
  rewrite !K. fold (kept [] (filter p (map who c1))). fold (kept [] (filter p (map who c2))).
  rewrite <- (kept_firsts (filter p (map who c1))), <- (kept_firsts (filter p (map who c2))), !firsts_filter, E. reflexivity.
Qed.

(** ** Growing tables *)
Section Grow.
  Context {A : Type} (zero : A) (add : A -> A -> A) (of_rel : Z -> A).
  Hypothesis M : adds_up zero add.
  Lemma view_app d1 d2 c1 c2 : same_view zero add of_rel d1 d2 -> same_view zero add of_rel c1 c2 ->
    same_view zero add of_rel (d1 ++ c1) (d2 ++ c2).
  Proof.
    intros V W. split.
    - rewrite !map_app, !firsts_app, (proj1 V), (proj1 W). f_equal. apply filter_ext. intros p. f_equal.
      apply eq_true_iff_eq. rewrite !existsb_exists.
      split; intros (q & I & E); exists q; (split; [apply (view_pairs _ _ _ _ _ V); exact I|exact E]).
    - intros p. unfold total. rewrite !filter_app, !map_app, !(sum_app zero add M).
      f_equal; [apply (proj2 V)|apply (proj2 W)].
  Qed.
End Grow.

(** ** Two runs in step *)
Section Generic.
  Context {S D A V T : Type} (zero : A) (sub : A -> A -> A).
  Variable norm : mat A -> V.
  Variable div : V -> V -> V.
  Variable minus_one : V.
  Variable clock : nat -> T.
  Variable m : api S D A.
  Variable grow : D -> list row -> res D.
  Variable chunk_mode : bool.
  Variable hm : Z.
  Variable RS : S -> S -> Prop.
  Variable RD : D -> D -> Prop.
  Variable RC : list row -> list row -> Prop.
  Hypothesis h_chunk : forall c c', RC c c' -> firsts (map who c) = firsts (map who c').
  Hypothesis h_update : forall x y c c' d d', RS x y -> RC c c' -> RD d d' ->
    agree RS (update m x (if chunk_mode then inl c else inr d)) (update m y (if chunk_mode then inl c' else inr d')).
  Hypothesis h_maps : forall x y, RS x y -> maps m x = maps m y.
  Hypothesis h_rec : forall x y us b, RS x y -> Dynamic_model.recommend m x us b = Dynamic_model.recommend m y us b.
  Hypothesis h_items : forall x y, RS x y -> n_items m x = n_items m y.
  Hypothesis h_u : forall x y, RS x y -> get_u m x = get_u m y.
  Hypothesis h_v : forall x y, RS x y -> get_v m x = get_v m y.
  Hypothesis h_grow : forall d d' c c', RD d d' -> RC c c' -> agree RD (grow d c) (grow d' c').
  Variable tu : list Z.
  Notation loop := (exp_loop zero sub norm div minus_one clock m grow tu chunk_mode hm).
  Notation experiment := (dynamical_experiment zero sub norm div minus_one clock m grow tu chunk_mode hm).

  Lemma bind_ext' {X Y} (r : res X) (f g : X -> res Y) : (forall x, f x = g x) -> bind r f = bind r g.
  Proof. intros H. destruct r; cbn [bind]; auto. Qed.

  Lemma agree_eq {X Y} (R : X -> X -> Prop) a b (f g : X -> res Y) : agree R a b -> (forall x y, R x y -> f x = g y) -> bind a f = bind b g.
  Proof. destruct a, b; cbn [agree bind]; intros H K; try contradiction; [auto|subst; reflexivity]. Qed.

  Lemma loop_agree s1 s2 : Forall2 RC s1 s2 -> forall iter x y d d' l calls dyn, RS x y -> RD d d' ->
    loop iter s1 x d l calls dyn = loop iter s2 y d' l calls dyn.
  Proof.
    induction 1 as [|c c' s1 s2 C _ IH]; intros iter x y d d' l calls dyn L W; [reflexivity|].
    cbn [exp_loop]. rewrite (h_maps _ _ L), (targets_firsts c c' _ (h_chunk _ _ C)).
    destruct (get_users_to_recommend_test_items c' (maps m y)) as [users items].
    rewrite (h_rec x y _ _ L). apply bind_ext'. intros rec. apply bind_ext'. intros h. apply bind_ext'. intros mr'.
    assert (E1 : wji_step m tu iter x l (d_wji dyn) = wji_step m tu iter y l (d_wji dyn)).
    { unfold wji_step. rewrite !(h_rec x y _ _ L), !(h_items _ _ L). reflexivity. }
    rewrite E1. apply bind_ext'. intros [l1 wjis].
    assert (E2 : emb_step zero sub norm div minus_one m iter x l1 (rnd_users dyn) (rnd_items dyn)
                = emb_step zero sub norm div minus_one m iter y l1 (rnd_users dyn) (rnd_items dyn)).
    { unfold emb_step. rewrite !(h_u _ _ L), !(h_v _ _ L). reflexivity. }
    rewrite E2. apply bind_ext'. intros [[l2 us] vs]. rewrite (h_u _ _ L), (h_v _ _ L).
    apply bind_ext'. intros u. apply bind_ext'. intros v.
    apply (agree_eq RD); [destruct chunk_mode; [exact W|apply h_grow; assumption]|]. intros e e' We.
    apply (agree_eq RS); [apply h_update; assumption|]. intros x' y' L'.
    destruct (iter =? hm); [reflexivity|]. apply IH; assumption.
  Qed.

  Lemma experiment_agree st0 st0' d d' s1 s2 : agree RS (train m st0 d) (train m st0' d') -> RD d d' -> Forall2 RC s1 s2 ->
    experiment st0 d s1 = experiment st0' d' s2.
  Proof. intros H W F. unfold dynamical_experiment. apply (agree_eq RS); [exact H|]. intros x y L. apply loop_agree; assumption. Qed.
End Generic.

Section Models.
  Context {A V T : Type} (zero one : A) (add mul sub : A -> A -> A) (of_rel : Z -> A).
  Hypothesis M : adds_up zero add.

  Theorem experiments_view qr svd rsvd exceeds_eps argsort normal svds argpart k rank cfg m (norm : mat A -> V) (div : V -> V -> V) minus_one (clock : nat -> T)
    chunk_mode hm tu st0 st0' d1 d2 s1 s2 :
    m = psi_api zero one add mul sub of_rel qr svd rsvd exceeds_eps argsort normal svds argpart k rank cfg \/
    m = svd_api zero add mul of_rel svds argpart k rank ->
    same_view zero add of_rel d1 d2 -> Forall2 (same_view zero add of_rel) s1 s2 ->
    dynamical_experiment zero sub norm div minus_one clock m grow_2d tu chunk_mode hm st0 d1 s1 =
    dynamical_experiment zero sub norm div minus_one clock m grow_2d tu chunk_mode hm st0' d2 s2.
  Proof.
    intros Hm W F.
    assert (Tr : forall d d', same_view zero add of_rel d d' -> agree alike (num_train zero add of_rel svds rank d) (num_train zero add of_rel svds rank d')).
    { intros d d' H. apply (train_agree zero add of_rel M), (view_totals zero add of_rel), H. }
    apply (experiment_agree zero sub norm div minus_one clock m grow_2d chunk_mode hm alike (same_view zero add of_rel) (same_view zero add of_rel));
      [exact (fun c c' H => proj1 H)| | | | | | | | |exact W|exact F].
    - intros x y c c' d d' L C H. destruct Hm as [-> | ->]; cbn [psi_api svd_api update]; destruct chunk_mode;
        first [apply (update_agree zero one add mul sub of_rel M); assumption|apply Tr; assumption].
    - intros x y L. destruct Hm as [-> | ->]; exact (proj1 L).
    - intros x y us b L. destruct Hm as [-> | ->]; cbn [psi_api svd_api Dynamic_model.recommend]; unfold svd_recommend; apply recommend_alike; exact L.
    - intros x y (_ & _ & _ & E & _). destruct Hm as [-> | ->]; cbn [psi_api svd_api n_items]; rewrite E; reflexivity.
    - intros x y (_ & _ & _ & E & _). destruct Hm as [-> | ->]; cbn [psi_api svd_api get_u]; unfold svd_get_u; rewrite E; reflexivity.
    - intros x y (_ & _ & _ & E & _). destruct Hm as [-> | ->]; cbn [psi_api svd_api get_v]; unfold svd_get_v; rewrite E; reflexivity.
    - intros d d' c c' H C. unfold grow_2d. cbn [agree]. apply view_app; assumption.
    - destruct Hm as [-> | ->]; cbn [psi_api svd_api train]; apply Tr; exact W.
  Qed.
End Models.
