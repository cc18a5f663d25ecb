(** Proofs of C108. *)
From Coq Require Import ZArith List Bool Lia.
From Verif Require Import Prelude Prelude_proofs DataPrep_model Recommend_model Psi_model Tensor_model Matrix_model Attention_model
  LinAlg_model Num_model Full_model Tables_graph Dup_spec.
Import ListNotations.
Open Scope Z_scope.

Lemma same_pair_iff p q : same_pair p q = true <-> p = q.
Proof.
  unfold same_pair. destruct p, q; cbn [fst snd]. rewrite andb_true_iff, !Z.eqb_eq.
  split; [intros []; subst; reflexivity|intros E; injection E; auto].
Qed.
Lemma same_pair_refl p : same_pair p p = true. Proof. apply same_pair_iff. reflexivity. Qed.

Lemma filter_swap {X} (p q : X -> bool) l : filter p (filter q l) = filter q (filter p l).
Proof.
  induction l as [|a l IH]; [reflexivity|]. cbn [filter].
  destruct (q a) eqn:Q, (p a) eqn:P; cbn [filter]; rewrite ?Q, ?P, IH; reflexivity.
Qed.

Lemma firsts_In p l : In p (firsts l) <-> In p l.
Proof.
  induction l as [|x l IH]; [reflexivity|]. cbn [firsts In]. rewrite filter_In, negb_true_iff, IH.
  split.
  - intros [H|[H _]]; auto.
  - intros [H|H]; [auto|]. destruct (same_pair p x) eqn:E; [left; symmetry; apply same_pair_iff; exact E|auto].
Qed.

Lemma filter_NoDup {X} (f : X -> bool) l : NoDup l -> NoDup (filter f l).
Proof.
  induction 1 as [|a l H _ IH]; cbn [filter]; [constructor|]. destruct (f a); [|exact IH].
  constructor; [|exact IH]. rewrite filter_In. tauto.
Qed.

Lemma firsts_NoDup l : NoDup (firsts l).
Proof.
  induction l as [|x l IH]; [constructor|]. cbn [firsts]. constructor.
  - rewrite filter_In, same_pair_refl. intros [_ H]. discriminate.
  - apply filter_NoDup. exact IH.
Qed.

Lemma filter_sub {X} (p q : X -> bool) l : (forall a, p a = true -> q a = true) -> filter p (filter q l) = filter p l.
Proof.
  intros H. induction l as [|a l IH]; [reflexivity|]. cbn [filter]. destruct (q a) eqn:Q; cbn [filter].
  - rewrite IH. reflexivity.
  - destruct (p a) eqn:P; [rewrite (H a P) in Q; discriminate|exact IH].
Qed.

Lemma firsts_filter (p : Z * Z -> bool) l : firsts (filter p l) = filter p (firsts l).
Proof.
  induction l as [|x l IH]; [reflexivity|]. cbn [filter firsts]. destruct (p x) eqn:P; cbn [firsts].
  - rewrite IH, filter_swap. reflexivity.
  - rewrite IH. symmetry. apply filter_sub. intros a Pa. apply negb_true_iff.
    destruct (same_pair a x) eqn:E; [|reflexivity]. apply same_pair_iff in E. subst. congruence.
Qed.

Lemma map_who_filter (p : Z * Z -> bool) d : map who (filter (fun r => p (who r)) d) = filter p (map who d).
Proof. induction d as [|r d IH]; [reflexivity|]. cbn [filter map]. destruct (p (who r)); cbn [map]; rewrite IH; reflexivity. Qed.

Lemma filter_map_eq {X Y} (f : X -> Y) (p : Y -> bool) l : filter p (map f l) = map f (filter (fun x => p (f x)) l).
Proof. induction l as [|r d IH]; [reflexivity|]. cbn [filter map]. destruct (p (f r)); cbn [map]; rewrite IH; reflexivity. Qed.

Lemma id_firsts_unique l : id_firsts l = unique l.
Proof. induction l as [|x l IH]; [reflexivity|]. cbn [id_firsts unique]. rewrite IH. reflexivity. Qed.

Lemma unique_firsts (f : Z * Z -> Z) l : unique (map f l) = unique (map f (firsts l)).
Proof.
  induction l as [|x l IH]; [reflexivity|]. cbn [map firsts unique]. f_equal. rewrite IH, <- !unique_filter. f_equal.
  rewrite !filter_map_eq. f_equal. symmetry. apply filter_sub. intros a H. apply negb_true_iff in H. apply negb_true_iff.
  destruct (same_pair a x) eqn:E; [|reflexivity]. apply same_pair_iff in E. subst. rewrite Z.eqb_refl in H. discriminate.
Qed.

Lemma map_users d : map r_user d = map fst (map who d). Proof. rewrite map_map. reflexivity. Qed.
Lemma map_items d : map r_item d = map snd (map who d). Proof. rewrite map_map. reflexivity. Qed.

Section Views.
  Context {A : Type} (zero : A) (add : A -> A -> A) (of_rel : Z -> A).
  Hypothesis M : adds_up zero add.
  Notation total := (total zero add of_rel).
  Notation same_view := (same_view zero add of_rel).
  Notation same_totals := (same_totals zero add of_rel).
  Notation sum l := (fold_right add zero l).
  Let addA : forall a b c, add a (add b c) = add (add a b) c := proj1 M.
  Let addC : forall a b, add a b = add b a := proj1 (proj2 M).
  Let add0 : forall a, add zero a = a := proj2 (proj2 M).
  Local Lemma add0r a : add a zero = a. Proof. rewrite addC. apply add0. Qed.
  Local Lemma swap4 a b c d : add (add a b) (add c d) = add (add a c) (add b d).
  Proof. rewrite !addA. f_equal. rewrite <- !addA. f_equal. apply addC. Qed.

  Lemma sum_app l l' : sum (l ++ l') = add (sum l) (sum l').
  Proof. induction l as [|a l IH]; cbn [app fold_right]; [rewrite add0; reflexivity|]. rewrite IH. apply addA. Qed.

  (** The sum over the rows of some pairs is the sum of their totals. *)
  Definition part (p : Z * Z -> bool) (d : list row) : A :=
    sum (map (fun r => of_rel (r_rel r)) (filter (fun r => p (who r)) d)).

  Lemma sum_zero {X} (L : list X) (f : X -> A) : (forall q, In q L -> f q = zero) -> sum (map f L) = zero.
  Proof.
    induction L as [|q L IH]; intros H; [reflexivity|]. cbn [map fold_right]. rewrite (H q (or_introl eq_refl)), add0.
    apply IH. intros. apply H. right. assumption.
  Qed.

  Lemma sum_add {X} (L : list X) (f g : X -> A) : sum (map (fun q => add (f q) (g q)) L) = add (sum (map f L)) (sum (map g L)).
  Proof.
    induction L as [|q L IH]; cbn [map fold_right]; [rewrite add0; reflexivity|]. rewrite IH. apply swap4.
  Qed.

  Lemma sum_one (L : list (Z * Z)) (x : Z * Z) a : NoDup L -> In x L ->
    sum (map (fun q => if same_pair x q then a else zero) L) = a.
  Proof.
    induction 1 as [|q L N _ IH]; intros I; [destruct I|]. cbn [map fold_right].
    destruct (same_pair x q) eqn:E.
    - apply same_pair_iff in E. subst q. rewrite sum_zero; [apply add0r|].
      intros q Hq. destruct (same_pair x q) eqn:E; [|reflexivity]. apply same_pair_iff in E. subst. contradiction.
    - rewrite add0. apply IH. destruct I as [->|I]; [rewrite same_pair_refl in E; discriminate|exact I].
  Qed.

  Lemma part_totals (p : Z * Z -> bool) d L : NoDup L -> (forall r, In r d -> In (who r) L) ->
    part p d = sum (map (total d) (filter p L)).
  Proof.
    intros N. induction d as [|r d IH]; intros H.
    - symmetry. apply sum_zero. reflexivity.
    - assert (T : forall q, total (r :: d) q = add (if same_pair (who r) q then of_rel (r_rel r) else zero) (total d q)).
      { intros q. unfold Dup_spec.total. cbn [filter]. destruct (same_pair (who r) q); [reflexivity|]. rewrite add0. reflexivity. }
      rewrite (map_ext _ _ T), (sum_add (filter p L) (fun q => if same_pair (who r) q then of_rel (r_rel r) else zero) (total d)), <- IH by (intros; apply H; right; assumption).
      unfold part. cbn [filter]. destruct (p (who r)) eqn:P.
      + cbn [map fold_right]. f_equal. symmetry. apply sum_one; [apply filter_NoDup; exact N|].
        apply filter_In. split; [apply H; left; reflexivity|exact P].
      + rewrite (sum_zero (filter p L) (fun q => if same_pair (who r) q then of_rel (r_rel r) else zero)); [symmetry; apply add0|]. intros q Hq. apply filter_In in Hq. destruct Hq as [_ Hq].
        destruct (same_pair (who r) q) eqn:E; [|reflexivity]. apply same_pair_iff in E. subst. congruence.
  Qed.

  Lemma same_part p d1 d2 : (forall q, In q (map who d1) <-> In q (map who d2)) -> (forall q, total d1 q = total d2 q) ->
    part p d1 = part p d2.
  Proof.
    intros S T. rewrite !(part_totals p _ (firsts (map who d1))).
    - f_equal. apply map_ext. exact T.
    - apply firsts_NoDup.
    - intros r H. apply firsts_In, S, in_map. exact H.
    - apply firsts_NoDup.
    - intros r H. apply firsts_In, in_map. exact H.
  Qed.

  Lemma view_pairs d1 d2 : same_view d1 d2 -> forall q, In q (map who d1) <-> In q (map who d2).
  Proof. intros [E _] q. rewrite <- (firsts_In q (map who d1)), E. apply firsts_In. Qed.

  Lemma view_totals d1 d2 : same_view d1 d2 -> same_totals d1 d2.
  Proof.
    intros V. split; [|split; [|split; [apply view_pairs; exact V|apply V]]].
    - rewrite !id_firsts_unique, !map_users, unique_firsts, (proj1 V), <- unique_firsts. reflexivity.
    - rewrite !id_firsts_unique, !map_items, unique_firsts, (proj1 V), <- unique_firsts. reflexivity.
  Qed.

  Lemma view_filter (p : Z * Z -> bool) d1 d2 : same_view d1 d2 ->
    same_view (filter (fun r => p (who r)) d1) (filter (fun r => p (who r)) d2).
  Proof.
    intros [E T]. split.
    - rewrite !map_who_filter, !firsts_filter, E. reflexivity.
    - intros q. specialize (T q). unfold Dup_spec.total in *. rewrite !(filter_swap _ (fun r => p (who r))).
      destruct (p q) eqn:P.
      + assert (K : forall d, filter (fun r => p (who r)) (filter (fun r => same_pair (who r) q) d) = filter (fun r => same_pair (who r) q) d).
        { intros d. induction d as [|r d IH]; [reflexivity|]. cbn [filter]. destruct (same_pair (who r) q) eqn:E'; [|exact IH].
          cbn [filter]. apply same_pair_iff in E'. rewrite E', P, IH. reflexivity. }
        rewrite !K. exact T.
      + assert (K : forall d, filter (fun r => p (who r)) (filter (fun r => same_pair (who r) q) d) = []).
        { intros d. induction d as [|r d IH]; [reflexivity|]. cbn [filter]. destruct (same_pair (who r) q) eqn:E'; [|exact IH].
          cbn [filter]. apply same_pair_iff in E'. rewrite E', P. exact IH. }
        rewrite !K. reflexivity.
  Qed.
End Views.

(** ** Results *)
Lemma agree_bind {X Y} (R : X -> X -> Prop) (R' : Y -> Y -> Prop) a b f g :
  agree R a b -> (forall x y, R x y -> agree R' (f x) (g y)) -> agree R' (bind a f) (bind b g).
Proof. destruct a, b; cbn [agree bind]; intros H K; try contradiction; auto. Qed.

Lemma agree_refl {X} (R : X -> X -> Prop) a : (forall x, R x x) -> agree R a a.
Proof. intros H. destruct a; cbn; auto. Qed.

Lemma forallb_set {X Y} (f : X -> Y) (q : Y -> bool) l l' : (forall y, In y (map f l) <-> In y (map f l')) ->
  forallb (fun x => q (f x)) l = forallb (fun x => q (f x)) l'.
Proof.
  intros H. apply eq_true_iff_eq. rewrite !forallb_forall. split; intros K x I.
  - apply (in_map f) in I. apply H in I. apply in_map_iff in I. destruct I as (y & <- & I). auto.
  - apply (in_map f) in I. apply H in I. apply in_map_iff in I. destruct I as (y & <- & I). auto.
Qed.

Lemma forallb_users d1 d2 (D : dict Z) : (forall q, In q (map who d1) <-> In q (map who d2)) ->
  forallb (fun r => dmem (r_user r) D) d1 = forallb (fun r => dmem (r_user r) D) d2.
Proof. exact (forallb_set who (fun p => dmem (fst p) D) d1 d2). Qed.

Lemma forallb_items d1 d2 (D : dict Z) : (forall q, In q (map who d1) <-> In q (map who d2)) ->
  forallb (fun r => dmem (r_item r) D) d1 = forallb (fun r => dmem (r_item r) D) d2.
Proof. exact (forallb_set who (fun p => dmem (snd p) D) d1 d2). Qed.

Lemma map_set {X Y Z'} (f : X -> Y) (g : Y -> Z') l l' : (forall y, In y (map f l) <-> In y (map f l')) ->
  forall z, In z (map (fun x => g (f x)) l) <-> In z (map (fun x => g (f x)) l').
Proof. intros H z. rewrite <- !(map_map f g), !in_map_iff. split; intros (y & E & I); exists y; (split; [exact E|apply H; exact I]). Qed.

Lemma mapM_get {X Y} (D : dict Z) (h : X -> Z) (k : X -> Z -> Y) l :
  mapM (fun r => do u <- getitem D (h r); Ok (k r u)) l =
  if forallb (fun r => dmem (h r) D) l then Ok (map (fun r => k r (get_or_pad D (h r))) l) else Err KeyError.
Proof.
  induction l as [|r l IH]; [reflexivity|]. cbn [mapM forallb map]. rewrite IH. unfold getitem, dmem, get_or_pad.
  destruct (dget (h r) D); cbn [bind andb]; [|reflexivity]. destruct (forallb _ l); reflexivity.
Qed.

Lemma mapM_getitem {X} (D : dict Z) (h : X -> Z) l :
  mapM (fun r => getitem D (h r)) l =
  if forallb (fun r => dmem (h r) D) l then Ok (map (fun r => get_or_pad D (h r)) l) else Err KeyError.
Proof.
  rewrite <- (mapM_get D h (fun _ u => u)). induction l as [|r l IH]; [reflexivity|]. cbn [mapM]. rewrite IH.
  destruct (getitem D (h r)); reflexivity.
Qed.

Lemma combine_maps {X Y Z'} (f : X -> Y) (g : X -> Z') l : combine (map f l) (map g l) = map (fun r => (f r, g r)) l.
Proof. induction l as [|r l IH]; [reflexivity|]. cbn [map combine]. rewrite IH. reflexivity. Qed.

Lemma forallb_map' {X Y} (f : X -> Y) (p : Y -> bool) l : forallb p (map f l) = forallb (fun x => p (f x)) l.
Proof. induction l as [|r l IH]; [reflexivity|]. cbn [map forallb]. rewrite IH. reflexivity. Qed.

Lemma select_filter {X} (g : X -> bool) l : select (map g l) l = filter g l.
Proof. induction l as [|r l IH]; [reflexivity|]. cbn [map select filter]. destruct (g r); rewrite IH; reflexivity. Qed.

Lemma fold_max_le l : forall a, a <= fold_left Z.max l a /\ (forall x, In x l -> x <= fold_left Z.max l a) /\
  (fold_left Z.max l a = a \/ In (fold_left Z.max l a) l).
Proof.
  induction l as [|y l IH]; intros a; cbn [fold_left In]; [repeat split; [lia|contradiction|auto]|].
  destruct (IH (Z.max a y)) as (H1 & H2 & H3). repeat split.
  - lia.
  - intros x [<-|H]; [lia|auto].
  - destruct H3 as [H3|H3]; [|auto]. rewrite H3. destruct (Z.max_spec a y) as [[_ ->]|[_ ->]]; auto.
Qed.

Lemma fold_max_set l l' a : (forall x, In x l <-> In x l') -> fold_left Z.max l a = fold_left Z.max l' a.
Proof.
  intros H. destruct (fold_max_le l a) as (A1 & A2 & A3), (fold_max_le l' a) as (B1 & B2 & B3).
  apply Z.le_antisymm.
  - destruct A3 as [->|A3]; [lia|]. apply B2, H, A3.
  - destruct B3 as [->|B3]; [lia|]. apply A2, H, B3.
Qed.

Section Same.
  Context {A : Type} (zero one : A) (add mul sub : A -> A -> A) (of_rel : Z -> A).
  Hypothesis M : adds_up zero add.
  Variable qr : mat A -> res (mat A * mat A).
  Variable svd : mat A -> res (mat A * list A * mat A).
  Variable rsvd : mat A -> nat -> res (mat A * list A * mat A).
  Variable exceeds_eps : A -> bool.
  Variable argsort : list A -> list nat.
  Variable normal : nat -> nat -> mat A.
  Variable svds : mat A -> nat -> res (mat A * list A * mat A).
  Notation total := (total zero add of_rel).
  Notation same_view := (same_view zero add of_rel).
  Notation same_totals := (same_totals zero add of_rel).
  Notation da_array := (da_array zero add of_rel).

  Definition entries (f g : Z * Z -> Z) (d : list row) : list (Z * Z * Z) := map (fun r => (f (who r), g (who r), r_rel r)) d.

  Lemma same_array nr nc f g d1 d2 : (forall q, In q (map who d1) <-> In q (map who d2)) -> (forall q, total d1 q = total d2 q) ->
    da_array (Psi_model.mkCoo nr nc (entries f g d1)) = da_array (Psi_model.mkCoo nr nc (entries f g d2)).
  Proof.
    intros S T. unfold Num_model.da_array. cbn [da_rows da_cols da_entries]. unfold build. f_equal.
    apply flat_map_ext. intros i. apply map_ext. intros j.
    assert (K : forall d, map (fun e : Z * Z * Z => of_rel (snd e))
        (filter (fun e => (fst (fst e) =? Z.of_nat i) && (snd (fst e) =? Z.of_nat j)) (entries f g d)) =
        map (fun r => of_rel (r_rel r)) (filter (fun r => (fun q => (f q =? Z.of_nat i) && (g q =? Z.of_nat j)) (who r)) d)).
    { intros d. unfold entries. rewrite filter_map_eq, map_map. reflexivity. }
    rewrite !K. exact (same_part zero add of_rel M (fun q => (f q =? Z.of_nat i) && (g q =? Z.of_nat j)) _ _ S T).
  Qed.

  (** Two matrices with the same cells. *)
  Definition same_da (x y : mappings * Psi_model.coo) : Prop := fst x = fst y /\ da_array (snd x) = da_array (snd y).

  Lemma lookup_agree (D1 D2 : dict Z) (h1 h2 : Z * Z -> Z) nr nc (ms : mappings) d1 d2 :
    (forall q, In q (map who d1) <-> In q (map who d2)) -> (forall q, total d1 q = total d2 q) ->
    let run := fun d => do rows <- mapM (fun r => getitem D1 (h1 (who r))) d;
                        do cols <- mapM (fun r => getitem D2 (h2 (who r))) d;
                        do da <- mk_mapped (map r_rel d) rows cols nr nc; Ok (ms, da) in
    agree same_da (run d1) (run d2).
  Proof.
    intros S T run. unfold run. rewrite !mapM_getitem.
    rewrite (forallb_set who (fun p => dmem (h1 p) D1) d1 d2 S). destruct (forallb _ d2); cbn [bind]; [|reflexivity].
    rewrite (forallb_set who (fun p => dmem (h2 p) D2) d1 d2 S). destruct (forallb _ d2); cbn [bind]; [|reflexivity].
    unfold mk_mapped. rewrite !forallb_map', !combine_maps.
    rewrite (forallb_set who (fun p => (0 <=? get_or_pad D1 (h1 p)) && (get_or_pad D1 (h1 p) <? nr)) d1 d2 S).
    rewrite (forallb_set who (fun p => (0 <=? get_or_pad D2 (h2 p)) && (get_or_pad D2 (h2 p) <? nc)) d1 d2 S).
    destruct (_ && _); cbn [bind agree]; [|reflexivity].
    split; [reflexivity|]. cbn [snd]. apply (same_array nr nc (fun p => get_or_pad D1 (h1 p)) (fun p => get_or_pad D2 (h2 p)) _ _ S T).
  Qed.

  Lemma view_nil d1 d2 : same_view d1 d2 -> d1 = [] -> d2 = [].
  Proof.
    intros V ->. destruct d2 as [|r d2]; [reflexivity|]. exfalso.
    apply (proj2 (view_pairs zero add of_rel _ _ V (who r))). left. reflexivity.
  Qed.
  Lemma view_sym d1 d2 : same_view d1 d2 -> same_view d2 d1.
  Proof. intros [E T]. split; [symmetry; exact E|]. intros p. symmetry. apply T. Qed.

  Lemma view_unique d1 d2 : same_view d1 d2 -> unique (map r_user d1) = unique (map r_user d2) /\ unique (map r_item d1) = unique (map r_item d2).
  Proof. intros V. destruct (view_totals zero add of_rel _ _ V) as (U & I & _). rewrite !id_firsts_unique in U, I. auto. Qed.

  Lemma process_agree st st' d1 d2 md : same_view d1 d2 -> ps_maps st = ps_maps st' -> ps_n_users st = ps_n_users st' ->
    ps_n_items st = ps_n_items st' -> agree same_da (process_data st d1 md) (process_data st' d2 md).
  Proof.
    intros V E1 E2 E3. unfold process_data. rewrite <- E1, <- E2, <- E3.
    pose proof (view_pairs zero add of_rel _ _ V) as S. pose proof (proj2 V) as T. destruct (view_unique _ _ V) as [U I].
    unfold add_new_entities. rewrite <- U, <- I.
    destruct md.
    - exact (lookup_agree _ _ fst snd _ _ _ _ _ S T).
    - exact (lookup_agree _ _ snd fst _ _ _ _ _ S T).
    - exact (lookup_agree _ _ fst snd _ _ _ _ _ S T).
    - exact (lookup_agree _ _ fst snd _ _ _ _ _ S T).
  Qed.

  Notation by_mode := (num_by_mode zero one add mul sub of_rel qr svd rsvd exceeds_eps argsort normal).
  Notation loop_step := (num_loop_step zero one add mul sub of_rel qr svd rsvd exceeds_eps argsort normal).
  Notation update := (num_update zero one add mul sub of_rel qr svd rsvd exceeds_eps argsort normal).
  Notation stream := (num_stream zero one add mul sub of_rel qr svd rsvd exceeds_eps argsort normal).
  Notation train := (num_train zero add of_rel svds).

  Lemma by_mode_agree cfg x y d1 d2 md : alike x y -> same_view d1 d2 -> agree alike (by_mode cfg x d1 md) (by_mode cfg y d2 md).
  Proof.
    intros (E1 & E2 & E3 & E4 & E5) V. unfold num_by_mode.
    destruct d1 as [|r1 d1], d2 as [|r2 d2].
    - cbn. repeat split; auto; apply E5.
    - pose proof (view_nil _ _ V eq_refl). discriminate.
    - pose proof (view_nil _ _ (view_sym _ _ V) eq_refl). discriminate.
    - eapply agree_bind; [apply (process_agree _ (nm_book y) _ _ md V E1 E2 E3)|].
      intros [ms da] [ms' da'] [Em Ed]. cbn [fst snd] in Em, Ed. subst ms'. rewrite Ed, E4.
      destruct (num_updater _ _ _ _ _ _ _ _ _ _ _ _ _ _ _) as [[[u s] vt]|e]; cbn [bind agree]; [|reflexivity].
      unfold alike. cbn [nm_book nm_f ps_maps ps_n_users ps_n_items ps_history]. repeat split; auto; apply E5.
  Qed.

  Definition both (a b : num_state (A := A) * list row) : Prop := alike (fst a) (fst b) /\ same_view (snd a) (snd b).

  Lemma step_agree cfg a b md : agree both a b -> agree both (loop_step cfg a md) (loop_step cfg b md).
  Proof.
    intros H. unfold num_loop_step. eapply agree_bind; [exact H|]. intros [x d1] [y d2] [L V]. cbn [fst snd] in L, V.
    rewrite <- (proj1 L). unfold divide_mask.
    set (ms := ps_maps (nm_book x)). rewrite !map_map, !select_filter.
    eapply agree_bind; [apply (by_mode_agree _ _ _ _ _ _ L)|].
    - exact (view_filter zero add of_rel (fun p =>
        let ou := negb (get_or_pad (old2new (m_users ms)) (fst p) =? -1) in
        let oi := negb (get_or_pad (old2new (m_items ms)) (snd p) =? -1) in
        match md with MNew => negb ou && negb oi | MNewUsers => negb ou && oi | MNewItems => ou && negb oi | MOld => ou && oi end) _ _ V).
    - intros x' y' L'. split; [exact L'|].
      exact (view_filter zero add of_rel (fun p =>
        let ou := negb (get_or_pad (old2new (m_users ms)) (fst p) =? -1) in
        let oi := negb (get_or_pad (old2new (m_items ms)) (snd p) =? -1) in
        negb match md with MNew => negb ou && negb oi | MNewUsers => negb ou && oi | MNewItems => ou && negb oi | MOld => ou && oi end) _ _ V).
  Qed.

  Lemma steps_agree cfg mds : forall a b, agree both a b ->
    agree both (fold_left (loop_step cfg) mds a) (fold_left (loop_step cfg) mds b).
  Proof. induction mds as [|md mds IH]; intros a b H; [exact H|]. cbn [fold_left]. apply IH, step_agree, H. Qed.

  Lemma history_agree x y d1 d2 : alike x y -> same_view d1 d2 ->
    agree alike (do b <- update_history (nm_book x) d1; let '(u, s, vt) := nm_f x in Ok (mkNum b (u, SMat (as_matrix zero s), vt)))
                (do b <- update_history (nm_book y) d2; let '(u, s, vt) := nm_f y in Ok (mkNum b (u, SMat (as_matrix zero s), vt))).
  Proof.
    intros (E1 & E2 & E3 & E4 & E5) V. pose proof (view_pairs zero add of_rel _ _ V) as S.
    unfold update_history. rewrite <- E1. rewrite !mapM_getitem.
    set (Du := old2new (m_users (ps_maps (nm_book x)))). set (Di := old2new (m_items (ps_maps (nm_book x)))).
    rewrite (forallb_users _ _ Du S).
    destruct (forallb (fun r => dmem (r_user r) Du) d2); cbn [bind]; [|reflexivity].
    rewrite (forallb_items _ _ Di S).
    destruct (forallb (fun r => dmem (r_item r) Di) d2); cbn [bind]; [|reflexivity].
    rewrite <- E4. destruct (nm_f x) as [[u s] vt]. cbn [agree]. unfold alike. cbn [nm_book nm_f ps_maps ps_n_users ps_n_items ps_history].
    repeat split; auto; rewrite !combine_maps, !in_app_iff, E5;
      (intros [H|H]; [left; exact H|right]);
      revert H; apply (map_set who (fun p => (get_or_pad Du (fst p), get_or_pad Di (snd p))) _ _ S).
  Qed.

  Lemma update_agree cfg x y d1 d2 : alike x y -> same_view d1 d2 -> agree alike (update cfg x d1) (update cfg y d2).
  Proof.
    intros L V. unfold num_update.
    assert (B : agree both (Ok (x, d1)) (Ok (y, d2))) by (split; assumption).
    assert (F : forall mds a b, agree both a b -> forall d d', same_view d d' ->
      agree alike (do '(z, _) <- fold_left (loop_step cfg) mds a; by_mode cfg z d MOld)
                  (do '(z, _) <- fold_left (loop_step cfg) mds b; by_mode cfg z d' MOld)).
    { intros mds a b H d d' W. eapply agree_bind; [apply steps_agree; exact H|]. intros [z ?] [z' ?] [Lz _].
      apply by_mode_agree; assumption. }
    apply (agree_bind alike).
    - destruct (cf_init cfg), (cf_integrator cfg); try reflexivity.
      + eapply agree_bind; [apply steps_agree; exact B|]. intros [z ?] [z' ?] [Lz _]. exact Lz.
      + apply F; assumption.
      + eapply agree_bind; [apply step_agree; exact B|]. intros [z d] [z' d'] [Lz W]. apply F; [split; assumption|exact W].
      + apply F; assumption.
      + eapply agree_bind; [apply step_agree; exact B|]. intros [z d] [z' d'] [Lz W]. apply F; [split; assumption|exact W].
    - intros x1 y1 L1. apply history_agree; assumption.
  Qed.

  Lemma stream_agree cfg c1 c2 : Forall2 same_view c1 c2 -> forall x y, alike x y -> agree alike (stream cfg x c1) (stream cfg y c2).
  Proof.
    unfold num_stream. intros F.
    assert (K : forall a b, agree alike a b -> agree alike (fold_left (fun acc c => do y <- acc; update cfg y c) c1 a)
                                                   (fold_left (fun acc c => do y <- acc; update cfg y c) c2 b)).
    { induction F as [|d1 d2 c1 c2 V _ IH]; intros a b H; [exact H|]. cbn [fold_left]. apply IH.
      eapply agree_bind; [exact H|]. intros x y L. apply update_agree; assumption. }
    intros x y L. apply K. exact L.
  Qed.

  (** *** Training *)
  Lemma reindexed d :
    let mu := get_cont_mapping_struct (unique (map r_user d)) 0 in
    let mi := get_cont_mapping_struct (unique (map r_item d)) 0 in
    get_df_with_updated_indices d =
    if forallb (fun r => dmem (r_user r) (old2new mu)) d && forallb (fun r => dmem (r_item r) (old2new mi)) d
    then Ok (map (fun r => set_item (set_user r (get_or_pad (old2new mu) (r_user r))) (get_or_pad (old2new mi) (r_item r))) d, mkMappings mu mi)
    else Err KeyError.
  Proof.
    intros mu mi. unfold get_df_with_updated_indices. rewrite (mapM_get (old2new mu) r_user set_user).
    destruct (forallb (fun r => dmem (r_user r) (old2new mu)) d); cbn [bind andb]; [|reflexivity].
    rewrite map_map. cbn [set_user r_item]. change (map (fun x : row => r_item x) d) with (map r_item d). fold mi.
    rewrite (mapM_get (old2new mi) r_item set_item), forallb_map', map_map. cbn [set_user r_item].
    change (forallb (fun x => dmem (r_item x) (old2new mi)) d) with (forallb (fun r => dmem (r_item r) (old2new mi)) d).
    destruct (forallb (fun r => dmem (r_item r) (old2new mi)) d); reflexivity.
  Qed.

  Lemma train_agree rank d1 d2 : same_totals d1 d2 -> agree alike (train rank d1) (train rank d2).
  Proof.
    intros (U & I & S & T). rewrite !id_firsts_unique in U, I. unfold num_train, svd_train.
    set (mu := get_cont_mapping_struct (unique (map r_user d2)) 0). set (mi := get_cont_mapping_struct (unique (map r_item d2)) 0).
    assert (Q : forall d, unique (map r_user d) = unique (map r_user d2) -> unique (map r_item d) = unique (map r_item d2) ->
      get_df_with_updated_indices d =
      if forallb (fun r => dmem (r_user r) (old2new mu)) d && forallb (fun r => dmem (r_item r) (old2new mi)) d
      then Ok (map (fun r => set_item (set_user r (get_or_pad (old2new mu) (r_user r))) (get_or_pad (old2new mi) (r_item r))) d, mkMappings mu mi)
      else Err KeyError).
    { intros d Eu Ei. rewrite reindexed, Eu, Ei. reflexivity. }
    rewrite (Q d1 U I), (Q d2 eq_refl eq_refl). clear Q.
    rewrite (forallb_users _ _ (old2new mu) S), (forallb_items _ _ (old2new mi) S).
    destruct (_ && _); cbn [bind]; [|reflexivity].
    set (f := fun p : Z * Z => get_or_pad (old2new mu) (fst p)). set (g := fun p : Z * Z => get_or_pad (old2new mi) (snd p)).
    change (fun r => set_item (set_user r (get_or_pad (old2new mu) (r_user r))) (get_or_pad (old2new mi) (r_item r)))
      with (fun r => set_item (set_user r (f (who r))) (g (who r))).
    assert (F : forall (X : Type) (a : X) b d, match map (fun r => set_item (set_user r (f (who r))) (g (who r))) d with [] => a | _ => b end =
      match d with [] => a | _ => b end) by (intros X a b []; reflexivity).
    rewrite !F, !map_map. cbn [set_item set_user r_user r_item r_rel].
    pose proof (fold_max_set _ _ (-1) (map_set who f _ _ S)) as Mu. pose proof (fold_max_set _ _ (-1) (map_set who g _ _ S)) as Mi.
    rewrite Mu, Mi. clear F.
    destruct d1 as [|r1 e1] eqn:D1, d2 as [|r2 e2] eqn:D2.
    - reflexivity.
    - exfalso. apply (proj2 (S (who r2))). left. reflexivity.
    - exfalso. apply (proj1 (S (who r1))). left. reflexivity.
    - rewrite <- D1, <- D2 in *. destruct (_ && _); cbn [bind]; [|reflexivity]. cbn [ps_n_users ps_n_items].
      pose proof (same_array (fold_left Z.max (map (fun x => f (who x)) d2) (-1) + 1) (fold_left Z.max (map (fun x => g (who x)) d2) (-1) + 1) f g _ _ S T) as Ea.
      unfold entries in Ea. rewrite Ea.
      destruct (svds _ _) as [[[u s] vt]|e]; cbn [bind agree]; [|reflexivity].
      unfold alike. cbn [nm_book nm_f ps_maps ps_n_users ps_n_items ps_history]. repeat split; try reflexivity;
        apply (map_set who (fun p => (f p, g p)) _ _ S).
  Qed.

  (** *** Recommending *)
  Lemma recommend_alike argpart x y users k fv internal : alike x y ->
    Recommend_model.recommend argpart (num_rec zero add mul x) users k fv internal =
    Recommend_model.recommend argpart (num_rec zero add mul y) users k fv internal.
  Proof.
    intros (E1 & E2 & E3 & E4 & E5). unfold num_rec, num_scores. rewrite <- E1, <- E4. destruct (nm_f x) as [[u s] vt].
    set (hx := ps_history (nm_book x)) in *. set (hy := ps_history (nm_book y)) in *.
    unfold Recommend_model.recommend. cbn [rs_mappings rs_n_items rs_n_users rs_history].
    destruct (mapM _ users) as [mapped|e]; cbn [bind]; [|reflexivity].
    assert (Hf : forall a b, history_fits hx a b = history_fits hy a b).
    { intros a b. unfold history_fits. rewrite <- (map_id hx), <- (map_id hy), !forallb_map'.
      apply (forallb_set (fun p => p) (fun p : Z * Z => (0 <=? fst p) && (fst p <? Z.of_nat a) && (0 <=? snd p) && (snd p <? Z.of_nat b))).
      intros p. rewrite !map_id. apply E5. }
    rewrite Hf. destruct (fv && _); [reflexivity|].
    assert (Hv : forall n i, viewed_mask hx n i = viewed_mask hy n i).
    { intros n i. unfold viewed_mask. apply map_ext. intros j. apply eq_true_iff_eq. rewrite !existsb_exists.
      split; intros (p & Hp & Hq); exists p; (split; [apply E5; exact Hp|exact Hq]). }
    match goal with |- recommend_loop _ ?X _ _ ?n _ _ = recommend_loop _ ?Y _ _ _ _ _ =>
      enough (L : forall l i, recommend_loop argpart X fv internal n i l = recommend_loop argpart Y fv internal n i l) by apply L end.
    intros l. induction l as [|m l IH]; intros i; [reflexivity|]. cbn [recommend_loop]. rewrite IH.
    unfold recommend_user. cbn [rs_scores rs_history rs_n_items rs_n_users rs_mappings]. rewrite Hv. reflexivity.
  Qed.

  (** *** The whole life of an object *)
  Theorem life_agree rank cfg d1 d2 c1 c2 : same_view d1 d2 -> Forall2 same_view c1 c2 ->
    agree alike (do x <- train rank d1; stream cfg x c1) (do x <- train rank d2; stream cfg x c2).
  Proof.
    intros V F. eapply agree_bind; [apply train_agree, view_totals; exact V|]. intros x y L. apply stream_agree; assumption.
  Qed.

  Theorem life_recommends rank cfg argpart d1 d2 c1 c2 users k fv internal : same_view d1 d2 -> Forall2 same_view c1 c2 ->
    (do x <- train rank d1; do y <- stream cfg x c1; Recommend_model.recommend argpart (num_rec zero add mul y) users k fv internal) =
    (do x <- train rank d2; do y <- stream cfg x c2; Recommend_model.recommend argpart (num_rec zero add mul y) users k fv internal).
  Proof.
    intros V F. pose proof (life_agree rank cfg _ _ _ _ V F) as L.
    destruct (train rank d1) as [x|e], (train rank d2) as [y|e']; cbn [bind] in *.
    - destruct (stream cfg x c1) as [x'|e], (stream cfg y c2) as [y'|e']; cbn [bind agree] in *; try contradiction.
      + apply recommend_alike. exact L.
      + subst. reflexivity.
    - destruct (stream cfg x c1); cbn [agree bind] in *; [contradiction|]. subst. reflexivity.
    - destruct (stream cfg y c2); cbn [agree bind] in *; [contradiction|]. subst. reflexivity.
    - cbn [agree] in L. subst. reflexivity.
  Qed.
End Same.

(** ** Tables with the same view *)
Section Tables.
  Context {A : Type} (zero : A) (add : A -> A -> A) (of_rel : Z -> A).
  Hypothesis M : adds_up zero add.
  Hypothesis of0 : of_rel 0 = zero.
  Hypothesis ofD : forall a b, of_rel (a + b) = add (of_rel a) (of_rel b).

  Lemma filter_NoDup_one (L : list (Z * Z)) p : NoDup L -> In p L -> filter (fun q => same_pair q p) L = [p].
  Proof.
    induction 1 as [|q L N _ IH]; intros I; [destruct I|]. cbn [filter]. destruct (same_pair q p) eqn:E.
    - apply same_pair_iff in E. subst q. f_equal. clear IH I.
      induction L as [|q L IH]; [reflexivity|]. cbn [filter]. destruct (same_pair q p) eqn:E.
      + apply same_pair_iff in E. subst. exfalso. apply N. left. reflexivity.
      + apply IH. intros H. apply N. right. exact H.
    - apply IH. destruct I as [->|I]; [rewrite same_pair_refl in E; discriminate|exact I].
  Qed.

  Lemma filter_none {X} (f : X -> bool) l : (forall x, In x l -> f x = false) -> filter f l = [].
  Proof.
    induction l as [|x l IH]; intros H; [reflexivity|]. cbn [filter]. rewrite (H x (or_introl eq_refl)). apply IH.
    intros y Hy. apply H. right. exact Hy.
  Qed.

  Lemma of_sum l : of_rel (fold_right Z.add 0 l) = fold_right add zero (map of_rel l).
  Proof. induction l as [|a l IH]; [exact of0|]. cbn [fold_right map]. rewrite ofD, IH. reflexivity. Qed.

  Lemma firsts_id l : NoDup l -> firsts l = l.
  Proof.
    induction 1 as [|x l N _ IH]; [reflexivity|]. cbn [firsts]. rewrite IH. f_equal.
    clear IH. induction l as [|y l IH]; [reflexivity|]. cbn [filter]. destruct (same_pair y x) eqn:E; cbn [negb].
    - apply same_pair_iff in E. subst. exfalso. apply N. left. reflexivity.
    - f_equal. apply IH. intros H. apply N. right. exact H.
  Qed.

  Theorem summed_view d : same_view zero add of_rel (summed d) d.
  Proof.
    assert (W : map who (summed d) = firsts (map who d)).
    { unfold summed. rewrite map_map. unfold who at 1. cbn [r_user r_item]. rewrite <- (map_id (firsts (map who d))) at 2.
      apply map_ext. intros []. reflexivity. }
    split; [rewrite W; apply firsts_id, firsts_NoDup|].
    intros p. unfold total.
    assert (F : filter (fun r => same_pair (who r) p) (summed d) =
      map (fun q => mkRow (fst q) (snd q) 0 (fold_right Z.add 0 (map r_rel (filter (fun r => same_pair (who r) q) d))))
        (filter (fun q => same_pair q p) (firsts (map who d)))).
    { unfold summed. rewrite filter_map_eq. apply f_equal. apply filter_ext. intros []. reflexivity. }
    rewrite F. clear F.
    assert (D : forall a b : Z * Z, {a = b} + {a <> b}) by (decide equality; apply Z.eq_dec).
    destruct (in_dec D p (firsts (map who d))) as [I|N].
    - rewrite (filter_NoDup_one _ _ (firsts_NoDup _) I). cbn [map fold_right r_rel fst snd].
      rewrite of_sum, map_map, (proj1 (proj2 M)), (proj2 (proj2 M)). reflexivity.
    - rewrite !filter_none; [reflexivity| |].
      + intros r Hr. destruct (same_pair (who r) p) eqn:E; [|reflexivity]. apply same_pair_iff in E. exfalso. apply N.
        apply firsts_In. rewrite <- E. apply in_map. exact Hr.
      + intros q Hq. destruct (same_pair q p) eqn:E; [|reflexivity]. apply same_pair_iff in E. subst. contradiction.
  Qed.
End Tables.

Section Moves.
  Context {A : Type} (zero : A) (add : A -> A -> A) (of_rel : Z -> A).
  Hypothesis M : adds_up zero add.

  Lemma firsts_app l l' : firsts (l ++ l') = firsts l ++ filter (fun p => negb (existsb (same_pair p) l)) (firsts l').
  Proof.
    induction l as [|x l IH]; cbn [app firsts].
    - cbn [existsb negb]. induction (firsts l') as [|a r IH']; [reflexivity|]. cbn [filter]. rewrite <- IH'. reflexivity.
    - rewrite IH, filter_app. cbn [app]. f_equal. f_equal. cbn [existsb]. clear IH.
      induction (firsts l') as [|a r IH']; [reflexivity|]. cbn [filter]. rewrite negb_orb.
      destruct (existsb (same_pair a) l); cbn [negb andb]; destruct (same_pair a x) eqn:E; cbn [negb andb filter]; rewrite ?E; cbn [negb]; rewrite IH'; reflexivity.
  Qed.

  Lemma firsts_dup l l' p : In p l -> firsts (l ++ p :: l') = firsts (l ++ l').
  Proof.
    intros I. rewrite !firsts_app. f_equal. cbn [firsts filter].
    assert (E : existsb (same_pair p) l = true) by (apply existsb_exists; exists p; split; [exact I|apply same_pair_refl]).
    rewrite E. cbn [negb]. apply filter_sub. intros a H. apply negb_true_iff in H. apply negb_true_iff.
    destruct (same_pair a p) eqn:K; [|reflexivity]. apply same_pair_iff in K. subst. congruence.
  Qed.

  Theorem moved_view d d' d'' s : In (who s) (map who d) -> same_view zero add of_rel (d ++ s :: d' ++ d'') (d ++ d' ++ s :: d'').
  Proof.
    intros I. split.
    - rewrite !map_app. cbn [map]. rewrite !map_app. cbn [map]. rewrite (firsts_dup _ _ _ I), (app_assoc (map who d) (map who d') (who s :: map who d'')), firsts_dup.
      + rewrite app_assoc. reflexivity.
      + apply in_or_app. left. exact I.
    - intros p. unfold total. rewrite !filter_app. cbn [filter]. rewrite !filter_app. cbn [filter].
      destruct (same_pair (who s) p); [|reflexivity]. rewrite !map_app. cbn [map]. rewrite !map_app. cbn [map].
      rewrite !(sum_app zero add M). cbn [fold_right]. rewrite !(sum_app zero add M). cbn [fold_right].
      destruct M as (aA & aC & _). f_equal. rewrite !aA. f_equal. apply aC.
  Qed.
End Moves.
