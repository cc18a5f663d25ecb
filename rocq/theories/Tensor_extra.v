(** Further assembly for C29 and C32-C34: summed tensors, chains of mode products, and
    the dropped tail of the chunked contraction. *)
From Coq Require Import ZArith List Bool Lia Permutation Ring ArithRing.
From Verif Require Import Prelude Prelude_proofs Tensor_model Tensor_spec Tensor_proofs Tensor_sums Tensor_main
  Tensor_core Tensor_dot Tensor_project.
Import ListNotations.
Open Scope nat_scope.

Lemma cell_unique shape mode n a b c c' : modes mode n a b ->
    in_range shape c -> in_range shape c' ->
    pick c n = pick c' n -> pick c a + pick shape a * pick c b = pick c' a + pick shape a * pick c' b -> c = c'.
  Proof.
    intros M H H' E1 E2. destruct c as [[x y] z], c' as [[x' y'] z']. unfold in_range in *. cbn [c0 c1 c2 fst snd] in *.
    destruct M; cbn [pick c0 c1 c2 fst snd] in *; subst;
      apply col_inj in E2; try tauto; destruct E2; subst; reflexivity.
  Qed.

Section UnfoldSum.
  Context {A : Type} (zero : A) (add : A -> A -> A).

  Lemma unfold_sum_main (inds : list coord) (vals : list A) shape mode m t d :
    Forall (in_range shape) inds -> twf t -> tshape t = shape ->
    (forall c, in_range shape c -> tget zero t c = sum zero add (values_at c (combine inds vals))) ->
    unfold_sparse inds vals shape mode = Ok m ->
    unfold_dense zero t mode = Ok d ->
    coo_r m = mr d /\ coo_c m = mc d
    /\ forall i j, i < mr d -> j < mc d -> coo_cell zero add m i j = mget zero d i j.
  Proof.
    intros F W S P HS HD.
    destruct (modes_cases mode) as [[n [a [b M]]]|B].
    2:{ rewrite (proj1 (dense_bad_mode zero _ B)) in HD. discriminate. }
    assert (L : length inds = length vals).
    { destruct (Nat.eq_dec (length inds) (length vals)); auto.
      rewrite unfold_sparse_bad in HS by auto. discriminate. }
    destruct (unfold_dense_main zero t mode n a b W M) as [d' [E [WD [R [C Q]]]]].
    rewrite HD in E. injection E as <-.
    destruct (unfold_sparse_main inds vals shape mode n a b M L) as [_ [_ U]].
    destruct (U m HS) as [UR [UC _]].
    split; [rewrite UR, R, S; reflexivity|]. split; [rewrite UC, C, S; reflexivity|].
    rewrite R, C, S. intros i j Hi Hj.
    destruct (cell_of shape mode n a b i j M Hi Hj) as [c [Hc [<- <-]]].
    unfold coo_cell. rewrite (coo_values inds vals shape mode n a b m c M F Hc HS).
    specialize (Q c). rewrite S in Q. rewrite (Q Hc), (P c Hc). reflexivity.
  Qed.
End UnfoldSum.

Section Products.
  Context {A : Type} (zero one : A) (add mul sub : A -> A -> A) (opp : A -> A)
          (RT : ring_theory zero one add mul sub opp (@eq A)).
  Add Ring ARE : RT.
  Notation sum := (sum zero add).
  Notation sumn := (sumn zero add).

  (** Value at a cell in terms of the summed tensor. *)
  Lemma tensordot_sum_main inds (vals : list A) shape (u : mat A) mode n a b r :
    modes mode n a b ->
    tensordot zero add mul inds vals shape u mode = Ok r ->
    twf r /\ pick (tshape r) n = mr u /\ pick (tshape r) a = pick shape a /\ pick (tshape r) b = pick shape b
    /\ forall c, in_range (tshape r) c ->
         tget zero r c
         = sumn (mc u) (fun x => mul (mget zero u (pick c n) x)
                                     (sum (values_at (with_mode c n x) (combine inds vals)))).
  Proof.
    intros M H. destruct (tensordot_main zero add mul inds vals shape u mode n a b M) as [HB HG].
    assert (INS : mr u = 0 \/ (length vals <= length inds /\
                    Forall (fun c => pick c n < mc u /\ pick c a < pick shape a /\ pick c b < pick shape b)
                           (firstn (length vals) inds))).
    { destruct (Nat.eq_dec (mr u) 0) as [E|NE]; [left; exact E|].
      destruct (le_lt_dec (length vals) (length inds)) as [L|L].
      2:{ rewrite HB in H; [discriminate|]. intros [X|[X _]]; lia. }
      destruct (Forall_dec (fun c => pick c n < mc u /\ pick c a < pick shape a /\ pick c b < pick shape b)
                  (fun c => match lt_dec (pick c n) (mc u), lt_dec (pick c a) (pick shape a), lt_dec (pick c b) (pick shape b) with
                            | left h1, left h2, left h3 => left (conj h1 (conj h2 h3))
                            | right h, _, _ => right (fun X => h (proj1 X))
                            | _, right h, _ => right (fun X => h (proj1 (proj2 X)))
                            | _, _, right h => right (fun X => h (proj2 (proj2 X))) end)
                  (firstn (length vals) inds)) as [F|F].
      - right. split; auto.
      - rewrite HB in H; [discriminate|]. intros [X|[_ X]]; [lia|auto]. }
    destruct (HG INS) as [r' [E [W [S1 [S2 [S3 P]]]]]]. rewrite H in E. injection E as <-.
    split; [exact W|]. split; [exact S1|]. split; [exact S2|]. split; [exact S3|]. intros c Hc.
    rewrite (P c Hc), (fold_left_sum zero one add mul sub opp RT).
    destruct INS as [Z0|[L F]].
    { exfalso. unfold in_range in Hc. destruct M; cbn [pick] in S1; lia. }
    match goal with |- add zero ?x = ?y => transitivity x; [ring|] end.
    unfold values_at.
    rewrite (sum_map_filter zero one add mul sub opp RT).
    transitivity (sumn (mc u) (fun x => sum (map (fun e => if coord_eqb (fst e) (with_mode c n x)
                                                  then mul (mget zero u (pick c n) x) (snd e) else zero) (combine inds vals)))).
    2:{ apply sumn_ext. intros x _. rewrite (sum_map_filter zero one add mul sub opp RT).
        rewrite <- (sum_scale_l zero one add mul sub opp RT). apply sum_ext. intros e _.
        destruct (coord_eqb (fst e) (with_mode c n x)); ring. }
    unfold Tensor_spec.sumn. rewrite (sum_swap zero one add mul sub opp RT).
    apply sum_ext. intros e He.
    assert (Fe : pick (fst e) n < mc u).
    { rewrite <- (combine_fst_firstn inds vals) in F by auto. rewrite Forall_map, Forall_forall in F. apply (F e He). }
    transitivity (sumn (mc u) (fun x => if pick (fst e) n =? x
        then (if (pick (fst e) a =? pick c a) && (pick (fst e) b =? pick c b)
              then mul (snd e) (mget zero u (pick c n) x) else zero) else zero)).
    { rewrite (sumn_pick zero one add mul sub opp RT) by exact Fe. reflexivity. }
    apply sum_ext. intros x _.
    assert (EC : coord_eqb (fst e) (with_mode c n x)
                 = (pick (fst e) n =? x) && ((pick (fst e) a =? pick c a) && (pick (fst e) b =? pick c b))).
    { destruct (fst e) as [[e0 e1] e2], c as [[x0 x1] x2]. unfold coord_eqb.
      destruct M; cbn [pick with_mode c0 c1 c2 fst snd];
        repeat match goal with |- context [?p =? ?q] => destruct (p =? q) end; reflexivity. }
    rewrite EC. destruct (pick (fst e) n =? x); cbn [andb]; [|reflexivity].
    destruct (_ && _); [ring|reflexivity].
  Qed.

  (** A dense tensor passed on in sparse form. *)
  Lemma dense_values_at (t : ten A) inds vals c : dense_to_sparse_tensor zero t = (inds, vals) ->
    in_range (tshape t) c -> sum (values_at c (combine inds vals)) = tget zero t c.
  Proof.
    intros H Hc. rewrite dense_to_sparse_cells in H. injection H as <- <-.
    rewrite combine_map_self, values_at_cells by auto. rewrite sum_cons, sum_nil. ring.
  Qed.

  Lemma core_products_main inds (vals : list A) shape (u1 u2 u3 v1 v2 v3 : mat A) core r1 r2 r3 i1 w1 i2 w2 :
    is_transpose zero v1 u1 ->
    is_transpose zero v2 u2 ->
    is_transpose zero v3 u3 ->
    shape = (mr u1, mr u2, mr u3) ->
    construct_core zero add mul inds vals u1 u2 u3 = Ok core ->
    tensordot zero add mul inds vals shape v1 0 = Ok r1 ->
    dense_to_sparse_tensor zero r1 = (i1, w1) ->
    tensordot zero add mul i1 w1 (tshape r1) v2 1 = Ok r2 ->
    dense_to_sparse_tensor zero r2 = (i2, w2) ->
    tensordot zero add mul i2 w2 (tshape r2) v3 2 = Ok r3 ->
    r3 = core.
  Proof.
    intros [R1 [C1 T1]] [R2 [C2 T2]] [R3 [C3 T3]] -> HC D1 S1 D2 S2 D3.
    destruct (tensordot_sum_main _ _ _ _ _ _ _ _ _ mode_0 D1) as [W1 [A1 [A2 [A3 P1]]]].
    destruct (tensordot_sum_main _ _ _ _ _ _ _ _ _ mode_1 D2) as [W2 [B1 [B2 [B3 P2]]]].
    destruct (tensordot_sum_main _ _ _ _ _ _ _ _ _ mode_2 D3) as [W3 [G1 [G2 [G3 P3]]]].
    destruct (core_bit_exact_main zero add mul inds vals u1 u2 u3 core HC) as [WC [SC _]].
    cbn [pick] in *.
    assert (Sh3 : tshape r3 = (mc u1, mc u2, mc u3)).
    { rewrite (surjective_pairing (tshape r3)), (surjective_pairing (fst (tshape r3))).
      change (fst (fst (tshape r3))) with (c0 (tshape r3)). change (snd (fst (tshape r3))) with (c1 (tshape r3)).
      change (snd (tshape r3)) with (c2 (tshape r3)). rewrite G1, G2, G3, B1, B2, A1. congruence. }
    apply (ten_ext zero); [exact W3|exact WC|congruence|]. intros [[i j] k] Hc.
    rewrite P3 by exact Hc. rewrite Sh3 in Hc. unfold in_range in Hc. cbn [c0 c1 c2 fst snd] in Hc.
    rewrite (core_contraction_main zero one add mul sub opp RT inds vals u1 u2 u3 core i j k HC) by tauto.
    cbn [c0 c1 c2 fst snd] in A2, A3.
    assert (E3 : forall z, z < mr u3 -> sum (values_at (i, j, z) (combine i2 w2))
       = sumn (mr u2) (fun y => mul (mget zero u2 y j) (sumn (mr u1) (fun x => mul (mget zero u1 x i)
             (sum (values_at (x, y, z) (combine inds vals))))))).
    { intros z Hz. rewrite (dense_values_at r2 _ _ _ S2).
      2:{ unfold in_range. cbn [c0 c1 c2 fst snd]. rewrite B1, B2, B3, A1, A3, R1, R2. tauto. }
      rewrite P2.
      2:{ unfold in_range. cbn [c0 c1 c2 fst snd]. rewrite B1, B2, B3, A1, A3, R1, R2. tauto. }
      rewrite C2. apply sumn_ext. intros y Hy. cbn [pick with_mode c0 c1 c2 fst snd]. rewrite T2 by (rewrite ?R2, ?C2; tauto). f_equal.
      rewrite (dense_values_at r1 _ _ _ S1).
      2:{ unfold in_range. cbn [c0 c1 c2 fst snd]. rewrite A1, A2, A3, R1. tauto. }
      rewrite P1.
      2:{ unfold in_range. cbn [c0 c1 c2 fst snd]. rewrite A1, A2, A3, R1. tauto. }
      rewrite C1. apply sumn_ext. intros x Hx. cbn [pick with_mode c0 c1 c2 fst snd]. rewrite T1 by (rewrite ?R1, ?C1; tauto). reflexivity. }
    rewrite C3. cbn [pick with_mode c0 c1 c2 fst snd].
    transitivity (sumn (mr u3) (fun z => sumn (mr u2) (fun y => sumn (mr u1) (fun x =>
      mul (mul (mul (sum (values_at (x, y, z) (combine inds vals))) (mget zero u1 x i)) (mget zero u2 y j)) (mget zero u3 z k))))).
    { apply sumn_ext. intros z Hz. rewrite E3 by auto. rewrite T3 by (rewrite ?R3, ?C3; tauto).
      rewrite <- (sumn_scale_l zero one add mul sub opp RT). apply sumn_ext. intros y _.
      transitivity (mul (mul (mget zero u3 z k) (mget zero u2 y j)) (sumn (mr u1) (fun x => mul (mget zero u1 x i)
             (sum (values_at (x, y, z) (combine inds vals)))))); [ring|].
      rewrite <- (sumn_scale_l zero one add mul sub opp RT). apply sumn_ext. intros x _. ring. }
    unfold Tensor_spec.sumn.
    rewrite (sum_swap zero one add mul sub opp RT).
    transitivity (sumn (mr u2) (fun y => sumn (mr u1) (fun x => sumn (mr u3) (fun z =>
      mul (mul (mul (sum (values_at (x, y, z) (combine inds vals))) (mget zero u1 x i)) (mget zero u2 y j)) (mget zero u3 z k))))).
    { apply sumn_ext. intros y _. unfold Tensor_spec.sumn. apply (sum_swap zero one add mul sub opp RT). }
    unfold Tensor_spec.sumn. apply (sum_swap zero one add mul sub opp RT).
  Qed.

  (** Chunked and cached contraction. *)
  Lemma processed_all_iff cap n : 0 < cap -> (processed cap n = n <-> n <= cap \/ exists k, n = cap * k).
  Proof.
    intros HC. unfold processed. destruct (n <=? cap) eqn:E.
    - apply Nat.leb_le in E. tauto.
    - apply Nat.leb_gt in E. pose proof (Nat.div_mod n cap ltac:(lia)) as D. split.
      + intros H. right. exists (n / cap). lia.
      + intros [H|[k ->]]; [lia|]. rewrite (Nat.mul_comm cap k), Nat.div_mul by lia. lia.
  Qed.

  Lemma chunked_eq_cached_main cap is_one inds (vals : list A) shape q mode u1 u2 m m' :
    0 < cap -> (forall v, is_one v = true -> v = one) -> length vals = length inds ->
    sparse_tensor_double_tensor_cap zero add mul cap is_one inds vals shape q mode u1 u2 = Ok m ->
    let p := processed cap (length inds) in
    sparse_tensor_double_tensor_old zero add mul (firstn p inds) (firstn p vals) shape q mode u1 u2 = Ok m' ->
    m = m'.
  Proof.
    intros HC ONE L H p H'. destruct (modes_cases mode) as [[n [a [b M]]]|B].
    2:{ unfold sparse_tensor_double_tensor_cap in H. rewrite (other_modes_bad _ B) in H. discriminate. }
    destruct (double_tensor_main zero one add mul sub opp RT cap is_one inds vals shape q mode n a b u1 u2 M HC ONE) as [K0 K1].
    assert (NE : inds <> []).
    { intros E. rewrite K0 in H by exact E. discriminate. }
    destruct (K1 NE) as [_ K2]. destruct (K2 m H) as [W [R [C P]]].
    destruct (double_tensor_old_main zero one add mul sub opp RT _ _ _ _ _ _ _ _ _ _ _ M H') as [W' [R' [C' [_ [_ P']]]]].
    apply (mat_ext zero); auto; try congruence. intros i j Hi Hj. rewrite R in Hi. rewrite C in Hj.
    rewrite P, P' by auto. fold p. rewrite combine_firstn. reflexivity.
  Qed.
End Products.

(** 10001 equal entries: the last one is lost. *)
Definition many : nat := Z.to_nat 10001.
Definition one11 : mat Z := mkMat 1 1 [1%Z].

Lemma tail_dropped_main :
  let inds := repeat (0, 0, 0) many in
  let vals := repeat 1%Z many in
  sparse_tensor_double_tensor 0%Z Z.add Z.mul (Z.eqb 1) inds vals (1, 1, 1) one11 0 one11 one11
  = Ok (mkMat 1 1 [10000%Z])
  /\ sparse_tensor_double_tensor_old 0%Z Z.add Z.mul inds vals (1, 1, 1) one11 0 one11 one11
     = Ok (mkMat 1 1 [10001%Z]).
Proof. split; vm_compute; reflexivity. Qed.
