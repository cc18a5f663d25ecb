(** Assembly for C33-C35: mode products, projected unfoldings, reconstruction. *)
From Coq Require Import ZArith List Bool Lia Permutation Ring ArithRing.
From Verif Require Import Prelude Prelude_proofs Tensor_model Tensor_spec Tensor_proofs Tensor_sums Tensor_main
  Tensor_core.
Import ListNotations.
Open Scope nat_scope.

Section Dot.
  Context {A : Type} (zero : A) (add mul : A -> A -> A).
  Notation tget := (tget zero).

  Lemma flat_map_if {X Y} (p : X -> bool) (f : X -> Y) l :
    flat_map (fun x => if p x then [f x] else []) l = map f (filter p l).
  Proof. induction l as [|x l IH]; [reflexivity|]. cbn [flat_map filter]. destruct (p x); cbn; congruence. Qed.

  Lemma zip_cases inds (vals : list A) :
    (length vals <= length inds -> zip_entries inds vals = Some (combine inds vals))
    /\ (length inds < length vals -> zip_entries inds vals = None).
  Proof.
    unfold zip_entries. split; intros H.
    - replace (length vals <=? length inds) with true by (symmetry; apply Nat.leb_le; lia). reflexivity.
    - replace (length vals <=? length inds) with false by (symmetry; apply Nat.leb_gt; lia). reflexivity.
  Qed.

  Lemma combine_fst_firstn {X Y} (inds : list X) (vals : list Y) : length vals <= length inds ->
    map fst (combine inds vals) = firstn (length vals) inds.
  Proof.
    revert vals. induction inds as [|c inds IH]; intros [|v vals] L; cbn in *; try lia; auto.
    f_equal. apply IH. lia.
  Qed.

  Lemma forallb_combine {X} (p : X -> bool) (P : X -> Prop) (inds : list X) (vals : list A) :
    (forall x, p x = true <-> P x) -> length vals <= length inds ->
    (forallb (fun e => p (fst e)) (combine inds vals) = true <-> Forall P (firstn (length vals) inds)).
  Proof.
    intros HP L. rewrite <- (combine_fst_firstn inds vals L), forallb_forall, Forall_map, Forall_forall.
    split; intros H x Hx; apply HP; auto.
  Qed.


  Lemma valid2_iff m : ((m =? 0) || (m =? 1) || (m =? 2))%Z = true <-> valid2 m.
  Proof. unfold valid2. rewrite !orb_true_iff, !Z.eqb_eq. tauto. Qed.

  Lemma tensordot2_main inds (vals : list A) shape (u v : mat A) mode1 mode2 :
    let m0 := Z.to_nat (3 - (mode1 + mode2)) in
    let m1 := Z.to_nat mode1 in
    let m2 := Z.to_nat mode2 in
    let fits := fun c => pick c m0 < pick shape m0 /\ pick c m1 < mr u /\ pick c m2 < mr v in
    let good := valid2 mode1 /\ valid2 mode2 /\ mode1 <> mode2 in
    let inside := length vals <= length inds /\ Forall fits (firstn (length vals) inds) in
    (~ good -> tensordot2 zero add mul inds vals shape u v mode1 mode2 = Err RuntimeError)
    /\ (good -> ~ inside -> tensordot2 zero add mul inds vals shape u v mode1 mode2 = Err OutOfBounds)
    /\ (good -> inside ->
        exists r, tensordot2 zero add mul inds vals shape u v mode1 mode2 = Ok r /\ twf r
          /\ tshape r = (pick shape m0, mc u, mc v)
          /\ forall x j k, x < pick shape m0 -> j < mc u -> k < mc v ->
               tget r (x, j, k)
               = fold_left add (map (fun e => mul (mul (snd e) (mget zero u (pick (fst e) m1) j))
                                                  (mget zero v (pick (fst e) m2) k))
                                    (filter (fun e => pick (fst e) m0 =? x) (combine inds vals))) zero).
  Proof.
    intros m0 m1 m2 fits good inside. unfold tensordot2. fold m0 m1 m2.
    split; [|split].
    - intros NG. destruct ((mode1 =? 0) || (mode1 =? 1) || (mode1 =? 2))%Z eqn:E1; cbn [negb]; [|reflexivity].
      destruct ((mode2 =? 0) || (mode2 =? 1) || (mode2 =? 2))%Z eqn:E2; cbn [negb]; [|reflexivity].
      apply valid2_iff in E1, E2. destruct (mode1 =? mode2)%Z eqn:E3; [reflexivity|].
      apply Z.eqb_neq in E3. exfalso. apply NG. repeat split; auto.
    - intros [G1 [G2 G3]] NI. rewrite (proj2 (valid2_iff mode1) G1), (proj2 (valid2_iff mode2) G2).
      cbn [negb]. replace (mode1 =? mode2)%Z with false by (symmetry; apply Z.eqb_neq; auto).
      destruct (le_lt_dec (length vals) (length inds)) as [L|L].
      + rewrite (proj1 (zip_cases inds vals) L).
        destruct (forallb _ (combine inds vals)) eqn:E; [|reflexivity].
        exfalso. apply NI. split; auto.
        apply (forallb_combine (fun c => (pick c m0 <? pick shape m0) && (pick c m1 <? mr u) && (pick c m2 <? mr v)) fits inds vals); auto.
        intros c. unfold fits. rewrite !andb_true_iff, !Nat.ltb_lt. tauto.
      + rewrite (proj2 (zip_cases inds vals) L). reflexivity.
    - intros [G1 [G2 G3]] [L F]. rewrite (proj2 (valid2_iff mode1) G1), (proj2 (valid2_iff mode2) G2).
      cbn [negb]. replace (mode1 =? mode2)%Z with false by (symmetry; apply Z.eqb_neq; auto).
      rewrite (proj1 (zip_cases inds vals) L).
      assert (HF : forall c, (pick c m0 <? pick shape m0) && (pick c m1 <? mr u) && (pick c m2 <? mr v) = true <-> fits c).
      { intros c. unfold fits. rewrite !andb_true_iff, !Nat.ltb_lt. tauto. }
      rewrite (proj2 (forallb_combine _ fits inds vals HF L) F).
      set (es := combine inds vals) in *.
      set (ws := flat_map (fun e => flat_map (fun j => map (fun k => ((pick (fst e) m0, j, k),
                   mul (mul (snd e) (mget zero u (pick (fst e) m1) j)) (mget zero v (pick (fst e) m2) k)))
                   (seq 0 (mc v))) (seq 0 (mc u))) es).
      assert (EQ : double_tensordot zero add mul es u v m0 m1 m2 (zeros3 zero (pick shape m0, mc u, mc v))
                   = accum zero add ws (zeros3 zero (pick shape m0, mc u, mc v))).
      { unfold double_tensordot, accum, ws. apply foreach_actions. intros e s. apply for_actions. intros j s'.
        rewrite <- flat_map_singleton. apply for_actions. reflexivity. }
      rewrite EQ. eexists. split; [reflexivity|]. split; [apply accum_wf, zeros3_wf|].
      rewrite accum_shape. split; [reflexivity|]. intros x j k Hx Hj Hk.
      assert (FE : Forall (fun e => fits (fst e)) es).
      { unfold es. rewrite <- (combine_fst_firstn inds vals L), Forall_map in F. exact F. }
      rewrite tget_accum; [|apply zeros3_wf|repeat split; auto|].
      + rewrite tget_zeros3. f_equal. unfold ws. rewrite values_at_flat_map, <- flat_map_if.
        apply flat_map_ext_in. intros e _.
        rewrite (values_at_block (fun j k => mul (mul (snd e) (mget zero u (pick (fst e) m1) j)) (mget zero v (pick (fst e) m2) k))); auto.
      + apply Forall_forall. intros w Hw. unfold ws in Hw. apply in_flat_map in Hw as [e [He Hw]].
        apply in_flat_map in Hw as [j' [Hj' Hw]]. apply in_map_iff in Hw as [k' [<- Hk']].
        rewrite Forall_forall in FE. destruct (FE e He) as [Q _]. apply in_seq in Hj', Hk'.
        unfold in_range. cbn [fst snd c0 c1 c2 zeros3 tshape]. lia.
  Qed.

  Lemma with_mode_eqb mode n a b c d : modes mode n a b ->
    coord_eqb (with_mode c n (pick d n)) d = (pick c a =? pick d a) && (pick c b =? pick d b).
  Proof.
    intros []; unfold coord_eqb; cbn [with_mode pick c0 c1 c2 fst snd]; rewrite Nat.eqb_refl, ?andb_true_r; reflexivity.
  Qed.

  Lemma tensordot_main inds (vals : list A) shape (u : mat A) mode n a b :
    modes mode n a b ->
    let fits := fun c => pick c n < mc u /\ pick c a < pick shape a /\ pick c b < pick shape b in
    let inside := mr u = 0 \/ (length vals <= length inds /\ Forall fits (firstn (length vals) inds)) in
    (~ inside -> tensordot zero add mul inds vals shape u mode = Err OutOfBounds)
    /\ (inside ->
        exists r, tensordot zero add mul inds vals shape u mode = Ok r /\ twf r
          /\ pick (tshape r) n = mr u /\ pick (tshape r) a = pick shape a /\ pick (tshape r) b = pick shape b
          /\ forall c, in_range (tshape r) c ->
               tget r c
               = fold_left add (map (fun e => mul (snd e) (mget zero u (pick c n) (pick (fst e) n)))
                                    (filter (fun e => (pick (fst e) a =? pick c a) && (pick (fst e) b =? pick c b))
                                            (combine inds vals))) zero).
  Proof.
    intros M fits inside. unfold tensordot.
    replace ((mode =? 0) || (mode =? 1) || (mode =? 2))%Z with true by (destruct M; reflexivity).
    rewrite (proj2 (other_modes_ok _ _ _ _ M)).
    assert (HF : forall c, in_shape (with_mode shape n (mc u)) c = true <-> fits c).
    { intros c. rewrite in_shape_iff. unfold in_range, fits. destruct M; cbn [with_mode pick c0 c1 c2 fst snd]; tauto. }
    assert (SH : pick (with_mode shape n (mr u)) n = mr u /\ pick (with_mode shape n (mr u)) a = pick shape a
                 /\ pick (with_mode shape n (mr u)) b = pick shape b) by (destruct M; repeat split).
    split.
    - intros NI. assert (R0 : mr u <> 0) by (intros H; apply NI; left; auto).
      replace (mr u =? 0) with false by (symmetry; apply Nat.eqb_neq; auto). cbn [orb].
      destruct (le_lt_dec (length vals) (length inds)) as [L|L].
      + rewrite (proj1 (zip_cases inds vals) L).
        destruct (forallb _ (combine inds vals)) eqn:E; [|reflexivity].
        exfalso. apply NI. right. split; auto. apply (forallb_combine _ fits inds vals HF L); auto.
      + rewrite (proj2 (zip_cases inds vals) L). reflexivity.
    - intros IN.
      destruct (Nat.eq_dec (mr u) 0) as [R0|R0].
      + exists (zeros3 zero (with_mode shape n (mr u))).
        split; [|split; [apply zeros3_wf|]].
        { rewrite R0. cbn [Nat.eqb orb]. destruct (zip_entries inds vals); reflexivity. }
        cbn [zeros3 tshape]. destruct SH as [S1 [S2 S3]]. repeat split; auto.
        intros c Hc. exfalso. destruct Hc as [H0 [H1 H2]]. destruct M; cbn [with_mode c0 c1 c2 fst snd] in *; lia.
      + destruct IN as [IN|[L F]]; [contradiction|].
        rewrite (proj1 (zip_cases inds vals) L). rewrite (proj2 (forallb_combine _ fits inds vals HF L) F).
        rewrite orb_true_r.
        set (es := combine inds vals) in *.
        assert (FE : Forall (fun e => fits (fst e)) es).
        { unfold es. rewrite <- (combine_fst_firstn inds vals L), Forall_map in F. exact F. }
        set (ws := flat_map (fun j => map (fun e => (with_mode (fst e) n j, mul (snd e) (mget zero u j (pick (fst e) n)))) es)
                     (seq 0 (mr u))).
        assert (EQ : for_ (mr u) (fun j => foreach es (fun e t =>
                       tadd zero add t (with_mode (fst e) n j) (mul (snd e) (mget zero u j (pick (fst e) n)))))
                       (zeros3 zero (with_mode shape n (mr u)))
                     = accum zero add ws (zeros3 zero (with_mode shape n (mr u)))).
        { unfold accum, ws. apply for_actions. intros j s. rewrite <- flat_map_singleton.
          apply foreach_actions. reflexivity. }
        rewrite EQ. eexists. split; [reflexivity|]. split; [apply accum_wf, zeros3_wf|].
        rewrite accum_shape. cbn [zeros3 tshape]. destruct SH as [S1 [S2 S3]]. split; [exact S1|].
        split; [exact S2|]. split; [exact S3|]. intros c Hc.
        change (tget (accum zero add ws (zeros3 zero (with_mode shape n (mr u)))) c = fold_left add (map (fun e => mul (snd e) (mget zero u (pick c n) (pick (fst e) n)))
             (filter (fun e => (pick (fst e) a =? pick c a) && (pick (fst e) b =? pick c b)) es)) zero).
        rewrite tget_accum; [|apply zeros3_wf|exact Hc|].
        * rewrite tget_zeros3. f_equal. unfold ws. rewrite values_at_flat_map.
          assert (Hn : pick c n < mr u).
          { destruct Hc as [H0 [H1 H2]]. destruct M; cbn [with_mode pick c0 c1 c2 fst snd] in *; auto. }
          rewrite (flat_map_pick (mr u) (pick c n)); auto.
          -- rewrite <- flat_map_singleton, values_at_flat_map, <- flat_map_if. apply flat_map_ext_in. intros e _.
             unfold values_at. cbn [filter fst]. rewrite (with_mode_eqb mode n a b); auto.
             destruct (_ && _); reflexivity.
          -- intros j Hj. unfold values_at. rewrite (filter_none_in); [reflexivity|].
             intros w Hw. apply in_map_iff in Hw as [e [<- _]]. cbn [fst]. apply coord_eqb_neq. intros E.
             apply Hj. rewrite <- E. destruct M; reflexivity.
        * apply Forall_forall. intros w Hw. unfold ws in Hw. apply in_flat_map in Hw as [j [Hj Hw]].
          apply in_map_iff in Hw as [e [<- He]]. rewrite Forall_forall in FE. destruct (FE e He) as [Q1 [Q2 Q3]].
          apply in_seq in Hj. unfold in_range. cbn [fst snd zeros3 tshape].
          destruct M; cbn [with_mode pick c0 c1 c2 fst snd] in *; lia.
  Qed.
End Dot.

Section RingDot.
  Context {A : Type} (zero one : A) (add mul sub : A -> A -> A) (opp : A -> A)
          (RT : ring_theory zero one add mul sub opp (@eq A)).
  Add Ring ARD : RT.
  Notation tget := (tget zero).
  Notation sumn := (sumn zero add).

  (** core = first factor contracted with tensordot2 of the other two. *)
  Lemma core_tensordot2_main inds (vals : list A) shape u1 u2 u3 core r i j k :
    construct_core zero add mul inds vals u1 u2 u3 = Ok core ->
    c0 shape = mr u1 ->
    tensordot2 zero add mul inds vals shape u2 u3 1 2 = Ok r ->
    i < mc u1 -> j < mc u2 -> k < mc u3 ->
    tget core (i, j, k) = sumn (mr u1) (fun x => mul (mget zero u1 x i) (tget r (x, j, k))).
  Proof.
    intros H S HT Hi Hj Hk.
    destruct (core_bit_exact_main zero add mul _ _ _ _ _ _ H) as [_ [_ P]].
    rewrite (P i j k Hi Hj Hk), (fold_left_sum zero one add mul sub opp RT).
    destruct (entries_in_iff inds vals (mr u1, mr u2, mr u3)) as [I [[es E]|E]].
    2:{ unfold construct_core in H. rewrite E in H. discriminate. }
    pose proof (entries_range _ _ _ _ E) as F. destruct (proj1 (I es) E) as [L [FF ->]].
    destruct (tensordot2_main zero add mul inds vals shape u2 u3 1 2) as [_ [_ T]].
    destruct T as [r' [ER [_ [_ Q]]]].
    { unfold valid2. repeat split; auto. lia. }
    { split; [exact L|]. apply Forall_impl with (2 := FF). intros c [H0 [H1 H2]]. cbn [c0 c1 c2 fst snd] in *.
      change (c0 c < c0 shape /\ c1 c < mr u2 /\ c2 c < mr u3). rewrite S. repeat split; auto. }
    rewrite HT in ER. injection ER as <-. 
    change (Z.to_nat (3 - (1 + 2))) with 0 in Q. change (Z.to_nat 1) with 1 in Q. change (Z.to_nat 2) with 2 in Q.
    cbn [pick] in Q.
    rewrite (sumn_ext zero add (mr u1) _ (fun x => sum zero add (map (fun e =>
       if c0 (fst e) =? x then mul (mul (mul (snd e) (mget zero u1 x i)) (mget zero u2 (c1 (fst e)) j)) (mget zero u3 (c2 (fst e)) k) else zero)
       (combine inds vals)))).
    2:{ intros x Hx. rewrite Q; auto; [|rewrite S; auto]. rewrite (fold_left_sum zero one add mul sub opp RT).
        rewrite (sum_map_filter zero one add mul sub opp RT).
        transitivity (sum zero add (map (fun e => mul (mget zero u1 x i) (if c0 (fst e) =? x then
            mul (mul (snd e) (mget zero u2 (c1 (fst e)) j)) (mget zero u3 (c2 (fst e)) k) else zero)) (combine inds vals))).
        - rewrite (sum_scale_l zero one add mul sub opp RT). ring.
        - apply sum_ext. intros e _. destruct (c0 (fst e) =? x); ring. }
    unfold Tensor_spec.sumn. rewrite (sum_swap zero one add mul sub opp RT (fun x e => if c0 (fst e) =? x then mul (mul (mul (snd e) (mget zero u1 x i)) (mget zero u2 (c1 (fst e)) j)) (mget zero u3 (c2 (fst e)) k) else zero)).
    transitivity (sum zero add (map (fun e : coord * A => mul (mul (mul (snd e) (mget zero u1 (c0 (fst e)) i)) (mget zero u2 (c1 (fst e)) j)) (mget zero u3 (c2 (fst e)) k)) (combine inds vals))).
    { ring. }
    apply sum_ext. intros e He. symmetry.
    rewrite Forall_forall in F. destruct (F e He) as [F0 _]. cbn [c0 fst] in F0.
    apply (sumn_pick zero one add mul sub opp RT (mr u1) (c0 (fst e))
      (fun x => mul (mul (mul (snd e) (mget zero u1 x i)) (mget zero u2 (c1 (fst e)) j)) (mget zero u3 (c2 (fst e)) k)) F0).
  Qed.
End RingDot.
