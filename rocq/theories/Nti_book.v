(** Data handling of an update as a fixed sequence of steps, for the bookkeeping of
    Tirec_model and for the model with factors alike. *)
From Coq Require Import ZArith List Bool Lia Permutation.
From Verif Require Import Prelude Prelude_proofs DataPrep_model DataPrep_spec DataPrep_proofs DataPrep_main History_model History_spec
  History_proofs History_main Recommend_model Recommend_main Psi_model Psi_proofs Tirec_model Tirec_spec Tirec_proofs Tirec_main Tirec_assembly
  Tensor_model Matrix_model Attention_model LinAlg_model Tucker_model Hooi_model Upd_model Nti_model.
From Verif Require Tensor_spec.
Import ListNotations.
Open Scope Z_scope.

Section Generic.
  Context {S : Type} (step : S -> list entry -> mode -> res S).

  Definition gstep (acc : res (S * list entry * list Z * list Z)) (md : mode) : res (S * list entry * list Z * list Z) :=
    do '(x, left_data, nu, ni) <- acc;
    let '(prepared, mask, nu', ni') := divide_inds left_data md nu ni in
    do x' <- step x prepared md;
    Ok (x', select (map negb mask) left_data, nu', ni').

  (** A sequence of steps. *)
  Fixpoint run (x : S) (plan : list (mode * list entry)) : res S :=
    match plan with
    | [] => Ok x
    | (md, d) :: l => do y <- step x d md; run y l
    end.

  Variables (NU NI : list Z) (D : list entry).
  Let a (e : entry) := memZ (e_user e) NU.
  Let b (e : entry) := memZ (e_item e) NI.
  Let c (e : entry) := memZ (e_user e) (map e_user (g1 NU NI D)).
  Let d (e : entry) := memZ (e_item e) (map e_item (g1 NU NI D)).
  Notation g1 := (g1 NU NI D). Notation g2 := (g2 NU NI D). Notation g3 := (g3 NU NI D). Notation g4 := (g4 NU NI D).
  Notation left1 := (left1 NU NI D). Notation left2 := (left2 NU NI D).
  Notation NU1 := (NU1 NU NI D). Notation NU2 := (NU2 NU NI D). Notation NI1 := (NI1 NU NI D). Notation NI2 := (NI2 NU NI D).

  Lemma loop1 st :
    gstep (Ok (st, D, NU, NI)) MNew
    = do st' <- step st g1 MNew; Ok (st', left1, NU1, NI1).
  Proof.
    unfold gstep; cbn [bind divide_inds]. rewrite map_map, !select_filter.
    assert (E1 : filter (fun e => negb (negb (memZ (e_user e) NU)) && negb (negb (memZ (e_item e) NI))) D = g1).
    { apply filter_ext_in. intros e _. rewrite !negb_involutive. reflexivity. }
    rewrite E1. 
    replace (filter (fun e => negb (negb (negb (memZ (e_user e) NU)) && negb (negb (memZ (e_item e) NI)))) D)
      with left1; [reflexivity|].
    apply filter_ext_in. intros e _. rewrite !negb_involutive. reflexivity.
  Qed.

  Lemma loop2 st :
    gstep (Ok (st, left1, NU1, NI1)) MNewUsers
    = do st' <- step st g2 MNewUsers; Ok (st', left2, NU2, NI1).
  Proof.
    unfold gstep; cbn [bind divide_inds]. rewrite map_map, !select_filter.
    assert (M : forall e, In e D -> a e && b e = false ->
       negb (negb (memZ (e_user e) NU1)) && negb (memZ (e_item e) NI1) = a e && negb (c e)).
    { intros e He. rewrite memZ_NU1, memZ_NI1, negb_involutive. pose proof (in_g1 NU NI D e He) as G.
      unfold a, b, c, d in *. destruct (memZ (e_user e) NU), (memZ (e_item e) NI); cbn; try discriminate;
        rewrite ?andb_true_r, ?andb_false_r; auto. }
    assert (E1 : filter (fun e => negb (negb (memZ (e_user e) NU1)) && negb (memZ (e_item e) NI1)) left1 = g2).
    { unfold Tirec_proofs.left1. rewrite filter_filter. apply filter_ext_in. intros e He. pose proof (in_g1 NU NI D e He) as G.
      pose proof (M e He) as M'. unfold a, b, c, d in *.
      destruct (memZ (e_user e) NU && memZ (e_item e) NI) eqn:AB; cbn [negb andb].
      - apply andb_true_iff in AB as [A B]. destruct (G A B) as [-> _]. rewrite andb_false_r. reflexivity.
      - apply M'. reflexivity. }
    rewrite E1.
    replace (filter (fun e => negb (negb (negb (memZ (e_user e) NU1)) && negb (memZ (e_item e) NI1))) left1)
      with left2; [reflexivity|].
    unfold Tirec_proofs.left1, Tirec_proofs.left2. rewrite filter_filter. apply filter_ext_in. intros e He.
    destruct (memZ (e_user e) NU && memZ (e_item e) NI) eqn:AB; cbn [negb andb]; auto.
    rewrite (M e He AB). reflexivity.
  Qed.

  Lemma loop3 st :
    gstep (Ok (st, left2, NU2, NI1)) MNewItems
    = do st' <- step st g3 MNewItems; Ok (st', g4, NU2, NI2).
  Proof.
    unfold gstep; cbn [bind divide_inds]. rewrite map_map, !select_filter.
    assert (M : forall e, In e D -> a e && b e = false -> a e && negb (c e) = false ->
       negb (memZ (e_user e) NU2) && negb (negb (memZ (e_item e) NI1)) = b e && negb (d e)).
    { intros e He AB AC. rewrite memZ_NU2, memZ_NI1, negb_involutive. unfold a, b, c, d in *.
      rewrite AC. reflexivity. }
    assert (E1 : filter (fun e => negb (memZ (e_user e) NU2) && negb (negb (memZ (e_item e) NI1))) left2 = g3).
    { unfold Tirec_proofs.left2. rewrite filter_filter. apply filter_ext_in. intros e He. pose proof (in_g1 NU NI D e He) as G.
      pose proof (M e He) as M'. unfold a, b, c, d in *.
      destruct (memZ (e_user e) NU && memZ (e_item e) NI) eqn:AB; cbn [negb andb].
      - apply andb_true_iff in AB as [A B]. destruct (G A B) as [_ ->]. rewrite andb_false_r. reflexivity.
      - destruct (memZ (e_user e) NU && negb (memZ (e_user e) (map e_user g1))) eqn:AC; cbn [negb andb].
        + apply andb_true_iff in AC as [A _]. rewrite A in AB. cbn in AB. rewrite AB. reflexivity.
        + apply M'; reflexivity. }
    rewrite E1.
    replace (filter (fun e => negb (negb (memZ (e_user e) NU2) && negb (negb (memZ (e_item e) NI1)))) left2)
      with g4; [reflexivity|].
    unfold Tirec_proofs.left2, Tirec_proofs.g4. rewrite filter_filter. apply filter_ext_in. intros e He.
    destruct (memZ (e_user e) NU && memZ (e_item e) NI) eqn:AB; cbn [negb andb]; auto.
    destruct (memZ (e_user e) NU && negb (memZ (e_user e) (map e_user g1))) eqn:AC; cbn [negb andb]; auto.
    rewrite (M e He AB AC). reflexivity.
  Qed.

  Lemma loop4 st :
    gstep (Ok (st, g4, NU2, NI2)) MOld
    = do st' <- step st g4 MOld; Ok (st', [], NU2, NI2).
  Proof.
    unfold gstep; cbn [bind divide_inds]. rewrite map_map, !select_filter.
    assert (M : forall e, In e g4 -> negb (memZ (e_user e) NU2) && negb (memZ (e_item e) NI2) = true).
    { intros e He. apply filter_In in He as [He E]. rewrite memZ_NU2, memZ_NI2.
      apply andb_true_iff in E as [E E3]. apply andb_true_iff in E as [_ E2].
      apply negb_true_iff in E2, E3. rewrite E2, E3. reflexivity. }
    rewrite (filter_all _ g4 M).
    rewrite filter_none; [reflexivity|]. intros e He. rewrite (M e He). reflexivity.
  Qed.


  Lemma loops3 x :
    fold_left gstep [MNew; MNewUsers; MNewItems] (Ok (x, D, NU, NI))
    = do y <- run x [(MNew, g1); (MNewUsers, g2); (MNewItems, g3)]; Ok (y, g4, NU2, NI2).
  Proof.
    cbn [fold_left run]. rewrite loop1. destruct (step x g1 MNew) as [y|e]; cbn [bind]; [|reflexivity].
    rewrite loop2. destruct (step y g2 MNewUsers) as [z|e]; cbn [bind]; [|reflexivity].
    rewrite loop3. destruct (step z g3 MNewItems) as [t|e]; cbn [bind]; reflexivity.
  Qed.

  Lemma run_app x l1 l2 : run x (l1 ++ l2) = do y <- run x l1; run y l2.
  Proof.
    revert x. induction l1 as [|[md dd] l1 IH]; intros x; cbn [app run bind]; auto.
    destruct (step x dd md); cbn [bind]; auto.
  Qed.

  Lemma loops4 x :
    fold_left gstep [MNew; MNewUsers; MNewItems; MOld] (Ok (x, D, NU, NI))
    = do y <- run x [(MNew, g1); (MNewUsers, g2); (MNewItems, g3); (MOld, g4)]; Ok (y, [], NU2, NI2).
  Proof.
    change [MNew; MNewUsers; MNewItems; MOld] with ([MNew; MNewUsers; MNewItems] ++ [MOld]).
    rewrite fold_left_app, loops3.
    change [(MNew, g1); (MNewUsers, g2); (MNewItems, g3); (MOld, g4)]
      with ([(MNew, g1); (MNewUsers, g2); (MNewItems, g3)] ++ [(MOld, g4)]).
    rewrite run_app.
    destruct (run x [(MNew, g1); (MNewUsers, g2); (MNewItems, g3)]) as [y|e]; cbn [bind]; [|reflexivity].
    cbn [fold_left]. rewrite loop4. cbn [run]. destruct (step y g4 MOld); reflexivity.
  Qed.
End Generic.

(** The steps of an update. *)
Definition plan (v : variant) (nu ni : Z) (D : list entry) : list (mode * list entry) :=
  match v with
  | VTIRec => [ (MNew, q_new nu ni D); (MNewUsers, q_new_users nu ni D);
                (MNewItems, q_new_items nu ni D); (MOld, q_old nu ni D) ]
  | VTIRecA => [ (MNew, q_new nu ni D); (MNewUsers, q_new_users nu ni D);
                 (MNewItems, q_new_items nu ni D); (MOld, D) ]
  | VTIRecAInt => [ (MOld, D) ]
  end.

(** Coordinates inside the model at every step, which starts with [nu] and [ni] rows. *)
Fixpoint plan_ok (L : nat) (nu ni : Z) (l : list (mode * list entry)) : Prop :=
  match l with
  | [] => True
  | (md, d) :: l =>
    (forall e, In e d -> in_range md L nu ni e)
    /\ plan_ok L (nu + Z.of_nat (length (up_u md d))) (ni + Z.of_nat (length (up_i md d))) l
  end.

Section Bridge.
  Context {A : Type} (zero one : A) (add mul sub : A -> A -> A) (of_val : Z -> A) (exceeds_eps is_one : A -> bool).
  Notation nti_by_mode := (nti_by_mode zero one add mul sub of_val exceeds_eps is_one).
  Notation add_all := (add_all zero one add mul sub exceeds_eps).
  Notation nti_update := (nti_update zero one add mul sub of_val exceeds_eps is_one).
  Variables (cfg : nti_cfg) (L : nat) (a ainv : mat A) (att : option (mat A)) (rt : mode -> routines A).
  Let v := nc_variant cfg.

  Definition nstep (x : @nti_state A) (d : list entry) (md : mode) : res nti_state :=
    nti_by_mode cfg L att (rt md) x d md.

  Definition nti_finish (chunk : list prow) (x1 : @nti_state A) : res nti_state :=
    do '(aw, last) <- position_embeddings zero add mul a ainv (factor (nt_fs x1) 2);
    Ok (mkNti (nt_maps x1) (nt_history x1 ++ map (fun p => (r_user (p_row p), r_item (p_row p))) chunk)
              (nt_seq x1) (nt_fs x1) (nt_core x1) aw last).
  Definition ti_finish (chunk : list prow) (st1 : ti_state) : ti_state :=
    mkTi (ti_maps st1) (ti_urows st1) (ti_irows st1)
         (ti_history st1 ++ map (fun p => (r_user (p_row p), r_item (p_row p))) chunk) (ti_seq st1) (ti_log st1).

  Variables (st : ti_state) (data : list row) (s : bool).
  Hypothesis W : ti_wf L st.
  Variables (chunk0 chunk : list prow) (ms' : mappings) (ku ki : nat).
  Hypothesis P : preprocessed L (ti_maps st) data s chunk0 chunk ms' ku ki.
  Notation nu := (nusers st).
  Notation ni := (nitems st).
  Let h := ti_seq st.
  Let h' := fst (get_train_tensor L h (map triple_of chunk)).
  Let D := snd (get_train_tensor L h (map triple_of chunk)).

  Definition ti_start : ti_state :=
    match v with
    | VTIRecAInt => mkTi ms' (ti_urows st ++ seqZ nu ku) (ti_irows st ++ seqZ ni ki) (ti_history st) h' (ti_log st)
    | _ => mkTi ms' (ti_urows st) (ti_irows st) (ti_history st) h' (ti_log st)
    end.

  Lemma bind_id {X} (r : res X) : (do y <- r; Ok y) = r.
  Proof. destruct r; reflexivity. Qed.

  Lemma ti_update_plan :
    ti_update v L st data s
    = match D with
      | [] => Err ValueError
      | _ => do st1 <- run (update_factors v L) ti_start (plan v nu ni D); Ok (ti_finish chunk st1)
      end.
  Proof.
    rewrite (ti_update_unfold v L st data s W _ _ _ _ _ P). fold h D. destruct D as [|e0 D0] eqn:ED; [reflexivity|].
    rewrite <- ED. unfold ti_finish, ti_start, plan.
    pose proof (g1_q L st data s W _ _ _ _ _ P) as E1. pose proof (g2_q L st data s W _ _ _ _ _ P) as E2.
    pose proof (g3_q L st data s W _ _ _ _ _ P) as E3. pose proof (g4_q L st data s W _ _ _ _ _ P) as E4.
    fold h in E1, E2, E3, E4. fold D in E1, E2, E3, E4. rewrite <- E1, <- E2, <- E3, <- E4.
    change (ti_loop_step v L) with (gstep (update_factors v L)).
    destruct (variant_cases v) as [Ev|[Ev|Ev]]; rewrite Ev.
    - rewrite loops4. rewrite <- Ev. fold h'. destruct (run _ _ _); reflexivity.
    - rewrite loops3. rewrite <- Ev. fold h'.
      change [(MNew, g1 (seqZ nu ku) (seqZ ni ki) D); (MNewUsers, g2 (seqZ nu ku) (seqZ ni ki) D);
              (MNewItems, g3 (seqZ nu ku) (seqZ ni ki) D); (MOld, D)]
        with ([(MNew, g1 (seqZ nu ku) (seqZ ni ki) D); (MNewUsers, g2 (seqZ nu ku) (seqZ ni ki) D);
              (MNewItems, g3 (seqZ nu ku) (seqZ ni ki) D)] ++ [(MOld, D)]).
      rewrite run_app. destruct (run _ _ _) as [y|e]; cbn [bind]; [|reflexivity].
      destruct (mask_exhausted (seqZ nu ku) (seqZ ni ki) D) as [-> ->];
        [exact (D_users L st data s W _ _ _ _ _ P)|exact (D_items L st data s W _ _ _ _ _ P)|].
      cbn [divide_inds run]. rewrite map_map, select_filter. rewrite filter_all by (intros; reflexivity).
      rewrite bind_id. reflexivity.
    - unfold ext_state. cbn [run]. rewrite app_nil_r, bind_id. reflexivity.
  Qed.

  (** The object at the start of the steps. *)
  Definition nti_start (x : @nti_state A) : res nti_state :=
    let x0 := mkNti ms' (nt_history x) h' (nt_fs x) (nt_core x) (nt_aw x) (nt_last x) in
    match v with VTIRecAInt => add_all cfg rt x0 ku ki | _ => Ok x0 end.

  Lemma nti_update_plan x :
    nt_maps x = ti_maps st -> nt_seq x = ti_seq st ->
    nti_update cfg L a ainv att rt x data s
    = match D with
      | [] => Err ValueError
      | _ => do y <- nti_start x; do x1 <- run nstep y (plan v nu ni D); nti_finish chunk x1
      end.
  Proof.
    intros EM ES. unfold Nti_model.nti_update. rewrite EM, ES. destruct P. rewrite pp_ok. cbn [bind].
    change (get_train_tensor L (ti_seq st) (map triple_of chunk)) with (h', D). cbv iota beta.
    rewrite <- (Hnu L st W), <- (Hni L st W). destruct D as [|e0 D0] eqn:ED; [reflexivity|].
    rewrite <- ED. unfold nti_start, plan.
    pose proof (g1_q L st data s W _ _ _ _ _ P) as E1. pose proof (g2_q L st data s W _ _ _ _ _ P) as E2.
    pose proof (g3_q L st data s W _ _ _ _ _ P) as E3. pose proof (g4_q L st data s W _ _ _ _ _ P) as E4.
    fold h in E1, E2, E3, E4. fold D in E1, E2, E3, E4. rewrite <- E1, <- E2, <- E3, <- E4.
    change (nti_loop_step zero one add mul sub of_val exceeds_eps is_one cfg L att rt) with (gstep nstep).
    set (x0 := mkNti _ _ _ _ _ _ _). fold v.
    destruct (variant_cases v) as [Ev|[Ev|Ev]]; rewrite Ev; cbn [bind].
    - rewrite loops4. destruct (run _ _ _); reflexivity.
    - rewrite loops3.
      change [(MNew, g1 (seqZ nu ku) (seqZ ni ki) D); (MNewUsers, g2 (seqZ nu ku) (seqZ ni ki) D);
              (MNewItems, g3 (seqZ nu ku) (seqZ ni ki) D); (MOld, D)]
        with ([(MNew, g1 (seqZ nu ku) (seqZ ni ki) D); (MNewUsers, g2 (seqZ nu ku) (seqZ ni ki) D);
              (MNewItems, g3 (seqZ nu ku) (seqZ ni ki) D)] ++ [(MOld, D)]).
      rewrite run_app. destruct (run _ _ _) as [y|e]; cbn [bind]; [|reflexivity].
      destruct (mask_exhausted (seqZ nu ku) (seqZ ni ki) D) as [-> ->];
        [exact (D_users L st data s W _ _ _ _ _ P)|exact (D_items L st data s W _ _ _ _ _ P)|].
      cbn [divide_inds run]. rewrite map_map, select_filter. rewrite filter_all by (intros; reflexivity).
      rewrite bind_id. reflexivity.
    - rewrite !seqZ_length. destruct (add_all cfg rt x0 ku ki) as [y|e]; cbn [bind run]; [|reflexivity].
      rewrite bind_id. reflexivity.
  Qed.

  Lemma plan_good : plan_ok L (nusers ti_start) (nitems ti_start) (plan v nu ni D).
  Proof using W P.
    clear zero one add mul sub of_val exceeds_eps is_one a ainv att rt A.
    pose proof (D_range L st data s W _ _ _ _ _ P) as DR. fold h D in DR.
    pose proof (Q2_items L st data s W _ _ _ _ _ P) as R2. fold h D in R2.
    pose proof (Q3_users L st data s W _ _ _ _ _ P) as R3. fold h D in R3.
    pose proof (XU_len L st data s W _ _ _ _ _ P) as XU. rewrite app_length in XU. fold h D in XU.
    pose proof (XI_len L st data s W _ _ _ _ _ P) as XI. rewrite app_length in XI. fold h D in XI.
    assert (Q1D : forall e, In e (q_new nu ni D) -> In e D) by (intros e He; apply filter_In in He; tauto).
    assert (Q2D : forall e, In e (q_new_users nu ni D) -> In e D) by (intros e He; apply filter_In in He; tauto).
    assert (Q3D : forall e, In e (q_new_items nu ni D) -> In e D) by (intros e He; apply filter_In in He; tauto).
    assert (Q4D : forall e, In e (q_old nu ni D) -> In e D) by (intros e He; apply filter_In in He; tauto).
    assert (PO : forall d4, (forall e, In e d4 -> In e D) ->
      plan_ok L nu ni [(MNew, q_new nu ni D); (MNewUsers, q_new_users nu ni D); (MNewItems, q_new_items nu ni D); (MOld, d4)]).
    { intros d4 S4. cbn [plan_ok up_u up_i length].
      split; [intros e He; apply Q1D, DR in He; split; [tauto|exact I]|].
      split; [intros e He; pose proof (R2 e He); apply Q2D, DR in He; split; [tauto|lia]|].
      split; [intros e He; pose proof (R3 e He); apply Q3D, DR in He; split; [tauto|lia]|].
      split; [intros e He; apply S4, DR in He; split; [tauto|lia]|exact I]. }
    unfold ti_start, plan. destruct (variant_cases v) as [Ev|[Ev|Ev]]; rewrite Ev.
    - apply PO, Q4D.
    - apply PO; auto.
    - cbn [plan_ok]. split; [|exact I]. intros e He. apply DR in He.
      unfold nusers, nitems; cbn [ti_urows ti_irows]. rewrite !app_length, !seqZ_length.
      unfold nusers, nitems in He. split; [tauto|]. lia.
  Qed.
End Bridge.

(** ** Local coordinates of a step *)
Definition localize (md : mode) (d : list entry) : res (list entry) :=
  match md with
  | MNewUsers => map_to_local_u d
  | MNewItems => map_to_local_i d
  | MNew => do l <- map_to_local_u d; map_to_local_i l
  | MOld => Ok d
  end.
Definition su (md : mode) (nu : nat) (d : list entry) : nat :=
  match md with MNew | MNewUsers => length (np_unique (map e_user d)) | _ => nu end.
Definition si (md : mode) (ni : nat) (d : list entry) : nat :=
  match md with MNew | MNewItems => length (np_unique (map e_item d)) | _ => ni end.

(** Local coordinate [c] of the value [x]. *)
Definition local_at (vals : list Z) (x c : Z) : Prop :=
  0 <= c < Z.of_nat (length (np_unique vals)) /\ nth_error (np_unique vals) (Z.to_nat c) = Some x.
Definition is_local (md : mode) (d : list entry) (e l : entry) : Prop :=
  snd l = snd e /\ e_pos l = e_pos e
  /\ (match md with MNew | MNewUsers => local_at (map e_user d) (e_user e) (e_user l) | _ => e_user l = e_user e end)
  /\ (match md with MNew | MNewItems => local_at (map e_item d) (e_item e) (e_item l) | _ => e_item l = e_item e end).

Lemma local_u_exact d : exists loc, map_to_local_u d = Ok loc
  /\ Forall2 (fun e l => exists c, l = set_e_user e c /\ local_at (map e_user d) (e_user e) c) d loc.
Proof.
  unfold map_to_local_u. set (vals := map e_user d).
  assert (H : forall e, In e d -> In (e_user e) vals) by (intros; apply in_map; auto).
  clearbody vals. induction d as [|e d IH]; cbn [mapM]; [exists []; auto|].
  destruct IH as [loc [E F]]; [intros; apply H; right; auto|].
  destruct (local_get vals (e_user e) (H e (or_introl eq_refl))) as [c [G [R N]]].
  rewrite G. cbn [bind]. rewrite E. cbn [bind]. eexists; split; [reflexivity|].
  constructor; auto. exists c. split; auto. split; auto.
Qed.
Lemma local_i_exact d : exists loc, map_to_local_i d = Ok loc
  /\ Forall2 (fun e l => exists c, l = set_e_item e c /\ local_at (map e_item d) (e_item e) c) d loc.
Proof.
  unfold map_to_local_i. set (vals := map e_item d).
  assert (H : forall e, In e d -> In (e_item e) vals) by (intros; apply in_map; auto).
  clearbody vals. induction d as [|e d IH]; cbn [mapM]; [exists []; auto|].
  destruct IH as [loc [E F]]; [intros; apply H; right; auto|].
  destruct (local_get vals (e_item e) (H e (or_introl eq_refl))) as [c [G [R N]]].
  rewrite G. cbn [bind]. rewrite E. cbn [bind]. eexists; split; [reflexivity|].
  constructor; auto. exists c. split; auto. split; auto.
Qed.

Lemma Forall2_comp {X Y Z} (P : X -> Y -> Prop) (Q : Y -> Z -> Prop) l1 l2 : Forall2 P l1 l2 ->
  forall l3, Forall2 Q l2 l3 -> Forall2 (fun x z => exists y, P x y /\ Q y z) l1 l3.
Proof.
  induction 1; intros l3 H3; inversion H3; subst; constructor; eauto.
Qed.
Lemma Forall2_weaken {X Y} (P Q : X -> Y -> Prop) l1 l2 : (forall x y, P x y -> Q x y) -> Forall2 P l1 l2 -> Forall2 Q l1 l2.
Proof. induction 2; constructor; auto. Qed.

Lemma localize_exact md d : exists loc, localize md d = Ok loc /\ Forall2 (is_local md d) d loc.
Proof.
  destruct md; cbn [localize].
  - destruct (local_u_exact d) as [l1 [E1 F1]]. rewrite E1. cbn [bind].
    destruct (local_i_exact l1) as [l2 [E2 F2]]. exists l2. split; auto.
    assert (EI : map e_item l1 = map e_item d).
    { clear -F1. induction F1 as [|e l d2 l1 [c [-> _]] F IH]; cbn [map]; [reflexivity|].
      rewrite IH. reflexivity. }
    rewrite EI in F2. eapply Forall2_weaken; [|exact (Forall2_comp _ _ _ _ F1 _ F2)].
    intros e l [y [[c [-> HC]] [c' [-> HC']]]]. split; auto.
  - destruct (local_u_exact d) as [l1 [E1 F1]]. exists l1. split; auto.
    eapply Forall2_weaken; [|exact F1]. intros e l [c [-> HC]]. split; auto.
  - destruct (local_i_exact d) as [l1 [E1 F1]]. exists l1. split; auto.
    eapply Forall2_weaken; [|exact F1]. intros e l [c [-> HC]]. split; auto.
  - exists d. split; auto. unfold is_local. clear. induction d; constructor; auto.
Qed.

(** Coordinates of the local entries are inside the local shape. *)
Lemma localize_range md L nu ni d loc :
  (forall e, In e d -> in_range md L (Z.of_nat nu) (Z.of_nat ni) e) -> Forall2 (is_local md d) d loc ->
  forall l, In l loc -> 0 <= e_user l < Z.of_nat (su md nu d) /\ 0 <= e_item l < Z.of_nat (si md ni d) /\ 0 <= e_pos l < Z.of_nat L.
Proof.
  intros H F l Hl. destruct (Forall2_In_r _ _ _ _ F Hl) as [e [He [_ [HP [HU HI]]]]].
  specialize (H e He). destruct H as [H1 H2]. rewrite HP. unfold local_at in *.
  destruct md; cbn [su si] in *; rewrite ?HU, ?HI; repeat split; tauto.
Qed.

Lemma update_factors_step v L st d md loc : d <> [] ->
  (forall e, In e d -> in_range md L (nusers st) (nitems st) e) -> localize md d = Ok loc -> Forall2 (is_local md d) d loc ->
  update_factors v L st d md
  = if size_ok v L md (nusers st) (nitems st) d
    then Ok (mkTi (ti_maps st) (ti_urows st ++ up_u md d) (ti_irows st ++ up_i md d) (ti_history st) (ti_seq st)
                  (ti_log st ++ [mkTiStep md (nusers st) (nitems st) d loc]))
    else Err ValueError.
Proof.
  intros NE H EL F.
  pose proof (localize_range md L (length (ti_urows st)) (length (ti_irows st)) d loc H F) as R.
  apply in_shape_spec in R. unfold update_factors, nusers, nitems in *.
  destruct d as [|e0 d0]; [congruence|]. remember (e0 :: d0) as d eqn:Ed. clear Ed NE e0 d0.
  destruct md; cbn [localize up_u up_i su si size_ok] in *.
  - destruct (map_to_local_u d) as [l1|]; cbn [bind] in EL |- *; [|discriminate]. rewrite EL. cbn [bind].
    rewrite R. destruct v; reflexivity.
  - rewrite EL. cbn [bind]. rewrite R, app_nil_r. destruct v; cbn [size_ok]; reflexivity.
  - rewrite EL. cbn [bind]. rewrite R, app_nil_r. destruct v; cbn [size_ok]; reflexivity.
  - injection EL as <-. rewrite R, !app_nil_r. destruct v; reflexivity.
Qed.

(** Coordinates as natural numbers. *)
Definition zc (e : entry) : coord := (Z.to_nat (e_user e), Z.to_nat (e_item e), Z.to_nat (e_pos e)).
Definition in_box (n0 n1 n2 : nat) (e : entry) : Prop :=
  0 <= e_user e < Z.of_nat n0 /\ 0 <= e_item e < Z.of_nat n1 /\ 0 <= e_pos e < Z.of_nat n2.

Lemma nat_coords_map n0 n1 n2 d : (forall e, In e d -> in_box n0 n1 n2 e) ->
  nat_coords d = Ok (map zc d) /\ Forall (Tensor_spec.in_range (n0, n1, n2)) (map zc d).
Proof.
  intros H. split.
  - unfold nat_coords. induction d as [|e d IH]; cbn [mapM map]; [reflexivity|].
    destruct (H e (or_introl eq_refl)) as [[H1 _] [[H2 _] [H3 _]]].
    unfold nat_coord at 1. apply Z.leb_le in H1, H2, H3. rewrite H1, H2, H3. cbn [andb bind].
    rewrite IH; [reflexivity|]. intros e' He'. apply H. right. exact He'.
  - apply Forall_forall. intros c Hc. apply in_map_iff in Hc as [e [<- He]].
    destruct (H e He) as [H1 [H2 H3]]. unfold Tensor_spec.in_range, zc, c0, c1, c2; cbn [fst snd]. lia.
Qed.

Lemma size_users v L n0 n1 d :
  size_ok v L MNewUsers (Z.of_nat n0) (Z.of_nat n1) d = true
  <-> (v = VTIRec -> (length (np_unique (map e_user d)) <= n1 * L)%nat).
Proof.
  destruct v; cbn [size_ok]; rewrite ?Z.leb_le; split; intros; try discriminate; auto.
  - apply Nat2Z.inj_le. rewrite Nat2Z.inj_mul. assumption.
  - specialize (H eq_refl). apply Nat2Z.inj_le in H. rewrite Nat2Z.inj_mul in H. exact H.
Qed.
Lemma size_items v L n0 n1 d :
  size_ok v L MNewItems (Z.of_nat n0) (Z.of_nat n1) d = true
  <-> (v = VTIRec -> (length (np_unique (map e_item d)) <= n0 * L)%nat).
Proof.
  destruct v; cbn [size_ok]; rewrite ?Z.leb_le; split; intros; try discriminate; auto.
  - apply Nat2Z.inj_le. rewrite Nat2Z.inj_mul. assumption.
  - specialize (H eq_refl). apply Nat2Z.inj_le in H. rewrite Nat2Z.inj_mul in H. exact H.
Qed.
Lemma size_nil v L md nu ni : 0 <= nu -> 0 <= ni -> size_ok v L md nu ni [] = true.
Proof. intros. destruct v, md; cbn [size_ok]; auto; apply Z.leb_le; simpl; lia. Qed.

(** First row and column of a step's own block. *)
Definition offu (md : mode) (n : nat) : nat := match md with MNew | MNewUsers => n | _ => 0%nat end.
Definition offi (md : mode) (n : nat) : nat := match md with MNew | MNewItems => n | _ => 0%nat end.
Lemma target_nat md n0 n1 d loc e : 0 <= e_user e -> 0 <= e_item e ->
  let s := mkTiStep md (Z.of_nat n0) (Z.of_nat n1) d loc in
  Z.to_nat (fst (target s e)) = (offu md n0 + Z.to_nat (e_user e))%nat
  /\ Z.to_nat (snd (target s e)) = (offi md n1 + Z.to_nat (e_item e))%nat.
Proof.
  intros H1 H2 s. unfold target, s; destruct md; cbn [ts_mode ts_nu ts_ni fst snd offu offi]; lia.
Qed.
Lemma su_up md n d : su md n d = match md with MNew | MNewUsers => length (up_u md d) | _ => n end.
Proof. destruct md; reflexivity. Qed.
Lemma si_up md n d : si md n d = match md with MNew | MNewItems => length (up_i md d) | _ => n end.
Proof. destruct md; reflexivity. Qed.
