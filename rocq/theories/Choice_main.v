From Coq Require Import ZArith List Bool String.
From Verif Require Import Prelude DataPrep_model History_model Recommend_model Chance_model Tables_model Stream_model Tensor_model Matrix_model LinAlg_model
  Eval_model Dynamic_model Pipe_model Choice_model Choice_spec.
Import ListNotations.
Open Scope string_scope.

Lemma memS_In s l : memS s l = true <-> In s l.
Proof.
  unfold memS. rewrite existsb_exists. split.
  - intros [x [Hx E]]. apply String.eqb_eq in E. subst x. exact Hx.
  - intro H. exists s. split; [exact H | apply String.eqb_refl].
Qed.
Lemma nodupS_ok l : nodupS l = true <-> NoDup l.
Proof.
  induction l as [|s l IH]; cbn [nodupS].
  - split; [constructor | reflexivity].
  - rewrite andb_true_iff, negb_true_iff, IH. split.
    + intros [H1 H2]. constructor; [|exact H2]. intro H. apply memS_In in H. rewrite H in H1. discriminate.
    + intro H. inversion H as [|? ? H1 H2]; subst. split; [|exact H2].
      destruct (memS s l) eqn:E; [|reflexivity]. apply memS_In in E. contradiction.
Qed.
Lemma construct_ok c kw :
  construct c kw = Ok tt <->
  NoDup kw /\ (forall s, In s kw -> In s (required c ++ optional c)) /\ (forall s, In s (required c) -> In s kw).
Proof.
  unfold construct.
  destruct (nodupS kw) eqn:E1; cbn [andb].
  2:{ split; [discriminate|]. intros [H _]. apply nodupS_ok in H. congruence. }
  apply nodupS_ok in E1.
  destruct (forallb (fun s => memS s (required c ++ optional c)) kw) eqn:E2; cbn [andb].
  2:{ split; [discriminate|]. intros [_ [H _]]. exfalso.
      assert (forallb (fun s => memS s (required c ++ optional c)) kw = true); [|congruence].
      apply forallb_forall. intros s Hs. apply memS_In. exact (H s Hs). }
  destruct (forallb (fun s => memS s kw) (required c)) eqn:E3.
  2:{ split; [discriminate|]. intros [_ [_ H]]. exfalso.
      assert (forallb (fun s => memS s kw) (required c) = true); [|congruence].
      apply forallb_forall. intros s Hs. apply memS_In. exact (H s Hs). }
  split; [intros _ | reflexivity].
  rewrite forallb_forall in E2, E3.
  split; [exact E1|]. split; intros s Hs; apply memS_In; auto.
Qed.
Lemma key_ok cf s : key cf s = Ok tt <-> In s (c_keys cf).
Proof.
  unfold key. destruct (memS s (c_keys cf)) eqn:E.
  - apply memS_In in E. tauto.
  - split; [discriminate|]. intro H. apply memS_In in H. congruence.
Qed.

Lemma prepare_2d_ok sv c upd chunk cf p :
  has c upd = true ->
  prepare_2d sv c upd chunk cf = Ok p <->
  In "dataset" (c_keys cf) /\ In "topk" (c_keys cf) /\ sv = Ok tt /\
  (exists kw, c_svd cf = Some kw /\ construct c ("rank" :: kw) = Ok tt) /\
  p = mkPlan c upd chunk false false false.
Proof.
  intro Hh. unfold prepare_2d. split.
  - destruct (key cf "dataset") as [[]|] eqn:K1; cbn [bind]; [|discriminate].
    destruct (key cf "topk") as [[]|] eqn:K2; cbn [bind]; [|discriminate].
    destruct sv as [[]|]; cbn [bind]; [|discriminate].
    destruct (c_svd cf) as [kw|] eqn:K3; cbn [bind sub_dict]; [|discriminate].
    destruct (construct c ("rank" :: kw)) as [[]|] eqn:K4; cbn [bind]; [|discriminate].
    unfold method. rewrite Hh. cbn [bind]. intro H. injection H as <-.
    apply key_ok in K1. apply key_ok in K2.
    split; [exact K1|]. split; [exact K2|]. split; [reflexivity|]. split; [|reflexivity].
    exists kw. split; [reflexivity | exact K4].
  - intros [K1 [K2 [-> [[kw [K3 K4]] ->]]]].
    apply key_ok in K1. apply key_ok in K2. rewrite K1, K2, K3. cbn [bind sub_dict].
    rewrite K4. cbn [bind]. unfold method. rewrite Hh. reflexivity.
Qed.
Lemma prepare_3d_ok td c upd chunk re cf p :
  has c upd = true ->
  prepare_3d td c upd chunk re cf = Ok p <->
  In "dataset" (c_keys cf) /\ In "topk" (c_keys cf) /\ In "max_len_user_history" (c_keys cf) /\ td = Ok tt /\
  (exists kw, c_tdrec cf = Some kw /\ construct c ("rank" :: "att_f" :: kw) = Ok tt) /\
  p = mkPlan c upd chunk re true true.
Proof.
  intro Hh. unfold prepare_3d. split.
  - destruct (key cf "dataset") as [[]|] eqn:K1; cbn [bind]; [|discriminate].
    destruct (key cf "topk") as [[]|] eqn:K2; cbn [bind]; [|discriminate].
    destruct td as [[]|]; cbn [bind]; [|discriminate].
    destruct (c_tdrec cf) as [kw|] eqn:K3; cbn [bind sub_dict]; [|discriminate].
    destruct (construct c ("rank" :: "att_f" :: kw)) as [[]|] eqn:K4; cbn [bind]; [|discriminate].
    unfold method. rewrite Hh. cbn [bind].
    destruct (key cf "max_len_user_history") as [[]|] eqn:K5; cbn [bind]; [|discriminate].
    intro H. injection H as <-.
    apply key_ok in K1. apply key_ok in K2. apply key_ok in K5.
    repeat (split; [assumption || reflexivity|]). split; [|reflexivity].
    exists kw. split; [reflexivity | exact K4].
  - intros [K1 [K2 [K5 [-> [[kw [K3 K4]] ->]]]]].
    apply key_ok in K1. apply key_ok in K2. apply key_ok in K5. rewrite K1, K2, K3. cbn [bind sub_dict].
    rewrite K4. cbn [bind]. unfold method. rewrite Hh. cbn [bind]. rewrite K5. reflexivity.
Qed.

Lemma NoDup_cons2 {X} (x : X) l : NoDup (x :: l) <-> ~ In x l /\ NoDup l.
Proof. split; [intro H; inversion H; split; assumption | intros [H1 H2]; constructor; assumption]. Qed.

Ltac strs := cbn [In app required optional] in *; intuition (subst; try discriminate; auto 20).

Lemma fits_svd kw : construct CSVD ("rank" :: kw) = Ok tt <-> fits "SVD" kw.
Proof.
  rewrite construct_ok, NoDup_cons2. unfold fits, matrix_names, tensor_names. split.
  - intros [[N1 N2] [H1 H2]]. split; [exact N2|]. split; [|split; [discriminate|]].
    + intros _ s Hs. specialize (H1 s (or_intror Hs)). strs.
    + intro H. strs.
  - intros [N2 [H1 _]]. specialize (H1 ltac:(cbn; auto)). split; [split; [|exact N2]|split].
    + intro H. specialize (H1 _ H). strs.
    + intros s [<-|Hs]; [cbn; auto|]. specialize (H1 s Hs). strs.
    + intros s Hs. strs.
Qed.
Lemma fits_psi kw : construct CPSI ("rank" :: kw) = Ok tt <-> fits "PSIRec" kw.
Proof.
  rewrite construct_ok, NoDup_cons2. unfold fits, matrix_names, tensor_names. split.
  - intros [[N1 N2] [H1 H2]]. split; [exact N2|]. split; [|split].
    + intros _ s Hs. specialize (H1 s (or_intror Hs)). strs.
    + intros _. pose proof (H2 "n_power_iter") as A1. pose proof (H2 "oversampling_factor") as A2. pose proof (H2 "seed") as A3.
      cbn [In required] in A1, A2, A3.
      destruct (A1 ltac:(auto)) as [E|B1]; [discriminate|]. destruct (A2 ltac:(auto)) as [E|B2]; [discriminate|].
      destruct (A3 ltac:(auto)) as [E|B3]; [discriminate|]. auto.
    + intro H. strs.
  - intros [N2 [H1 [H2 _]]]. specialize (H1 ltac:(cbn; auto)). destruct (H2 eq_refl) as [A1 [A2 A3]].
    split; [split; [|exact N2]|split].
    + intro H. specialize (H1 _ H). strs.
    + intros s [<-|Hs]; [cbn; auto|]. specialize (H1 s Hs). strs.
    + intros s Hs. strs.
Qed.

Definition td_kw := ["seq_len"; "n_iter"; "growth_tol"; "n_power_iter"; "oversampling_factor"; "seed"; "parallel"; "dtype"; "force_n_iter"].
Lemma fits_td_gen c (light : bool) kw :
  (forall s, In s (required c ++ optional c) <-> s = "rank" \/ s = "att_f" \/ In s td_kw \/ (s = "att_light_mode" /\ light = true)) ->
  required c = ["rank"; "seq_len"] ->
  construct c ("rank" :: "att_f" :: kw) = Ok tt <->
  NoDup kw /\ In "seq_len" kw /\ (forall s, In s kw -> In s td_kw \/ (s = "att_light_mode" /\ light = true)).
Proof.
  intros Hc Hr. rewrite Hr in Hc. rewrite construct_ok, !NoDup_cons2, Hr. split.
  - intros [[N1 [N2 N3]] [H1 H2]]. split; [exact N3|]. split.
    + destruct (H2 "seq_len") as [E|[E|E]]; [cbn; auto | discriminate | discriminate | exact E].
    + intros s Hs. destruct (proj1 (Hc s) (H1 s (or_intror (or_intror Hs)))) as [E|[E|E]]; [subst s|subst s|exact E].
      * exfalso. apply N1. right. exact Hs.
      * exfalso. exact (N2 Hs).
  - intros [N [H1 H2]]. split; [split; [|split; [|exact N]]|split].
    + intros [E|H]; [discriminate|]. destruct (H2 _ H) as [E|[E _]]; [|discriminate]. unfold td_kw in E. strs.
    + intros H. destruct (H2 _ H) as [E|[E _]]; [|discriminate]. unfold td_kw in E. strs.
    + intros s Hs. apply Hc. destruct Hs as [<-|[<-|Hs]]; auto.
    + intros s [<-|[<-|[]]]; [left; reflexivity | right; right; exact H1].
Qed.

Lemma fits_td name c light kw :
  In name tensor_names -> (light = true <-> name = "TIRec" \/ name = "TIRecA") ->
  (forall s, In s (required c ++ optional c) <-> s = "rank" \/ s = "att_f" \/ In s td_kw \/ (s = "att_light_mode" /\ light = true)) ->
  required c = ["rank"; "seq_len"] ->
  construct c ("rank" :: "att_f" :: kw) = Ok tt <-> fits name kw.
Proof.
  intros Hn Hl Hc Hr. rewrite (fits_td_gen c light kw Hc Hr). unfold fits.
  assert (N1 : ~ In name matrix_names) by (unfold tensor_names, matrix_names in *; strs).
  assert (N2 : name <> "PSIRec") by (intro E; apply N1; subst; cbn; auto).
  split.
  - intros [A [B C]]. split; [exact A|]. split; [intro; contradiction|]. split; [intro; contradiction|].
    intros _. split; [exact B|]. intros s Hs. destruct (C s Hs) as [D|[D E]]; [left; exact D|right].
    split; [exact D | apply Hl; exact E].
  - intros [A [_ [_ H]]]. destruct (H Hn) as [B C]. split; [exact A|]. split; [exact B|].
    intros s Hs. destruct (C s Hs) as [D|[D E]]; [left; exact D|right]. split; [exact D | apply Hl; exact E].
Qed.

Lemma td_list : forall s, In s (required CTDRec ++ optional CTDRec) <-> s = "rank" \/ s = "att_f" \/ In s td_kw \/ (s = "att_light_mode" /\ false = true).
Proof. intro s. unfold td_kw. cbn [In app required optional]. split.
  - intro H. repeat (destruct H as [H|H]; [subst s; auto 20|]). destruct H.
  - intros [->|[->|[H|[_ H]]]]; [auto 20 | auto 20 | | discriminate].
    repeat (destruct H as [H|H]; [subst s; auto 20|]). destruct H.
Qed.
Lemma ti_list : forall s, In s (required CTIRec ++ optional CTIRec) <-> s = "rank" \/ s = "att_f" \/ In s td_kw \/ (s = "att_light_mode" /\ true = true).
Proof. intro s. unfold td_kw. cbn [In app required optional]. split.
  - intro H. repeat (destruct H as [H|H]; [subst s; auto 20|]). destruct H.
  - intros [->|[->|[H|[-> _]]]]; [auto 20 | auto 20 | | auto 20].
    repeat (destruct H as [H|H]; [subst s; auto 20|]). destruct H.
Qed.


Definition plan_of (name : string) : plan :=
  if name =? "SVD" then mkPlan CSVD "train" false false false false
  else if name =? "PSIRec" then mkPlan CPSI "update" true false false false
  else if name =? "TDRec" then mkPlan CTDRec "train" false false true true
  else if name =? "TDRecReinit" then mkPlan CTDRecRe "train" false true true true
  else if name =? "TIRec" then mkPlan CTIRec "update" true false true true
  else if name =? "TIRecA" then mkPlan CTIRecA "update" true false true true
  else mkPlan CRandom "train" false false true true.

Lemma in_matrix name : In name matrix_names <-> name = "SVD" \/ name = "PSIRec".
Proof. unfold matrix_names. cbn [In]. intuition. Qed.
Lemma in_tensor name : In name tensor_names <-> name = "TDRec" \/ name = "TDRecReinit" \/ name = "TIRec" \/ name = "TIRecA".
Proof. unfold tensor_names. cbn [In]. intuition. Qed.

Lemma usable_2d sv td name cf c (P : Prop) :
  In name matrix_names -> (forall kw, construct c ("rank" :: kw) = Ok tt <-> fits name kw) ->
  (In "dataset" (c_keys cf) /\ In "topk" (c_keys cf) /\ sv = Ok tt /\
   (exists kw, c_svd cf = Some kw /\ construct c ("rank" :: kw) = Ok tt) /\ P) <-> usable sv td name cf /\ P.
Proof.
  intros Hn Hf. unfold usable. split.
  - intros [A [B [C [[kw [D E]] F]]]]. split; [|exact F]. left.
    split; [exact Hn|]. split; [exact A|]. split; [exact B|]. split; [exact C|]. exists kw. split; [exact D | apply Hf; exact E].
  - intros [[[_ [A [B [C [kw [D E]]]]]]|[[H _]|[H _]]] F].
    + split; [exact A|]. split; [exact B|]. split; [exact C|]. split; [|exact F]. exists kw. split; [exact D | apply Hf; exact E].
    + exfalso. apply in_matrix in Hn. apply in_tensor in H. destruct Hn as [->| ->]; intuition discriminate.
    + exfalso. apply in_matrix in Hn. destruct Hn as [->| ->]; discriminate.
Qed.
Lemma usable_3d sv td name cf c (P : Prop) :
  In name tensor_names -> (forall kw, construct c ("rank" :: "att_f" :: kw) = Ok tt <-> fits name kw) ->
  (In "dataset" (c_keys cf) /\ In "topk" (c_keys cf) /\ In "max_len_user_history" (c_keys cf) /\ td = Ok tt /\
   (exists kw, c_tdrec cf = Some kw /\ construct c ("rank" :: "att_f" :: kw) = Ok tt) /\ P) <-> usable sv td name cf /\ P.
Proof.
  intros Hn Hf. unfold usable. split.
  - intros [A [B [B' [C [[kw [D E]] F]]]]]. split; [|exact F]. right; left.
    split; [exact Hn|]. split; [exact A|]. split; [exact B|]. split; [exact B'|]. split; [exact C|]. exists kw. split; [exact D | apply Hf; exact E].
  - intros [[[H _]|[[_ [A [B [B' [C [kw [D E]]]]]]]|[H _]]] F].
    + exfalso. apply in_tensor in Hn. apply in_matrix in H. destruct H as [->| ->]; intuition discriminate.
    + split; [exact A|]. split; [exact B|]. split; [exact B'|]. split; [exact C|]. split; [|exact F]. exists kw. split; [exact D | apply Hf; exact E].
    + exfalso. apply in_tensor in Hn. subst name. intuition discriminate.
Qed.

Lemma prepared_is sv td name cf p :
  prepare_model sv td name cf = Ok p <-> usable sv td name cf /\ p = plan_of name.
Proof.
  unfold prepare_model, plan_of.
  destruct (String.eqb_spec name "SVD") as [->|N1].
  { rewrite prepare_2d_ok by reflexivity. apply usable_2d; [cbn; auto | exact fits_svd]. }
  destruct (String.eqb_spec name "PSIRec") as [->|N2].
  { rewrite prepare_2d_ok by reflexivity. apply usable_2d; [cbn; auto | exact fits_psi]. }
  destruct (String.eqb_spec name "TDRec") as [->|N3].
  { rewrite prepare_3d_ok by reflexivity. apply usable_3d; [cbn; auto | intro kw].
    apply (fits_td _ _ false); [cbn; auto | intuition discriminate | exact td_list | reflexivity]. }
  destruct (String.eqb_spec name "TDRecReinit") as [->|N4].
  { rewrite prepare_3d_ok by reflexivity. apply usable_3d; [cbn; auto | intro kw].
    apply (fits_td _ _ false); [cbn; auto | intuition discriminate | exact td_list | reflexivity]. }
  destruct (String.eqb_spec name "TIRec") as [->|N5].
  { rewrite prepare_3d_ok by reflexivity. apply usable_3d; [cbn; auto | intro kw].
    apply (fits_td _ _ true); [cbn; auto | intuition | exact ti_list | reflexivity]. }
  destruct (String.eqb_spec name "TIRecA") as [->|N6].
  { rewrite prepare_3d_ok by reflexivity. apply usable_3d; [cbn; auto 6 | intro kw].
    apply (fits_td _ _ true); [cbn; auto 6 | intuition | exact ti_list | reflexivity]. }
  assert (M : ~ In name matrix_names) by (rewrite in_matrix; tauto).
  assert (T : ~ In name tensor_names) by (rewrite in_tensor; tauto).
  destruct (String.eqb_spec name "Random") as [->|N7].
  { unfold prepare_random. cbn [construct method]. change (construct CRandom ["seed"]) with (Ok tt).
    change (method CRandom "train") with (Ok "train"). cbn [bind]. unfold usable.
    destruct (key cf "max_len_user_history") as [[]|] eqn:K; cbn [bind].
    - apply key_ok in K. split; [intro H; injection H as <-; tauto|]. intros [_ ->]. reflexivity.
    - split; [discriminate|]. intros [[[H _]|[[H _]|[_ H]]] _]; [contradiction | contradiction |].
      apply key_ok in H. congruence. }
  split; [discriminate|]. unfold usable. tauto.
Qed.

Lemma plan_runs name : known name -> runs_as name (plan_of name).
Proof.
  unfold known. rewrite in_matrix, in_tensor. intro H.
  assert (E : In name ["SVD"; "PSIRec"; "TDRec"; "TDRecReinit"; "TIRec"; "TIRecA"; "Random"]) by (cbn [In]; intuition).
  clear H. cbn [In] in E.
  destruct E as [<-|[<-|[<-|[<-|[<-|[<-|[<-|[]]]]]]]]; unfold runs_as; cbn [plan_of String.eqb Ascii.eqb Bool.eqb p_reinit p_chunk p_update p_three p_max_len];
    rewrite in_matrix; intuition discriminate.
Qed.

Lemma prepared_iff sv td name cf :
  ((exists p, prepare_model sv td name cf = Ok p) <-> usable sv td name cf) /\
  (forall p, prepare_model sv td name cf = Ok p -> runs_as name p) /\
  (~ known name -> prepare_model sv td name cf = Err RuntimeError /\ script_choice name = Err RuntimeError).
Proof.
  split; [|split].
  - split.
    + intros [p H]. apply prepared_is in H. tauto.
    + intro H. exists (plan_of name). apply prepared_is. auto.
  - intros p H. apply prepared_is in H. destruct H as [U ->]. apply plan_runs. unfold known.
    destruct U as [[H _]|[[H _]|[H _]]]; auto.
  - intro H. unfold known in H. rewrite in_matrix, in_tensor in H.
    assert (N : forall s, In s ["SVD"; "PSIRec"; "TDRec"; "TDRecReinit"; "TIRec"; "TIRecA"; "Random"] -> (name =? s) = false).
    { intros s Hs. apply String.eqb_neq. intro E. subst s. apply H. cbn [In] in Hs. intuition. }
    assert (N' : forall l, incl l ["SVD"; "PSIRec"; "TDRec"; "TDRecReinit"; "TIRec"; "TIRecA"; "Random"] -> memS name l = false).
    { intros l Hl. destruct (memS name l) eqn:E; [|reflexivity]. apply memS_In in E. apply Hl in E.
      specialize (N name E). rewrite String.eqb_refl in N. discriminate. }
    split.
    + unfold prepare_model. rewrite !N by (cbn [In]; tauto). reflexivity.
    + unfold script_choice. rewrite !N'; [reflexivity| |]; intros s Hs; cbn [In] in *; tauto.
Qed.

(** The script. *)
Lemma shipped_2d name : In name matrix_names -> fits name shipped_svd.
Proof.
  intro H. unfold fits, shipped_svd. split; [|split; [|split]].
  - apply nodupS_ok. reflexivity.
  - intros _ s Hs. cbn [In] in *. tauto.
  - intros _. cbn [In]. tauto.
  - intro H'. exfalso. apply in_matrix in H. apply in_tensor in H'. destruct H as [->| ->]; intuition discriminate.
Qed.
Lemma shipped_3d name : In name tensor_names -> fits name shipped_tdrec.
Proof.
  intro H. unfold fits, shipped_tdrec. split; [|split; [|split]].
  - apply nodupS_ok. reflexivity.
  - intro H'. exfalso. apply in_tensor in H. apply in_matrix in H'. destruct H' as [->| ->]; intuition discriminate.
  - intros ->. apply in_tensor in H. intuition discriminate.
  - intros _. cbn [In]. split; [tauto|]. intros s Hs. left. cbn [In] in *. tauto.
Qed.

Ltac missing s := let H := fresh in let E := fresh in
  intros [H E]; cbn in H; repeat (destruct H as [H|H]; [subst s; vm_compute in E; first [discriminate E | tauto]|]); destruct H.

Lemma script_prepares name dim cf :
  script_choice name = Ok (dim, cf) ->
  known name /\
  exists p, (forall sv td, prepare_model sv td name cf = Ok p <->
                           (In name matrix_names -> sv = Ok tt) /\ (In name tensor_names -> td = Ok tt)) /\
    p_three p = dim /\
    (forall s, In s (used p) /\ has (p_class p) s = false <-> name = "Random" /\ (s = "get_u" \/ s = "get_v")).
Proof.
  intro H.
  assert (K : In name ["SVD"; "PSIRec"; "TDRec"; "TDRecReinit"; "TIRec"; "TIRecA"; "Random"]).
  { unfold script_choice in H. destruct (memS name ["SVD"; "PSIRec"]) eqn:E1.
    - apply memS_In in E1. cbn [In] in *. tauto.
    - destruct (memS name _) eqn:E2 in H; [|discriminate]. apply memS_In in E2. cbn [In] in *. tauto. }
  cbn [In] in K.
  split. { unfold known. rewrite in_matrix, in_tensor. intuition. }
  exists (plan_of name). split; [|split].
  - intros sv td. rewrite prepared_is. unfold usable, script_choice in *.
    destruct (memS name ["SVD"; "PSIRec"]) eqn:E1.
    + apply memS_In in E1. injection H as <- <-. cbn [c_keys c_svd c_tdrec].
      assert (T : ~ In name tensor_names) by (rewrite in_tensor; cbn [In] in E1; destruct E1 as [<-|[<-|[]]]; intuition discriminate).
      assert (R : name <> "Random") by (cbn [In] in E1; destruct E1 as [<-|[<-|[]]]; discriminate).
      split.
      * intros [[[_ [_ [_ [E _]]]]|[[X _]|[X _]]] _]; [split; [auto | intro; contradiction] | contradiction | contradiction].
      * intros [E _]. split; [|reflexivity]. left. split; [exact E1|]. split; [cbn [In]; tauto|]. split; [cbn [In]; tauto|].
        split; [exact (E E1)|]. exists shipped_svd. split; [reflexivity | exact (shipped_2d name E1)].
    + assert (M : ~ In name matrix_names) by (intro X; apply memS_In in X; unfold matrix_names in X; congruence).
      destruct (memS name _) eqn:E2 in H; [|discriminate]. injection H as <- <-. cbn [c_keys c_svd c_tdrec].
      apply memS_In in E2.
      split.
      * intros [[[X _]|[[X [_ [_ [_ [E _]]]]]|[X _]]] _]; [contradiction | split; [intro; contradiction | auto] |].
        subst name. split; [intro; contradiction|]. intro X. apply in_tensor in X. intuition discriminate.
      * intros [_ E]. split; [|reflexivity]. right.
        assert (D : In name tensor_names \/ name = "Random") by (rewrite in_tensor; cbn [In] in E2; intuition).
        destruct D as [D|D]; [left|right].
        -- split; [exact D|]. split; [cbn [In]; tauto|]. split; [cbn [In]; tauto|]. split; [cbn [In]; tauto|].
           split; [exact (E D)|]. exists shipped_tdrec. split; [reflexivity | exact (shipped_3d name D)].
        -- split; [exact D | cbn [In]; tauto].
  - destruct K as [<-|[<-|[<-|[<-|[<-|[<-|[<-|[]]]]]]]]; vm_compute in H; injection H as <- _; reflexivity.
  - intro s. clear H dim cf.
    destruct K as [<-|[<-|[<-|[<-|[<-|[<-|[<-|[]]]]]]]];
      (split; [missing s | intros [E [->| ->]]; first [discriminate E | split; [cbn; tauto | reflexivity]]]).
Qed.

Lemma script_ok name : (exists x, script_choice name = Ok x) <-> known name.
Proof.
  split.
  - intros [[dim cf] H]. exact (proj1 (script_prepares name dim cf H)).
  - unfold known. rewrite in_matrix, in_tensor. intro H.
    destruct H as [[->| ->]|[[->|[->|[->| ->]]]| ->]]; eexists; reflexivity.
Qed.
Lemma config_ok dataset :
  import_config dataset = (if memS dataset ["ml_20m"; "steam"; "amz_b"; "amz_g"] then Ok ("configs." ++ dataset ++ ".config")%string else Err RuntimeError).
Proof.
  unfold import_config, memS. cbn [existsb].
  destruct (String.eqb_spec dataset "ml_20m") as [->|N1]; [reflexivity|].
  destruct (String.eqb_spec dataset "amz_b") as [->|N2]; [reflexivity|].
  destruct (String.eqb_spec dataset "amz_g") as [->|N3]; [reflexivity|].
  destruct (String.eqb_spec dataset "steam") as [->|N4]; reflexivity.
Qed.
Lemma script_main name :
  ((exists x, script_choice name = Ok x) <-> known name) /\
  (forall dataset, (In dataset ["ml_20m"; "steam"; "amz_b"; "amz_g"] -> import_config dataset = Ok ("configs." ++ dataset ++ ".config")%string) /\
                   (~ In dataset ["ml_20m"; "steam"; "amz_b"; "amz_g"] -> import_config dataset = Err RuntimeError)) /\
  (forall dim cf, script_choice name = Ok (dim, cf) ->
   exists p, (forall sv td, prepare_model sv td name cf = Ok p <->
                           (In name matrix_names -> sv = Ok tt) /\ (In name tensor_names -> td = Ok tt)) /\
    p_three p = dim /\
    (forall s, In s (used p) /\ has (p_class p) s = false <-> name = "Random" /\ (s = "get_u" \/ s = "get_v"))).
Proof.
  split; [apply script_ok|]. split.
  - intro d. rewrite config_ok. split; intro H.
    + apply memS_In in H. rewrite H. reflexivity.
    + destruct (memS d _) eqn:E; [|reflexivity]. apply memS_In in E. contradiction.
  - intros dim cf H. exact (proj2 (script_prepares name dim cf H)).
Qed.

(** RandomRec in the experiment. *)
Section RandomExperiment.
  Context {A V T : Type} (zero : A) (sub : A -> A -> A) (norm : mat A -> V) (div : V -> V -> V) (minus_one : V) (clock : nat -> T).
  Variables (argpart : nat -> list A -> nat -> list nat) (k : nat) (draws : rr_state -> list Z -> bool -> list (list A)).
  Let m := rr_api argpart k draws.
  Let experiment tu L chunk_mode hm := @dynamical_experiment _ _ A V T zero sub norm div minus_one clock m (grow_3d L) tu chunk_mode hm.

  Lemma random_first tu L chunk_mode hm st0 initial c stream st :
    rr_train st0 initial = Ok st ->
    (exists e, experiment tu L chunk_mode hm st0 initial (c :: stream) = Err e) /\
    (forall rec h r test,
     let (users, items) := get_users_to_recommend_test_items c (rr_maps st) in
     rr_recommend argpart k draws st users false = Ok rec -> hr rec items = Ok h -> mrr rec items = Ok r ->
     rr_recommend argpart k draws st tu true = Ok test ->
     experiment tu L chunk_mode hm st0 initial (c :: stream) = Err AttributeError).
  Proof.
    intro Ht. unfold experiment, dynamical_experiment. change (train m st0 initial) with (rr_train st0 initial). rewrite Ht.
    cbn [bind exp_loop]. change (maps m st) with (rr_maps st).
    destruct (get_users_to_recommend_test_items c (rr_maps st)) as [users items].
    change (recommend m st) with (rr_recommend argpart k draws st).
    unfold wji_step, emb_step. cbn [Z.eqb Pos.eqb].
    change (recommend m st) with (rr_recommend argpart k draws st).
    split.
    - destruct (rr_recommend argpart k draws st users false) as [rec|e]; cbn [bind]; [|exists e; reflexivity].
      destruct (hr rec items) as [h|e]; cbn [bind]; [|exists e; reflexivity].
      destruct (mrr rec items) as [r|e]; cbn [bind]; [|exists e; reflexivity].
      destruct (rr_recommend argpart k draws st tu true) as [t|e]; cbn [bind]; [|exists e; reflexivity].
      exists AttributeError. reflexivity.
    - intros rec h r test -> Hh Hr ->. cbn [bind]. rewrite Hh. cbn [bind]. rewrite Hr. reflexivity.
  Qed.

  Lemma random_never tu L chunk_mode hm st0 initial stream d :
    experiment tu L chunk_mode hm st0 initial stream = Ok d -> stream = [].
  Proof.
    destruct stream as [|c stream]; [reflexivity|]. intro H. exfalso.
    destruct (rr_train st0 initial) as [st|e] eqn:E.
    - destruct (proj1 (random_first tu L chunk_mode hm st0 initial c stream st E)) as [e He]. congruence.
    - unfold experiment, dynamical_experiment in H. change (train m st0 initial) with (rr_train st0 initial) in H.
      rewrite E in H. discriminate.
  Qed.

  Lemma random_never_full L chunk_mode sort_days sort_counts data cut hm_min hm st0 d :
    full_dynamical_experiment zero sub norm div minus_one clock m (grow_3d L) chunk_mode (entry_3d L) users_3d sort_days sort_counts
      data cut hm_min hm st0 = Ok d ->
    exists initial left, prepare_data_for_experiment tb_index tb_day sort_days data cut hm_min = Ok (initial, [], left).
  Proof.
    unfold full_dynamical_experiment.
    destruct (prepare_data_for_experiment tb_index tb_day sort_days data cut hm_min) as [[[initial stream] left]|e]; cbn [bind]; [|discriminate].
    destruct (entry_3d L (map content initial)) as [x|e]; cbn [bind]; [|discriminate].
    intro H. apply (random_never _ L) in H. destruct stream; [|discriminate].
    exists initial, left. reflexivity.
  Qed.
End RandomExperiment.
