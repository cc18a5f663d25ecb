(** The tables of results and the run script. *)
From Coq Require Import ZArith QArith List Bool String Ascii Lia Sorting.Permutation.
From Verif Require Import Prelude Dynamic_model Report_model Report_spec Report_str Report_main.
Import ListNotations.
Local Open Scope string_scope.
Local Open Scope list_scope.

(** ** Cells *)

Lemma qsum_from : forall l a, (fold_left Qplus l a == a + fold_right Qplus 0 l)%Q.
Proof. induction l as [|x l IH]; intros a; cbn; [ring|]. rewrite IH. ring. Qed.

Lemma mean_value : forall l, l <> [] -> exists q, np_mean l = Mean q /\ (q * inject_Z (Z.of_nat (List.length l)) == fold_right Qplus 0 l)%Q.
Proof.
  intros l N. destruct l as [|x l]; [congruence|]. cbn [np_mean]. eexists. split; [reflexivity|].
  unfold qsum. rewrite qsum_from, Qplus_0_l. field. intros E.
  change 0%Q with (inject_Z 0) in E. apply inject_Z_injective in E. discriminate.
Qed.

Lemma assign_total : forall V (f : string -> V) l d, NoDup (map fst d ++ l) ->
  fold_left (fun d m => sset m (f m) d) l d = d ++ map (fun m => (m, f m)) l.
Proof.
  intros V f. induction l as [|m l IH]; intros d N; cbn; [now rewrite app_nil_r|].
  rewrite sset_new.
  - rewrite IH.
    + now rewrite <- List.app_assoc.
    + rewrite map_app. cbn. rewrite <- List.app_assoc. exact N.
  - apply NoDup_remove_2 in N. rewrite in_app_iff in N. tauto.
Qed.

Lemma sget_map : forall V (f : string -> V) l m, In m l -> sget m (map (fun x => (x, f x)) l) = Some (f m).
Proof.
  intros V f. induction l as [|x l IH]; intros m I; [destruct I|]. cbn.
  destruct (String.eqb_spec m x) as [->|N]; [reflexivity|]. destruct I as [->|I]; [congruence|]. now apply IH.
Qed.

Lemma cells_loop : forall metrics j,
  fold_left (fun acc m => do d <- acc; do l <- jseries m j; Ok (sset m (np_mean l) d)) metrics (Ok []) =
  fold_left (fun acc m => do d <- acc; do kv <- (do l <- jseries m j; Ok (m, np_mean l)); Ok (sset (fst kv) (snd kv) d)) metrics (Ok []).
Proof.
  intros metrics j. apply fold_same. intros [d|e] m; [|reflexivity]. cbn [bind]. destruct (jseries m j); reflexivity.
Qed.

Lemma cell_shows : forall metrics file metric, NoDup metrics -> In metric metrics ->
  shows metrics file metric (sget metric (model_cells metrics file)).
Proof.
  intros metrics file metric N I.
  assert (D : sget metric (fold_left (fun d m => sset m Dash d) metrics []) = Some Dash).
  { rewrite (assign_total _ (fun _ => Dash)) by exact N. cbn [app]. now apply sget_map. }
  unfold model_cells. destruct file as [j|e]; cbn [bind].
  2: { right. split; [discriminate|exact D]. }
  rewrite cells_loop.
  destruct (mapM (fun m => do l <- jseries m j; Ok (m, np_mean l)) metrics) as [out|e] eqn:M.
  - assert (A : forall m, In m metrics -> exists l, sget m j = Some l).
    { intros m Im. destruct (sget m j) as [l|] eqn:E; [eauto|].
      destruct (mapM_fails _ _ (fun m => do l <- jseries m j; Ok (m, np_mean l)) metrics m KeyError Im) as (e' & x' & _ & _ & M');
        [unfold jseries; now rewrite E|congruence]. }
    set (val m := match sget m j with Some l => np_mean l | None => Dash end).
    assert (O : out = map (fun m => (m, val m)) metrics).
    { rewrite (mapM_all _ _ _ (fun m => (m, val m))) in M; [congruence|].
      intros m Im. destruct (A m Im) as [l E]. unfold jseries, val. rewrite E. reflexivity. }
    rewrite (assign_loop _ _ _ _ out); [|exact M|rewrite O, map_map; cbn; rewrite map_id; exact N].
    cbn [app]. rewrite O, sget_map by exact I. unfold val. destruct (A metric I) as [l E]. rewrite E.
    left. exists j, l. split; [reflexivity|]. split; [exact A|]. split; [exact E|].
    destruct l as [|x l]; [left; split; reflexivity|right]. split; [discriminate|].
    destruct (mean_value (x :: l)) as (q & E1 & E2); [discriminate|]. exists q. rewrite E1. split; [reflexivity|exact E2].
  - rewrite (assign_loop_fail _ _ _ _ e); [|exact M]. right. split; [|exact D].
    intros j' Ej. injection Ej as <-.
    assert (X : forall l, (exists m, In m l /\ sget m j = None) \/ exists o, mapM (fun m => do l <- jseries m j; Ok (m, np_mean l)) l = Ok o).
    { induction l as [|m l IH]; [right; exists []; reflexivity|].
      destruct (sget m j) as [s|] eqn:E; [|left; exists m; cbn; auto].
      destruct IH as [(m' & I' & E')|[o Eo]]; [left; exists m'; cbn; auto|]. right. exists ((m, np_mean s) :: o). cbn.
      unfold jseries at 1. rewrite E. cbn. rewrite Eo. reflexivity. }
    destruct (X metrics) as [H|[o Ho]]; [exact H|congruence].
Qed.

Lemma columns_eq : forall models metrics open_json data, NoDup models ->
  dataset_cells models metrics open_json data = map (fun m => (m, model_cells metrics (open_json data m))) models.
Proof.
  intros models metrics open_json data N. unfold dataset_cells.
  rewrite (assign_total _ (fun m => model_cells metrics (open_json data m)) models []) by exact N. reflexivity.
Qed.

(** ** The two tables *)

Lemma long_get_value : forall (v : string -> string -> option cell) l metric model,
  (forall a b c, In (a, b, c) l -> c = v a b) -> In (metric, model, v metric model) l -> long_get metric model l = v metric model.
Proof.
  intros v l metric model H I. unfold long_get. destruct (find _ l) as [[[a b] c]|] eqn:F.
  - apply find_some in F. destruct F as [F E]. cbn in E. apply andb_true_iff in E. destruct E as [E1 E2].
    apply String.eqb_eq in E1. apply String.eqb_eq in E2. subst. cbn. now apply H.
  - apply (find_none _ _ F) in I. cbn in I. now rewrite !String.eqb_refl in I.
Qed.

Lemma tables_main : forall sort_index datas models metrics open_json,
  (forall l, Permutation (sort_index l) l) -> NoDup models -> NoDup metrics ->
  exists value : string -> string -> string -> option cell,
  (forall data model metric, In metric metrics -> shows metrics (open_json data model) metric (value data model metric)) /\
  table1 datas models metrics open_json =
    flat_map (fun data => map (fun metric => (data, metric, map (fun model => (model, value data model metric)) models)) metrics) datas /\
  (datas <> [] -> Permutation (table2 sort_index datas models metrics open_json)
    (flat_map (fun model => map (fun metric => (metric, model, map (fun data => (data, value data model metric)) datas)) metrics) models)).
Proof.
  intros sort_index datas models metrics open_json P N1 N2.
  exists (fun data model metric => sget metric (model_cells metrics (open_json data model))).
  split; [intros; now apply cell_shows|]. split.
  - unfold table1. rewrite flat_map_concat_map. f_equal. apply map_ext. intros data. unfold frame. rewrite map_map. apply map_ext.
    intros metric. cbn. rewrite columns_eq by exact N1. now rewrite map_map.
  - intros ND. set (value data model metric := sget metric (model_cells metrics (open_json data model))).
    set (L data := flat_map (fun model => map (fun metric => (metric, model, value data model metric)) metrics) models).
    assert (EL : forall data, long_cells sort_index metrics (dataset_cells models metrics open_json data) = sort_index (L data)).
    { intros data. unfold long_cells. rewrite columns_eq by exact N1. rewrite map_map. cbn. unfold L. now rewrite flat_map_concat_map. }
    assert (IL : forall data a b c, In (a, b, c) (L data) <-> In b models /\ In a metrics /\ c = value data b a).
    { intros data a b c. unfold L. rewrite in_flat_map. split.
      - intros (m & Im & I). apply in_map_iff in I. destruct I as (k & E & Ik). injection E as <- <- <-. auto.
      - intros (Ib & Ia & ->). exists b. split; [exact Ib|]. apply in_map_iff. eauto. }
    assert (G : forall data model metric, In model models -> In metric metrics ->
      long_get metric model (sort_index (L data)) = value data model metric).
    { intros data model metric Im Ik. apply (long_get_value (fun a b => value data b a)).
      - intros a b c I. apply (Permutation_in _ (P _)) in I. apply IL in I. tauto.
      - apply (Permutation_in _ (Permutation_sym (P _))). apply IL. auto. }
    unfold table2. destruct datas as [|d0 ds]; [congruence|]. cbn [map].
    change ((d0, long_cells sort_index metrics (dataset_cells models metrics open_json d0))
      :: map (fun data => (data, long_cells sort_index metrics (dataset_cells models metrics open_json data))) ds)
      with (map (fun data => (data, long_cells sort_index metrics (dataset_cells models metrics open_json data))) (d0 :: ds)).
    rewrite EL. match goal with |- Permutation (map ?h _) _ => set (g := h) end.
    apply (Permutation_trans (Permutation_map g (P (L d0)))).
    apply (eq_ind_r (fun z => Permutation z _) (Permutation_refl _)).
    unfold L. rewrite !flat_map_concat_map, concat_map, map_map. f_equal. apply map_ext_in. intros model Im.
    rewrite map_map. apply map_ext_in. intros metric Ik. unfold g. cbn [fst snd]. f_equal. rewrite map_map. cbn [fst snd].
    f_equal; [f_equal; now apply G|]. apply map_ext. intros data. f_equal. rewrite EL. now apply G.
Qed.

(** ** The run script *)

Fixpoint distinctb (l : list string) : bool :=
  match l with [] => true | x :: r => negb (existsb (String.eqb x) r) && distinctb r end.
Lemma distinctb_ok : forall l, distinctb l = true -> NoDup l.
Proof.
  induction l as [|x l IH]; intros H; [constructor|]. cbn in H. apply andb_true_iff in H. destruct H as [A B].
  constructor; [|now apply IH]. intros I. apply negb_true_iff in A.
  assert (E : existsb (String.eqb x) l = true) by (apply existsb_exists; exists x; split; [exact I|apply String.eqb_refl]). congruence.
Qed.

Section Run.
  Context {C R : Type}.
  Variable search : string -> res C.
  Variable experiment : string -> (string -> option C) -> res R.
  Variable study : string -> string * bool -> (string -> option C) -> res R.

  Lemma searches : forall hs (s : @store C R), result_of (fold_left (run_search search) hs s) = result_of s /\
    forall h, csv_of (fold_left (run_search search) hs s) h = (if existsb (String.eqb h) hs then written (search h) (csv_of s h) else csv_of s h).
  Proof.
    induction hs as [|h0 hs IH]; intros s; [split; reflexivity|]. cbn [fold_left existsb].
    destruct (IH (run_search search s h0)) as [A B]. split.
    - rewrite A. unfold run_search. destruct (search h0); reflexivity.
    - intros h. rewrite B. unfold run_search. destruct (String.eqb_spec h h0) as [->|N]; cbn [orb].
      + destruct (search h0) as [c|e] eqn:E; cbn [csv_of written].
        * unfold put. rewrite String.eqb_refl. destruct (existsb _ hs); reflexivity.
        * destruct (existsb _ hs); reflexivity.
      + destruct (search h0); cbn [csv_of]; [|reflexivity]. unfold put. apply String.eqb_neq in N. rewrite N. reflexivity.
  Qed.

  Lemma base_inj : forall a b, glue [a; ".json"] = glue [b; ".json"] -> a = b.
  Proof.
    intros a b E. cbn in E. revert b E. induction a as [|c a IH]; intros [|d b] E; cbn in E; auto.
    - injection E as <- E. exfalso. apply (f_equal String.length) in E. rewrite len_app in E. cbn in E. lia.
    - injection E as -> E. exfalso. apply (f_equal String.length) in E. rewrite len_app in E. cbn in E. lia.
    - injection E as -> E. f_equal. now apply IH.
  Qed.

  Lemma experiments : forall ms (s : @store C R), let s' := fold_left (run_experiment experiment) ms s in
    csv_of s' = csv_of s /\
    (forall m, In m ms -> result_of s' (glue [m; ".json"]) = written (experiment m (csv_of s)) (result_of s (glue [m; ".json"]))) /\
    (forall f, (forall m, In m ms -> f <> glue [m; ".json"]) -> result_of s' f = result_of s f).
  Proof.
    induction ms as [|m0 ms IH]; intros s; [split; [reflexivity|split; [intros m []|reflexivity]]|]. cbn [fold_left].
    destruct (IH (run_experiment experiment s m0)) as (A & B & D).
    assert (CS : csv_of (run_experiment experiment s m0) = csv_of s) by (unfold run_experiment; destruct (experiment m0 (csv_of s)); reflexivity).
    rewrite CS in *. split; [exact A|].
    assert (R0 : forall f, result_of (run_experiment experiment s m0) f =
      if String.eqb f (glue [m0; ".json"]) then written (experiment m0 (csv_of s)) (result_of s f) else result_of s f).
    { intros f. unfold run_experiment. destruct (experiment m0 (csv_of s)); cbn [result_of written]; [unfold put|]; destruct (String.eqb f _); reflexivity. }
    split.
    - intros m I. destruct (in_dec string_dec m ms) as [I'|N'].
      + rewrite (B m I'), R0. destruct (String.eqb_spec (glue [m; ".json"]) (glue [m0; ".json"])) as [E|_]; [|reflexivity].
        apply base_inj in E. subst m. destruct (experiment m0 (csv_of s)); reflexivity.
      + destruct I as [->|I]; [|contradiction]. rewrite D.
        * rewrite R0, String.eqb_refl. reflexivity.
        * intros m' I' E. apply base_inj in E. subst. contradiction.
    - intros f N. rewrite D by (intros; apply N; now right). rewrite R0.
      destruct (String.eqb_spec f (glue [m0; ".json"])) as [E|_]; [|reflexivity]. now destruct (N m0 (or_introl eq_refl)).
  Qed.

  Lemma settings : forall m options (s : @store C R), let s' := run_settings study m s options in
    let file o := study_file m (fst o) (snd o) in
    csv_of s' = csv_of s /\
    (forall f, ~ In f (map file options) -> result_of s' f = result_of s f) /\
    (NoDup (map file options) -> forall pre o post, options = pre ++ o :: post ->
      ((forall o', In o' pre -> exists x, study m o' (csv_of s) = Ok x) ->
        result_of s' (file o) = written (study m o (csv_of s)) (result_of s (file o))) /\
      ((exists o' e, In o' pre /\ study m o' (csv_of s) = Err e) -> result_of s' (file o) = result_of s (file o))).
  Proof.
    intros m. induction options as [|o0 options IH]; intros s.
    - split; [reflexivity|]. split; [reflexivity|]. intros _ [|? ?] ? ? E; discriminate.
    - cbv zeta in *. cbn [run_settings]. destruct (study m o0 (csv_of s)) as [x|e] eqn:E0.
      + specialize (IH (mkStore (csv_of s) (put (study_file m (fst o0) (snd o0)) x (result_of s)))). destruct IH as (A & B & D).
        cbn [csv_of result_of] in A, B, D. split; [exact A|]. split.
        * intros f N. cbn [map] in N. rewrite B by (intros I; apply N; now right). unfold put.
          destruct (String.eqb_spec f (study_file m (fst o0) (snd o0))) as [->|_]; [exfalso; apply N; now left|reflexivity].
        * intros ND pre o post E. cbn [map] in ND. inversion ND as [|? ? N1 N2]; subst.
          destruct pre as [|p pre]; cbn [app] in E; injection E as <- E.
          -- split; [|intros (o' & e & [] & _)]. intros _. subst options. rewrite B by exact N1. unfold put.
             rewrite String.eqb_refl, E0. reflexivity.
          -- assert (NE : study_file m (fst o) (snd o) <> study_file m (fst o0) (snd o0)).
             { intros Ef. apply N1. rewrite <- Ef, E. apply (in_map (fun o => study_file m (fst o) (snd o))). apply in_elt. }
             apply String.eqb_neq in NE. destruct (D N2 pre o post E) as [D1 D2]. unfold put in D1, D2. rewrite NE in D1, D2. split.
             ++ intros Hp. apply D1. intros o' I. apply Hp. now right.
             ++ intros (o' & e & I & Ee). apply D2. exists o', e. split; [|exact Ee]. destruct I as [<-|I]; [congruence|exact I].
      + split; [reflexivity|]. split; [reflexivity|]. intros ND pre o post E. destruct pre as [|p pre]; cbn [app] in E; injection E as <- E.
        * split; [|reflexivity]. intros _. rewrite E0. reflexivity.
        * split; [|reflexivity]. intros Hp. destruct (Hp o0 (or_introl eq_refl)) as [x Ex]. congruence.
  Qed.

  (** The files of the script. *)
  Definition study_names (m : string) : list string := map (fun o => study_file m (fst o) (snd o)) study_options.

  Lemma names_distinct : NoDup (map (fun m => glue [m; ".json"]) run_models ++ study_names "PSIRec" ++ study_names "TIRecA").
  Proof.
    apply distinctb_ok. vm_compute. reflexivity.
  Qed.

  Lemma run_main : forall s : @store C R,
    let s' := run_all search experiment study run_h_models run_models run_as_models study_options s in
    (forall h, In h run_h_models -> csv_of s' h = written (search h) (csv_of s h)) /\
    (forall m, In m run_models -> let f := (m ++ ".json")%string in
       result_of s' f = written (experiment m (csv_of s')) (result_of s f)) /\
    (forall m pre o post, In m run_as_models -> study_options = pre ++ o :: post -> let f := study_file m (fst o) (snd o) in
       ((forall o', In o' pre -> exists x, study m o' (csv_of s') = Ok x) ->
          result_of s' f = written (study m o (csv_of s')) (result_of s f)) /\
       ((exists o' e, In o' pre /\ study m o' (csv_of s') = Err e) -> result_of s' f = result_of s f)).
  Proof.
    intros s s'. pose proof names_distinct as ND.
    set (s1 := fold_left (run_search search) run_h_models s).
    set (s2 := fold_left (run_experiment experiment) run_models s1).
    set (s3 := run_settings study "PSIRec" s2 study_options).
    assert (Es : s' = run_settings study "TIRecA" s3 study_options) by reflexivity.
    destruct (searches run_h_models s) as [A1 A2]. fold s1 in A1, A2.
    destruct (experiments run_models s1) as (B1 & B2 & B3). fold s2 in B1, B2, B3.
    destruct (settings "PSIRec" study_options s2) as (D1 & D2 & D3). fold s3 in D1, D2, D3.
    destruct (settings "TIRecA" study_options s3) as (F1 & F2 & F3). rewrite <- Es in F1, F2, F3.
    assert (CS : csv_of s' = csv_of s1) by congruence.
    assert (CS2 : csv_of s3 = csv_of s') by congruence.
    assert (NB : forall m, In m run_models -> ~ In (glue [m; ".json"]) (study_names "PSIRec") /\ ~ In (glue [m; ".json"]) (study_names "TIRecA")).
    { intros m I. assert (X : forall y, In y (study_names "PSIRec" ++ study_names "TIRecA") -> glue [m; ".json"] <> y).
      { intros y Iy E. subst y. clear - ND I Iy.
        apply (in_map (fun m => glue [m; ".json"])) in I. revert ND I Iy.
        generalize (map (fun m => glue [m; ".json"]) run_models) (study_names "PSIRec" ++ study_names "TIRecA") (glue [m; ".json"]).
        clear. intros l l' x N I I'. induction l as [|y l IH]; [destruct I|]. cbn in N. inversion N; subst.
        destruct I as [->|I]; [|now apply IH]. rewrite in_app_iff in *. tauto. }
      split; intros J; apply (X (glue [m; ".json"])); auto; rewrite in_app_iff; auto. }
    assert (NS : NoDup (study_names "PSIRec") /\ NoDup (study_names "TIRecA") /\
                 forall f, In f (study_names "PSIRec") -> ~ In f (study_names "TIRecA")).
    { clear - ND. revert ND. generalize (map (fun m => glue [m; ".json"]) run_models) (study_names "PSIRec") (study_names "TIRecA").
      intros l a b N. induction l as [|y l IH]; [|inversion N; now apply IH]. cbn in N. induction a as [|z a IH].
      - split; [constructor|]. split; [exact N|]. intros f [].
      - cbn in N. inversion N as [|? ? N1 N2]; subst. destruct (IH N2) as (X & Y & W). rewrite in_app_iff in N1.
        split; [constructor; tauto|]. split; [exact Y|]. intros f [<-|If]; [tauto|now apply W]. }
    destruct NS as (NP & NT & NPT).
    split; [|split].
    - intros h I. rewrite CS, A2. destruct I as [<-|[<-|[]]]; reflexivity.
    - intros m I f. destruct (NB m I) as [N1 N2].
      assert (Ef : f = glue [m; ".json"]) by (unfold f; cbn; now rewrite ?app_nil). rewrite Ef.
      rewrite F2 by exact N2. rewrite D2 by exact N1. rewrite (B2 m I), A1, CS. reflexivity.
    - intros m pre o post I E f.
      assert (If : In f (study_names m)) by (unfold study_names; rewrite E; apply (in_map (fun o => study_file m (fst o) (snd o))); apply in_elt).
      assert (NO : forall m', In m' run_models -> f <> glue [m'; ".json"]).
      { intros m' I' Ef. destruct (NB m' I') as [N1 N2]. rewrite <- Ef in N1, N2. destruct I as [<-|[<-|[]]]; contradiction. }
      assert (O2 : result_of s2 f = result_of s f) by (rewrite (B3 f NO); now rewrite A1).
      destruct I as [<-|[<-|[]]].
      + destruct (D3 NP pre o post E) as [G1 G2]. fold f in G1, G2. rewrite O2 in G1, G2.
        rewrite (F2 f) by (now apply NPT). rewrite <- D1, CS2 in G1, G2. split; assumption.
      + assert (O3 : result_of s3 f = result_of s f).
        { rewrite D2; [exact O2|]. intros J. now apply (NPT f J). }
        destruct (F3 NT pre o post E) as [G1 G2]. fold f in G1, G2. rewrite O3, CS2 in G1. rewrite O3, CS2 in G2. split; assumption.
  Qed.
End Run.
