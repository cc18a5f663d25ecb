(** The graphs of the script, the tables and the run script. *)
From Coq Require Import ZArith QArith List Bool String Ascii Lia Sorting.Permutation.
From Verif Require Import Prelude Dynamic_model Report_model Report_spec Report_str Report_graph Report_names.
Import ListNotations.
Local Open Scope string_scope.
Local Open Scope list_scope.

Lemma fold_same : forall A B (f g : A -> B -> A) l a, (forall a b, f a b = g a b) -> fold_left f l a = fold_left g l a.
Proof. intros A B f g l. induction l as [|b l IH]; intros a H; cbn; [reflexivity|]. rewrite H. now apply IH. Qed.

Lemma mapM_all : forall A B (f : A -> res B) (g : A -> B) l, (forall x, In x l -> f x = Ok (g x)) -> mapM f l = Ok (map g l).
Proof.
  intros A B f g. induction l as [|x l IH]; intros H; [reflexivity|]. cbn. rewrite (H x) by now left. cbn.
  rewrite IH by (intros; apply H; now right). reflexivity.
Qed.

Lemma mapM_fails : forall A B (f : A -> res B) l x e, In x l -> f x = Err e -> exists e' x', In x' l /\ f x' = Err e' /\ mapM f l = Err e'.
Proof.
  intros A B f. induction l as [|y l IH]; intros x e I E; [destruct I|]. cbn.
  destruct (f y) as [z|e1] eqn:Ey.
  - destruct I as [->|I]; [congruence|]. destruct (IH x e I E) as (e' & x' & I' & E' & M). exists e', x'. rewrite M. cbn. auto.
  - exists e1, y. cbn. auto.
Qed.

(** ** The models of the configuration *)

Lemma load_ok : forall open_json dir models (results : string -> json), NoDup models ->
  (forall m, In m models -> open_json (in_dir dir (m ++ ".json")) = Ok (results m)) ->
  load_models open_json dir models = Ok (map (fun m => (m, results m)) models).
Proof.
  intros open_json dir models results ND H. unfold load_models.
  rewrite (fold_same _ _ _ (fun acc e => do d <- acc; do kv <- (do j <- open_json (in_dir dir (e ++ ".json")); Ok (e, j)); Ok (sset (fst kv) (snd kv) d))).
  - rewrite (assign_loop _ _ _ _ (map (fun m => (m, results m)) models)).
    + reflexivity.
    + apply mapM_all. intros m I. rewrite (H m I). reflexivity.
    + cbn. rewrite map_map. cbn. rewrite map_id. exact ND.
  - intros [d|e] m1; [|reflexivity]. cbn [bind]. unfold in_dir. cbn [glue fold_right]. rewrite app_nil.
    destruct (open_json (dir ++ "/" ++ m1 ++ ".json")%string); reflexivity.
Qed.

Lemma load_err : forall open_json dir models m e, In m models -> open_json (in_dir dir (m ++ ".json")) = Err e ->
  exists e', load_models open_json dir models = Err e'.
Proof.
  intros open_json dir models m e I E. unfold load_models.
  rewrite (fold_same _ _ _ (fun acc e => do d <- acc; do kv <- (do j <- open_json (in_dir dir (e ++ ".json")); Ok (e, j)); Ok (sset (fst kv) (snd kv) d))).
  - destruct (mapM_fails _ _ (fun m => do j <- open_json (in_dir dir (m ++ ".json")); Ok (m, j)) models m e I) as (e' & x' & _ & _ & M).
    + rewrite E. reflexivity.
    + exists e'. now apply assign_loop_fail.
  - intros [d|e1] m1; [|reflexivity]. cbn [bind]. unfold in_dir. cbn [glue fold_right]. rewrite app_nil.
    destruct (open_json (dir ++ "/" ++ m1 ++ ".json")%string); reflexivity.
Qed.

Lemma model_graphs : forall digits open_json graphics_dir results_dir dataset models topk swl (results : string -> json) (steps : string -> nat),
  NoDup models -> Forall (fun w => (0 < w)%nat) swl ->
  (forall m, In m models -> open_json (in_dir results_dir (m ++ ".json")) = Ok (results m) /\ result_of_steps (steps m) (results m)) ->
  let out := graphs_of_models digits open_json graphics_dir results_dir dataset models topk swl in
  (models = [] -> out = ([], Some IndexError)) /\
  ((exists m m', In m models /\ In m' models /\ steps m <> steps m') -> out = ([], Some ValueError)) /\
  (models <> [] -> (forall m m', In m models -> In m' models -> steps m = steps m') ->
    exists figs, out = (figs, None) /\
      experiment_figures digits graphics_dir (dataset ++ "_") swl (map (fun m => (m, results m)) models) figs).
Proof.
  intros digits open_json gd rd dataset models topk swl results steps ND W H out.
  assert (E : out = experiment_plots digits gd (map (fun m => (m, results m)) models) (dataset ++ "_") topk swl).
  { unfold out, graphs_of_models. rewrite (load_ok open_json rd models results ND) by (intros; now apply H). reflexivity. }
  rewrite E. clear E out. split; [|split].
  - intros ->. reflexivity.
  - intros (m & m' & I & I' & N).
    apply (experiment_plots_differ digits gd _ _ topk swl (m, results m) (m', results m') (steps m) (steps m')); auto.
    + intros x Ix. apply in_map_iff in Ix. destruct Ix as (m1 & <- & I1). exists (steps m1). apply (H m1 I1).
    + apply in_map_iff. eauto.
    + apply in_map_iff. eauto.
    + apply (H m I).
    + apply (H m' I').
  - intros N S. destruct models as [|m0 ms]; [congruence|].
    apply (experiment_plots_same digits gd _ _ topk swl (steps m0)); auto.
    + discriminate.
    + intros r Ir. apply in_map_iff in Ir. destruct Ir as (m1 & <- & I1). cbn [snd].
      rewrite (S m0 m1); [|now left|exact I1]. apply (H m1 I1).
Qed.

Lemma missing_result : forall digits open_json graphics_dir results_dir dataset models topk swl m e,
  In m models -> open_json (in_dir results_dir (m ++ ".json")) = Err e ->
  exists e', graphs_of_models digits open_json graphics_dir results_dir dataset models topk swl = ([], Some e').
Proof.
  intros digits open_json gd rd dataset models topk swl m e I E.
  destruct (load_err open_json rd models m e I E) as [e' L]. exists e'. unfold graphs_of_models. now rewrite L.
Qed.

(** ** The ablation study *)

Definition study_step (mapper : string -> res string) (e : entry) : res (string * json) :=
  do label <- mapper (stem (e_path e)); do j <- e_json e; Ok (label, j).


Lemma collect_as_loop : forall target mapper listing,
  collect_study target mapper listing =
  fold_left (fun acc e => do d <- acc; do kv <- study_step mapper e; Ok (sset (fst kv) (snd kv) d))
    (filter (fun e => e_is_file e && contains target (e_path e)) listing) (Ok []).
Proof.
  intros target mapper listing. unfold collect_study. apply fold_same. intros [d|x] e; [|reflexivity]. cbn [bind].
  unfold study_step. destruct (mapper _) as [label|]; [|reflexivity]. cbn [bind]. destruct (e_json e); reflexivity.
Qed.

Lemma target_no_slash : forall target mapper, study_of target mapper -> free "/" target /\ target <> "".
Proof. intros target mapper []; (split; [not_in|discriminate]). Qed.

Lemma filter_same : forall A (f g : A -> bool) l, (forall x, In x l -> f x = g x) -> filter f l = filter g l.
Proof.
  intros A f g. induction l as [|x l IH]; intros H; [reflexivity|]. cbn. rewrite (H x) by now left.
  rewrite IH by (intros; apply H; now right). reflexivity.
Qed.

Lemma in_dir_inj : forall dir a b, in_dir dir a = in_dir dir b -> a = b.
Proof. intros dir a b. unfold in_dir. induction dir as [|c d IH]; cbn; intros E; injection E; auto. Qed.

Lemma selected_files : forall target mapper dir listing files, study_of target mapper -> ~ occurs target dir -> listed target dir listing files ->
  filter (fun e => e_is_file e && contains target (e_path e)) listing = files.
Proof.
  intros target mapper dir listing files M D (_ & P & keep & -> & K). destruct (target_no_slash _ _ M) as [F _].
  apply filter_same. intros e I. destruct (K e I) as [K1 K2]. destruct (P e I) as (name & Fn & En).
  apply eq_true_iff_eq. rewrite andb_true_iff, contains_iff. split.
  - intros [A B]. apply K2. split; [exact A|]. exists name. split; [exact Fn|]. split; [exact En|]. rewrite En in B. unfold in_dir in B.
    apply (occurs_around "/" target dir name F) in B. tauto.
  - intros A. destruct (K1 A) as (B & name' & _ & E' & O). split; [exact B|]. rewrite E'. unfold in_dir. apply occurs_right.
    apply (occurs_right target "/" name' O).
Qed.

Lemma labelled_unique : forall target dir files results, NoDup (map e_path files) -> labelled target dir files results -> NoDup (map fst results).
Proof.
  intros target dir files results N L. induction L as [|e r files results (name & E & S & _) L IH]; [constructor|].
  cbn in *. inversion N as [|? ? N1 N2]; subst. constructor; [|now apply IH]. intros I. apply N1.
  clear - I L E S. induction L as [|e' r' files results (name' & E' & S' & _) L IH]; [destruct I|].
  destruct I as [I|I]; [left|right; now apply IH].
  rewrite I in S'. rewrite (label_unique _ _ _ _ S' S) in E'. congruence.
Qed.

Lemma labelled_mapM : forall target mapper dir files results, study_of target mapper -> labelled target dir files results ->
  mapM (study_step mapper) files = Ok results.
Proof.
  intros target mapper dir files results M L. induction L as [|e r files results (name & E & S & J) L IH]; [reflexivity|].
  cbn. assert (X : study_step mapper e = Ok r).
  { unfold study_step. rewrite E, (mapper_ok _ _ _ _ _ M S), J. destruct r; reflexivity. }
  rewrite X, IH. reflexivity.
Qed.

Lemma nodup_filter : forall A B (f : A -> B) keep l, NoDup (map f l) -> NoDup (map f (filter keep l)).
Proof.
  intros A B f keep. induction l as [|x l IH]; intros N; [constructor|]. cbn in *. inversion N as [|? ? N1 N2]; subst.
  destruct (keep x); [|now apply IH]. cbn. constructor; [|now apply IH]. intros I. apply N1.
  apply in_map_iff in I. destruct I as (y & Ey & Iy). apply filter_In in Iy. apply in_map_iff. exists y. tauto.
Qed.

Lemma study_graphs_main : forall digits target mapper listing files results study_dir results_dir dataset topk,
  study_of target mapper -> ~ occurs target results_dir -> listed target results_dir listing files ->
  labelled target results_dir files results ->
  (forall r, In r results -> exists n, (0 < n)%nat /\ result_of_steps n (snd r)) ->
  let out := study_graphs digits target mapper listing study_dir dataset topk in
  NoDup (map fst results) /\
  (files = [] -> out = ([], Some IndexError)) /\
  ((exists r r' n n', In r results /\ In r' results /\ result_of_steps n (snd r) /\ result_of_steps n' (snd r') /\
      (0 < n)%nat /\ (0 < n')%nat /\ n <> n') -> out = ([], Some ValueError)) /\
  (forall n, files <> [] -> (forall r, In r results -> result_of_steps n (snd r)) ->
    exists figs, out = (figs, None) /\ study_figures digits study_dir (target ++ "_" ++ dataset ++ "_") results figs).
Proof.
  intros digits target mapper listing files results sd rd dataset topk M D L R H out.
  assert (ND : NoDup (map fst results)).
  { apply (labelled_unique target rd files); [|exact R]. destruct L as (N & _ & keep & -> & _). now apply nodup_filter. }
  assert (E : out = ablation_plots digits sd results (target ++ "_" ++ dataset ++ "_") topk).
  { unfold out, study_graphs. rewrite collect_as_loop, (selected_files _ _ _ _ _ M D L).
    rewrite (assign_loop _ _ _ _ results); [reflexivity|eapply labelled_mapM; eauto|exact ND]. }
  split; [exact ND|]. rewrite E. clear E out. split; [|split].
  - intros ->. inversion R. reflexivity.
  - intros (r & r' & n & n' & I & I' & A & A' & P & P' & N).
    apply (ablation_plots_differ digits sd results _ topk r r' n n'); auto.
    intros x Ix. destruct (H x Ix) as (k & _ & Hk). eauto.
  - intros n N A. apply (ablation_plots_same digits sd results _ topk n); [|exact A].
    intros ->. inversion R. congruence.
Qed.

Lemma stray_file : forall digits target mapper listing study_dir dataset topk e dir x,
  study_of target mapper -> In e listing -> e_is_file e = true ->
  e_path e = in_dir dir (x ++ ".json") -> occurs target (in_dir dir x) -> free "/" x -> ~ occurs ".json" x ->
  x <> "TIRec" -> x <> "TIRecA" -> x <> "PSIRec" -> (forall m y b, x <> (m ++ "_std_" ++ y ++ "_int_" ++ b)%string) ->
  (forall e', In e' listing -> exists j, e_json e' = Ok j) ->
  study_graphs digits target mapper listing study_dir dataset topk = ([], Some ValueError).
Proof.
  intros digits target mapper listing sd dataset topk e dir x M I Fe Pe Od Fx Jx N1 N2 N3 N4 J.
  assert (O : occurs target (e_path e)).
  { rewrite Pe. unfold in_dir in *. rewrite <- app_assoc_s, <- app_assoc_s. apply occurs_left. now rewrite app_assoc_s. }
  assert (Sx : stem (e_path e) = x) by (rewrite Pe; now apply stem_json). rewrite <- Sx in N1, N2, N3, N4.
  unfold study_graphs. rewrite collect_as_loop.
  set (fs := filter _ listing).
  assert (Ie : In e fs) by (apply filter_In; split; [exact I|]; rewrite Fe; cbn; now apply contains_iff).
  assert (Me : mapper (stem (e_path e)) = Err ValueError).
  { destruct (study_label_outcome (stem (e_path e))) as [(m & y & b & E)|E]; [now destruct (N4 m y b)|].
    destruct M; unfold map_tensor_name, map_matrix_name;
      repeat match goal with |- context [String.eqb ?a ?b] => destruct (String.eqb_spec a b); [congruence|] end; exact E. }
  destruct (mapM_fails _ _ (study_step mapper) fs e ValueError Ie) as (e' & x' & I' & E' & F).
  { unfold study_step. now rewrite Me. }
  rewrite (assign_loop_fail _ _ _ _ e'); [|exact F]. f_equal. f_equal.
  apply filter_In in I'. destruct I' as [I' _]. destruct (J x' I') as [j Ej]. unfold study_step in E'. rewrite Ej in E'.
  destruct (mapper (stem (e_path x'))) as [l|ex] eqn:Mx; cbn in E'; [discriminate|]. injection E' as <-. eapply mapper_errors; eauto.
Qed.

(** The parts of the script. *)
Lemma script_parts : forall digits open_json listing middle graphics_dir study_dir results_dir dataset models topk swl f1 f3 f4,
  graphs_of_models digits open_json graphics_dir results_dir dataset models topk swl = (f1, None) ->
  snd middle = None ->
  study_graphs digits "TIRec" map_tensor_name listing study_dir dataset topk = (f3, None) ->
  study_graphs digits "PSIRec" map_matrix_name listing study_dir dataset topk = (f4, None) ->
  prepare_graphs digits open_json listing middle graphics_dir study_dir results_dir dataset models topk swl =
    (f1 ++ fst middle ++ f3 ++ f4, None).
Proof.
  intros digits open_json listing middle gd sd rd dataset models topk swl f1 f3 f4 E1 E2 E3 E4.
  unfold prepare_graphs, after. rewrite E1, E3, E4. cbn [fst snd]. rewrite E2. reflexivity.
Qed.

Lemma script_stops : forall digits open_json listing middle graphics_dir study_dir results_dir dataset models topk swl e,
  graphs_of_models digits open_json graphics_dir results_dir dataset models topk swl = ([], Some e) ->
  prepare_graphs digits open_json listing middle graphics_dir study_dir results_dir dataset models topk swl = ([], Some e).
Proof.
  intros digits open_json listing middle gd sd rd dataset models topk swl e E. unfold prepare_graphs, after at 1.
  rewrite E. reflexivity.
Qed.
