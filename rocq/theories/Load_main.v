(** Proofs about the setup script. *)
From Coq Require Import List Bool String Lia.
From Verif Require Import Prelude Load_model Load_spec.
Import ListNotations.

Lemma path_eqb_eq p q : path_eqb p q = true <-> p = q.
Proof. unfold path_eqb. destruct (list_eq_dec string_dec p q) as [E|E]; split; intro H; auto; discriminate. Qed.
Lemma path_eqb_refl p : path_eqb p p = true.
Proof. now apply path_eqb_eq. Qed.
Lemma path_eqb_neq p q : p <> q -> path_eqb p q = false.
Proof. intro N. destruct (path_eqb p q) eqn:E; auto. apply path_eqb_eq in E. contradiction. Qed.
Lemma below_app d r : below d (d ++ r) = Some r.
Proof. induction d as [|x d IH]; cbn; auto. now rewrite String.eqb_refl. Qed.
Lemma below_Some d p r : below d p = Some r -> p = d ++ r.
Proof.
  revert p. induction d as [|x d IH]; intros p E; cbn in E; [now injection E|]. destruct p as [|y p]; [discriminate|].
  destruct (String.eqb_spec x y) as [->|]; [|discriminate]. cbn. f_equal. now apply IH.
Qed.
Lemma inside_iff d p : inside d p = true <-> exists x r, p = d ++ x :: r.
Proof.
  unfold inside. split.
  - destruct (below d p) as [[|x r]|] eqn:E; try discriminate. apply below_Some in E. eauto.
  - intros (x & r & ->). now rewrite below_app.
Qed.

Section Disk.
  Context {C : Type}.
  Notation disk := (@disk C).
  Notation step := (@step C).

  Lemma look_put (d : disk) p n q : p <> [] -> look (put d p n) q = if path_eqb q p then Some n else look d q.
  Proof.
    intro NE. destruct q as [|x q]; [cbn; destruct p; [congruence|reflexivity]|]. unfold look, put. cbn [find fst].
    destruct (path_eqb (x :: q) p) eqn:E; [reflexivity|].
    induction d as [|[a b] d IH]; cbn; auto. destruct (path_eqb p a) eqn:F; cbn.
    - apply path_eqb_eq in F. subst a. rewrite E. exact IH.
    - destruct (path_eqb (x :: q) a); auto.
  Qed.
  Lemma look_remove (d : disk) p q : p <> [] -> look (remove d p) q = if path_eqb q p then None else look d q.
  Proof.
    intro NE. destruct q as [|x q]; [cbn; destruct p; [congruence|reflexivity]|]. unfold look, remove.
    destruct (path_eqb (x :: q) p) eqn:E.
    - apply path_eqb_eq in E. subst p. induction d as [|[a b] d IH]; cbn; auto. destruct (path_eqb (x :: q) a) eqn:F; cbn; auto. now rewrite F.
    - induction d as [|[a b] d IH]; cbn; auto. destruct (path_eqb p a) eqn:F; cbn.
      + apply path_eqb_eq in F. subst a. rewrite E. exact IH.
      + destruct (path_eqb (x :: q) a); auto.
  Qed.
  Lemma look_In (d : disk) p n : p <> [] -> look d p = Some n -> In (p, n) d.
  Proof.
    intros NE E. unfold look in E. destruct p as [|x p]; [congruence|]. destruct (find _ d) as [[a b]|] eqn:F; [|discriminate].
    injection E as <-. apply find_some in F as [I F]. apply path_eqb_eq in F. cbn in F. now subst a.
  Qed.
  Lemma In_look (d : disk) p n : In (p, n) d -> look d p <> None.
  Proof.
    intro I. destruct p as [|x p]; [discriminate|]. unfold look. destruct (find _ d) eqn:F; [discriminate|].
    apply (find_none _ _ F) in I. cbn in I. now rewrite path_eqb_refl in I.
  Qed.

  (** * What stays *)
  Definition keeps (p : path) (s : step) : Prop := forall d, look d p <> None -> look (fst (s d)) p <> None.
  Lemma keeps_done p : keeps p done.
  Proof. intros d H. exact H. Qed.
  Lemma keeps_andthen p s t : keeps p s -> keeps p t -> keeps p (andthen s t).
  Proof. intros S T d H. unfold andthen. specialize (S d H). destruct (s d) as [d' [e|]]; cbn in *; auto. Qed.
  Lemma keeps_withres p {X} (x : res X) t : (forall a, keeps p (t a)) -> keeps p (withres x t).
  Proof. intros T. destruct x; cbn; [apply T|]. intros d H. exact H. Qed.
  Lemma keeps_foreach p {X} (l : list X) s : (forall x, keeps p (s x)) -> keeps p (foreach l s).
  Proof. intros H. induction l as [|x l IH]; cbn; [apply keeps_done|]. now apply keeps_andthen. Qed.
  Lemma keeps_put p q n (d : disk) : q <> [] -> look d p <> None -> look (put d q n) p <> None.
  Proof. intros NE H. rewrite look_put by exact NE. destruct (path_eqb p q); congruence. Qed.
  Lemma keeps_mkdir p q : keeps p (mkdir q).
  Proof.
    unfold mkdir. generalize (@nil string). induction q as [|x q IH]; intros made; cbn; [apply keeps_done|].
    apply keeps_andthen; auto. intros d H. unfold mkdir_one. destruct (look d (made ++ [x])) as [[|c]|]; cbn; auto.
    apply keeps_put; auto. now destruct made.
  Qed.
  Lemma keeps_write p q c : q <> [] -> keeps p (write q c).
  Proof.
    intros NE d H. unfold write. destruct (look d (removelast q)) as [[|?]|]; cbn; auto.
    destruct (look d q) as [[|?]|]; cbn; auto; apply keeps_put; auto.
  Qed.
  Lemma keeps_unlink p q : q <> [] -> p <> q -> keeps p (unlink q).
  Proof.
    intros NE N d H. unfold unlink. destruct (look d q) as [[|?]|]; cbn; auto; rewrite look_remove by exact NE; now rewrite (path_eqb_neq _ _ N).
  Qed.

  Notation ML := ["data"; "ml_20m"]%string.
  Definition full (d : disk) : Prop := look d ML <> None /\ exists x r, look d (ML ++ x :: r) <> None.

  Lemma full_rename d : full d -> exists e, rename ["data"; "ml-20m"]%string ML d = (d, Some e).
  Proof.
    intros [F (x & r & H)]. unfold rename. destruct (look d ["data"; "ml-20m"]%string) as [[|?]|]; [|eexists; reflexivity|eexists; reflexivity].
    destruct (look d ML) as [[|?]|]; [|eexists; reflexivity|congruence].
    assert (E : existsb (fun x => inside ML (fst x)) d = true); [|rewrite E; eexists; reflexivity].
    apply existsb_exists. destruct (look d (ML ++ x :: r)) as [n|] eqn:L; [|congruence].
    apply look_In in L; [|discriminate]. eexists. split; [exact L|]. apply inside_iff. exists x, r. reflexivity.
  Qed.


  Definition stays_full (s : step) : Prop := forall d, full d -> full (fst (s d)).
  Lemma keeps_full (s : step) : (forall p, below ML p <> None -> keeps p s) -> stays_full s.
  Proof.
    intros K d [F (x & r & H)]. split.
    - apply K; [|exact F]. change ML with (ML ++ []) at 2. rewrite below_app. discriminate.
    - exists x, r. apply K; [|exact H]. rewrite below_app. discriminate.
  Qed.
  Definition stuck (s : step) : Prop := forall d, full d -> full (fst (s d)) /\ snd (s d) <> None.
  Lemma stuck_andthen s t : stays_full s -> stuck t -> stuck (andthen s t).
  Proof. intros K T d F. specialize (K d F). unfold andthen. destruct (s d) as [d' [e|]]; cbn in *; [split; [auto|discriminate]|]. now apply T. Qed.
  Lemma stuck_withres {X} (x : res X) t : (forall a, stuck (t a)) -> stuck (withres x t).
  Proof. intros T. destruct x; cbn; [apply T|]. intros d F. split; [exact F|discriminate]. Qed.

  Ltac off := let E := fresh in intro E; subst; match goal with H : below _ _ <> None |- _ => now apply H end.
  Section World.
    Variable w : world C.
    Notation one x := (andthen (mkdir ("data"%string :: fst (fst x))) (write (("data"%string :: fst (fst x)) ++ [snd (fst x)]) (snd x))).
    Lemma keeps_extract p (entries : list (path * string * C)) : keeps p (foreach entries (fun x => one x)).
    Proof. apply keeps_foreach. intro x. apply keeps_andthen; [apply keeps_mkdir|]. apply keeps_write. discriminate. Qed.
    Lemma ml_stuck : stuck (run_ml20m w).
    Proof.
      unfold run_ml20m, load_ml20m. apply stuck_andthen; [apply keeps_full; intros; apply keeps_mkdir|].
      apply stuck_withres. intro zip. apply stuck_andthen; [apply keeps_full; intros; apply keeps_write; discriminate|].
      apply stuck_withres. intro entries. apply stuck_andthen; [apply keeps_full; intros; apply keeps_extract|].
      apply stuck_andthen; [apply keeps_full; intros; apply keeps_unlink; [discriminate|off]|].
      intros d F. destruct (full_rename d F) as [e ->]. split; [exact F|discriminate].
    Qed.
    Lemma run_stuck d : full d -> run w d = run_ml20m w d.
    Proof.
      intro F. destruct (ml_stuck d F) as [_ S]. unfold run, load_data. change (load_ml20m (w_fetch w) (w_unzip w)) with (run_ml20m w).
      unfold andthen at 1. destruct (run_ml20m w d) as [d' [e|]]; [reflexivity|]. now cbn in S.
    Qed.

    (** Only an error of the operating system, once the download and the archive are fine. *)
    Definition os_only (s : step) : Prop := forall d e, snd (s d) = Some e -> e = OSError.
    Lemma os_andthen s t : os_only s -> os_only t -> os_only (andthen s t).
    Proof. intros S T d e. unfold andthen. specialize (S d). destruct (s d) as [d' [f|]]; cbn in *; auto. apply T. Qed.
    Lemma os_mkdir q : os_only (mkdir q).
    Proof.
      unfold mkdir. generalize (@nil string). induction q as [|x q IH]; intros made; cbn; [discriminate|].
      apply os_andthen; auto. intros d e. unfold mkdir_one. destruct (look d (made ++ [x])) as [[|c]|]; cbn; congruence.
    Qed.
    Lemma os_write q c : os_only (write q c).
    Proof. intros d e. unfold write. destruct (look d (removelast q)) as [[|?]|], (look d q) as [[|?]|]; cbn; congruence. Qed.
    Lemma os_unlink q : os_only (unlink q).
    Proof. intros d e. unfold unlink. destruct (look d q) as [[|?]|]; cbn; congruence. Qed.
    Lemma os_rename p q : os_only (rename p q).
    Proof. intros d e. unfold rename. destruct (look d p) as [[|?]|], (look d q) as [[|?]|]; cbn; try congruence. destruct (existsb _ d); cbn; congruence. Qed.
    Lemma os_foreach {X} (l : list X) s : (forall x, os_only (s x)) -> os_only (foreach l s).
    Proof. intro H. induction l as [|x l IH]; cbn; [discriminate|]. now apply os_andthen. Qed.

    (** What is not touched. *)
    Definition frames (p : path) (s : step) : Prop := forall d, look (fst (s d)) p = look d p.
    Lemma frames_andthen p s t : frames p s -> frames p t -> frames p (andthen s t).
    Proof. intros S T d. specialize (S d). unfold andthen. destruct (s d) as [d' [e|]]; cbn in *; [auto|]. now rewrite T. Qed.
    Lemma frames_foreach p {X} (l : list X) s : (forall x, In x l -> frames p (s x)) -> frames p (foreach l s).
    Proof. intro H. induction l as [|x l IH]; cbn; [easy|]. apply frames_andthen; [apply H; now left|]. apply IH. intros y I. apply H. now right. Qed.
    Lemma frames_mkdir_from p rest : forall made, (forall a b, rest = a ++ b -> a <> [] -> p <> made ++ a) -> frames p (mkdir_from made rest).
    Proof.
      induction rest as [|x rest IH]; intros made N; cbn; [easy|]. apply frames_andthen.
      - intro d. unfold mkdir_one. destruct (look d (made ++ [x])) as [[|?]|]; auto. cbn [fst]. rewrite look_put by (now destruct made).
        rewrite path_eqb_neq; auto. apply (N [x] rest); [reflexivity|discriminate].
      - apply IH. intros a b -> NE. rewrite <- app_assoc. apply (N (x :: a) b); [reflexivity|discriminate].
    Qed.
    Lemma frames_mkdir p q : (forall a b, q = a ++ b -> a <> [] -> p <> a) -> frames p (mkdir q).
    Proof. intro N. apply frames_mkdir_from. intros a b E NE. exact (N a b E NE). Qed.
    Lemma frames_write p q c : q <> [] -> p <> q -> frames p (write q c).
    Proof.
      intros NE N d. unfold write. destruct (look d (removelast q)) as [[|?]|], (look d q) as [[|?]|]; cbn [fst]; auto;
        rewrite look_put by exact NE; now rewrite path_eqb_neq.
    Qed.
    Lemma frames_unlink p q : q <> [] -> p <> q -> frames p (unlink q).
    Proof.
      intros NE N d. unfold unlink. destruct (look d q) as [[|?]|]; cbn [fst]; auto;
        rewrite look_remove by exact NE; now rewrite path_eqb_neq.
    Qed.

    Theorem stops_main (d : disk) : 
      (exists f, within ML f /\ f <> ML /\ look d f <> None) -> look d ML <> None ->
      exists e, snd (run w d) = Some e /\
        (forall zip entries, w_fetch w "ml-20m.zip" = Ok zip -> w_unzip w zip = Ok entries ->
           e = OSError /\
           (Forall (fun x => within ["ml-20m"%string] (fst (fst x))) entries ->
            forall p, p <> ["data"%string] -> p <> ["data"; "temp.zip"]%string -> ~ within ["data"; "ml-20m"]%string p ->
              look (fst (run w d)) p = look d p)).
    Proof.
      intros (f & (r & ->) & N & H) HM. assert (F : full d).
      { split; [exact HM|]. destruct r as [|x r]; [now rewrite app_nil_r in N|]. eauto. }
      rewrite (run_stuck d F). destruct (ml_stuck d F) as [_ S]. destruct (snd (run_ml20m w d)) as [e|] eqn:Es; [|congruence].
      exists e. split; [reflexivity|]. intros zip entries E1 E2. split.
      - revert Es. apply (fun (H : os_only (run_ml20m w)) => H d e). unfold run_ml20m, load_ml20m. rewrite E1. apply os_andthen; [apply os_mkdir|]. cbn [withres].
        apply os_andthen; [apply os_write|]. rewrite E2. cbn [withres]. apply os_andthen; [apply os_foreach; intro x; apply os_andthen; [apply os_mkdir|apply os_write]|].
        apply os_andthen; [apply os_unlink|apply os_rename].
      - intros FE p N1 N2 N3. clear Es S. revert d F H HM.
        assert (G : forall s, frames p s -> stays_full s -> forall t, (forall d, full d -> look (fst (t d)) p = look d p) ->
                    forall d, full d -> look (fst (andthen s t d)) p = look d p).
        { intros s Fs Ks t Ft d F. specialize (Fs d). specialize (Ks d F). unfold andthen. destruct (s d) as [d' [g|]]; cbn in *; auto. now rewrite Ft. }
        enough (Q : forall d, full d -> look (fst (run_ml20m w d)) p = look d p) by auto.
        unfold run_ml20m, load_ml20m. rewrite E1. apply G; [|apply keeps_full; intros; apply keeps_mkdir|].
        { apply frames_mkdir. intros a b E NE. destruct a as [|y a]; [congruence|]. injection E as <- E.
          symmetry in E. apply app_eq_nil in E as [-> ->]. exact N1. }
        cbn [withres]. apply G; [apply frames_write; [discriminate|exact N2]|apply keeps_full; intros; apply keeps_write; discriminate|].
        rewrite E2. cbn [withres]. apply G; [|apply keeps_full; intros; apply keeps_extract|].
        { apply frames_foreach. intros [[dir name] c] I. apply (proj1 (Forall_forall _ _) FE) in I. destruct I as [sub I]. cbn [fst snd] in *. subst dir.
          apply frames_andthen.
          - apply frames_mkdir. intros a b E NE ->. destruct a as [|y a]; [congruence|]. cbn in E. injection E as <- E.
            destruct a as [|y a]; [congruence|]. injection E as <- E. apply N3. exists a. reflexivity.
          - apply frames_write; [discriminate|]. intros ->. apply N3. exists (sub ++ [name]). reflexivity. }
        apply G; [apply frames_unlink; [discriminate|exact N2]|apply keeps_full; intros; apply keeps_unlink; [discriminate|off]|].
        intros d F. destruct (full_rename d F) as [g ->]. reflexivity.
    Qed.
  End World.

  (** * No second attempt *)
  Lemma andthen_None (s t : step) d d' : andthen s t d = (d', None) -> exists d1, s d = (d1, None) /\ t d1 = (d', None).
  Proof. unfold andthen. destruct (s d) as [d1 [e|]]; [discriminate|]. eauto. Qed.
  Lemma foreach_In {X} (l : list X) (s : X -> step) d d' x p :
    foreach l s d = (d', None) -> In x l -> (forall y, keeps p (s y)) -> (forall d d', s x d = (d', None) -> look d' p <> None) ->
    look d' p <> None.
  Proof.
    intros E I K H. revert d E. induction l as [|y l IH]; intros d E; [contradiction|]. cbn in E. apply andthen_None in E as (d1 & E1 & E2).
    destruct I as [->|I]; [|now apply (IH I d1)]. specialize (H _ _ E1). apply (keeps_foreach p l s K d1) in H.
    change (fold_right (fun x t => andthen (s x) t) done l) with (foreach l s) in E2. now rewrite E2 in H.
  Qed.
  Lemma write_None p c (d d' : disk) : p <> [] -> write p c d = (d', None) -> look d' p <> None.
  Proof.
    intros NE. unfold write. destruct (look d (removelast p)) as [[|?]|]; [|discriminate|discriminate].
    destruct (look d p) as [[|?]|]; [discriminate| |]; intro E; injection E as <-; rewrite look_put by exact NE; now rewrite path_eqb_refl.
  Qed.
  Lemma rename_None src dst (d d' : disk) r : src <> [] -> dst <> [] ->
    below dst src = None -> below src dst = None ->
    rename src dst d = (d', None) -> look d (src ++ r) <> None -> look d' (dst ++ r) <> None.
  Proof.
    intros N1 N2 B B' E H. destruct (look d (src ++ r)) as [n|] eqn:L; [|congruence]. apply look_In in L; [|now destruct src].
    assert (G : forall l : disk, In (src ++ r, n) l ->
      look (map (fun x => match below src (fst x) with Some r => (dst ++ r, snd x) | None => x end) l) (dst ++ r) <> None).
    { intros l I. apply (In_look _ _ n). apply in_map_iff. exists (src ++ r, n). cbn [fst snd]. rewrite below_app. auto. }
    unfold rename in E. destruct (look d src) as [[|?]|]; try discriminate.
    destruct (look d dst) as [[|?]|]; try discriminate.
    - destruct (existsb _ d); [discriminate|]. injection E as <-. apply G. apply filter_In. split; [exact L|]. cbn [fst].
      rewrite path_eqb_neq; auto. intros ->. now rewrite below_app in B'.
    - injection E as <-. now apply G.
  Qed.

  Lemma first_full (w : world C) d d' : archive w -> run_ml20m w d = (d', None) -> full d'.
  Proof.
    intros A E. unfold run_ml20m, load_ml20m in E. apply andthen_None in E as (d1 & _ & E).
    destruct (w_fetch w "ml-20m.zip") as [zip|] eqn:E1; [|discriminate]. cbn [withres] in E. apply andthen_None in E as (d2 & _ & E).
    destruct (w_unzip w zip) as [entries|] eqn:E2; [|discriminate]. cbn [withres] in E. apply andthen_None in E as (d3 & E3 & E).
    apply andthen_None in E as (d4 & E4 & E). destruct (A _ _ E1 E2) as (sub & name & c & I).
    assert (H3 : look d3 (["data"; "ml-20m"]%string ++ (sub ++ [name])) <> None).
    { apply (foreach_In _ _ _ _ (("ml-20m"%string :: sub, name, c)) (["data"; "ml-20m"]%string ++ (sub ++ [name])) E3 I).
      - intro x. apply keeps_andthen; [apply keeps_mkdir|]. apply keeps_write. discriminate.
      - intros e e' F. apply andthen_None in F as (e1 & _ & F). cbn [fst snd] in F. revert F. apply write_None. discriminate. }
    assert (H4 : look d4 (["data"; "ml-20m"]%string ++ (sub ++ [name])) <> None).
    { assert (X := keeps_unlink (["data"; "ml-20m"]%string ++ (sub ++ [name])) ["data"; "temp.zip"]%string ltac:(discriminate) ltac:(intro Z0; discriminate Z0) d3 H3).
      now rewrite E4 in X. }
    assert (S : look d4 ["data"; "ml-20m"]%string <> None).
    { unfold rename in E. now destruct (look d4 ["data"; "ml-20m"]%string). }
    split.
    - apply (rename_None ["data"; "ml-20m"]%string ML d4 d' [] ltac:(discriminate) ltac:(discriminate) eq_refl eq_refl E). exact S.
    - assert (X := rename_None ["data"; "ml-20m"]%string ML d4 d' _ ltac:(discriminate) ltac:(discriminate) eq_refl eq_refl E H4).
      destruct sub as [|y sub]; cbn in X; eexists; eexists; exact X.
  Qed.

  Lemma rest_full (w : world C) : stays_full (andthen (load_amazon (w_fetch w) (w_amazon w) "amz_b") (andthen (load_amazon (w_fetch w) (w_amazon w) "amz_g")
    (andthen (load_steam (w_fetch w) (w_steam w)) prepare_extra_dirs))).
  Proof.
    apply keeps_full. intros p B.
    assert (A : forall name, In name ["amz_b"; "amz_g"]%string -> keeps p (load_amazon (w_fetch w) (w_amazon w) name)).
    { intros name I. unfold load_amazon. apply keeps_andthen; [apply keeps_mkdir|]. apply keeps_withres. intro raw. apply keeps_andthen; [apply keeps_write; discriminate|].
      apply keeps_withres. intro t. apply keeps_andthen; [apply keeps_write; discriminate|]. apply keeps_unlink; [discriminate|]. intros ->.
      destruct I as [<-|[<-|[]]]; now apply B. }
    apply keeps_andthen; [apply A; cbn; auto|]. apply keeps_andthen; [apply A; cbn; auto|]. apply keeps_andthen.
    - unfold load_steam. apply keeps_andthen; [apply keeps_mkdir|]. apply keeps_withres. intro raw. apply keeps_andthen; [apply keeps_write; discriminate|].
      apply keeps_withres. intro t. apply keeps_andthen; [apply keeps_write; discriminate|]. apply keeps_unlink; [discriminate|]. intros ->. now apply B.
    - unfold prepare_extra_dirs. apply keeps_andthen; repeat (apply keeps_foreach; intro); apply keeps_mkdir.
  Qed.

  Theorem resume_main (first w : world C) (ws : list (world C)) (d : disk) :
    archive first -> snd (run_ml20m first d) = None ->
    snd (run w (fold_left (fun d w => fst (run w d)) ws (fst (run first d)))) <> None.
  Proof.
    intros A E. assert (F : full (fst (run first d))).
    { destruct (run_ml20m first d) as [d1 o] eqn:E1. cbn in E. subst o. assert (F1 := first_full _ _ _ A E1).
      unfold run, load_data. change (load_ml20m (w_fetch first) (w_unzip first)) with (run_ml20m first).
      unfold andthen at 1. rewrite E1. now apply rest_full. }
    generalize dependent (fst (run first d)). clear E d. induction ws as [|v ws IH]; intros d F; cbn [fold_left].
    - rewrite run_stuck by exact F. exact (proj2 (ml_stuck w d F)).
    - apply IH. rewrite run_stuck by exact F. exact (proj1 (ml_stuck v d F)).
  Qed.
End Disk.
