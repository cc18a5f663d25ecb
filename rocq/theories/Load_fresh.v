(** Proofs: the setup script on a fresh working directory. *)
From Coq Require Import List Bool String Lia.
From Verif Require Import Prelude Load_model Load_spec Load_main.
Import ListNotations.

Section Fresh.
  Context {C : Type}.
  Notation disk := (@disk C).
  Notation step := (@step C).

  Lemma andthen_ok (s t : step) d d1 : s d = (d1, None) -> andthen s t d = t d1.
  Proof. intro E. unfold andthen. now rewrite E. Qed.
  Lemma path_dec (p q : path) : {p = q} + {p <> q}.
  Proof. apply list_eq_dec, string_dec. Qed.

  (** * Directories *)
  Definition prefix (q p : path) : bool := match q with [] => false | _ => match below q p with Some _ => true | None => false end end.
  Lemma prefix_iff q p : prefix q p = true <-> q <> [] /\ within q p.
  Proof.
    unfold prefix. destruct q as [|x q]; [split; [discriminate|intros [H _]; congruence]|]. split.
    - destruct (below (x :: q) p) eqn:E; [|discriminate]. intros _. split; [discriminate|]. apply below_Some in E. eexists. exact E.
    - intros [_ [r ->]]. now rewrite below_app.
  Qed.
  Lemma mkdir_from_ok rest : forall made (d : disk),
    (forall a b, rest = a ++ b -> a <> [] -> forall c, look d (made ++ a) <> Some (File c)) ->
    exists d', mkdir_from made rest d = (d', None) /\
      forall q, (forall a b, rest = a ++ b -> a <> [] -> q = made ++ a -> look d' q = Some Dir) /\
                ((forall a b, rest = a ++ b -> a <> [] -> q <> made ++ a) -> look d' q = look d q).
  Proof.
    induction rest as [|x rest IH]; intros made d H; cbn [mkdir_from].
    - exists d. split; [reflexivity|]. intro q. split; [|auto]. intros a b E NE. symmetry in E. apply app_eq_nil in E as [-> _]. congruence.
    - assert (NE1 : made ++ [x] <> []) by now destruct made.
      assert (O : exists d1, mkdir_one (made ++ [x]) d = (d1, None) /\ look d1 (made ++ [x]) = Some Dir /\
                   forall q, q <> made ++ [x] -> look d1 q = look d q).
      { unfold mkdir_one. destruct (look d (made ++ [x])) as [[|c]|] eqn:L.
        - exists d. auto.
        - exfalso. apply (H [x] rest eq_refl ltac:(discriminate) c L).
        - exists (put d (made ++ [x]) Dir). split; [reflexivity|]. split; [|intros q N]; rewrite look_put by exact NE1; [now rewrite path_eqb_refl|now rewrite path_eqb_neq]. }
      destruct O as (d1 & E1 & L1 & F1). rewrite (andthen_ok _ _ _ _ E1).
      destruct (IH (made ++ [x]) d1) as (d' & E2 & L2).
      { intros a b -> NE c. rewrite F1. - rewrite <- app_assoc. apply (H (x :: a) b); [reflexivity|discriminate].
        - intro E. rewrite <- (app_nil_r (made ++ [x])) in E at 2. apply app_inv_head in E. congruence. }
      exists d'. split; [exact E2|]. intro q. destruct (L2 q) as [La Lb]. split.
      + intros a b E NE ->. destruct a as [|y a]; [congruence|]. injection E as <- ->.
        destruct a as [|y a].
        * rewrite Lb; [exact L1|]. intros a b' _ NEa E. rewrite <- (app_nil_r (made ++ [x])) in E at 1. apply app_inv_head in E. congruence.
        * apply (La (y :: a) b); [reflexivity|discriminate|]. now rewrite <- app_assoc.
      + intro N. rewrite Lb, F1; [reflexivity| |].
        * intros ->. apply (N [x] rest); [reflexivity|discriminate|reflexivity].
        * intros a b E NE ->. apply (N (x :: a) b); [now rewrite E|discriminate|now rewrite <- app_assoc].
  Qed.
  Lemma mkdir_ok p (d : disk) : (forall q, prefix q p = true -> forall c, look d q <> Some (File c)) ->
    exists d', mkdir p d = (d', None) /\ forall q, look d' q = if prefix q p then Some Dir else look d q.
  Proof.
    intro H. destruct (mkdir_from_ok p [] d) as (d' & E & L).
    { intros a b -> NE c. apply H. apply prefix_iff. split; [exact NE|]. now exists b. }
    exists d'. split; [exact E|]. intro q. destruct (L q) as [La Lb]. destruct (prefix q p) eqn:P.
    - apply prefix_iff in P as [NE [r ->]]. now apply (La q r).
    - apply Lb. intros a b -> NE ->. enough (T : prefix a (a ++ b) = true) by (cbn in P; congruence). apply prefix_iff. split; [exact NE|]. now exists b.
  Qed.
  Lemma mkdirs_ok (l : list path) : forall d : disk, (forall p, In p l -> forall q, prefix q p = true -> forall c, look d q <> Some (File c)) ->
    exists d', foreach l mkdir d = (d', None) /\ forall q, look d' q = if existsb (prefix q) l then Some Dir else look d q.
  Proof.
    induction l as [|p l IH]; intros d H; [now exists d|]. destruct (mkdir_ok p d) as (d1 & E1 & L1); [intros; apply (H p); auto; now left|].
    destruct (IH d1) as (d2 & E2 & L2).
    { intros p' I q P c. rewrite L1. destruct (prefix q p); [discriminate|]. apply (H p'); auto. now right. }
    exists d2. split; [cbn; rewrite (andthen_ok _ _ _ _ E1); exact E2|]. intro q. rewrite L2, L1. cbn. destruct (prefix q p), (existsb (prefix q) l); reflexivity.
  Qed.
  Lemma andthen_ext (s s' t t' : step) : (forall d, s d = s' d) -> (forall d, t d = t' d) -> forall d, andthen s t d = andthen s' t' d.
  Proof. intros H K d. unfold andthen. rewrite H. destruct (s' d) as [d1 [e|]]; auto. Qed.
  Lemma andthen_assoc (s t u : step) d : andthen s (andthen t u) d = andthen (andthen s t) u d.
  Proof. unfold andthen. destruct (s d) as [d1 [e|]]; reflexivity. Qed.
  Lemma foreach_app {X} (l l' : list X) (s : X -> step) d : foreach (l ++ l') s d = andthen (foreach l s) (foreach l' s) d.
  Proof.
    revert d. induction l as [|x l IH]; intro d; [reflexivity|]. change (andthen (s x) (foreach (l ++ l') s) d = andthen (andthen (s x) (foreach l s)) (foreach l' s) d).
    rewrite <- andthen_assoc. apply andthen_ext; auto.
  Qed.
  Lemma foreach_nest {X Y Z0} (l : list X) (f : X -> list Y) (g : X -> Y -> Z0) (s : Z0 -> step) : forall d,
    foreach l (fun x => foreach (f x) (fun y => s (g x y))) d = foreach (flat_map (fun x => map (g x) (f x)) l) s d.
  Proof.
    assert (M : forall (ys : list Y) (h : Y -> Z0) d, foreach (map h ys) s d = foreach ys (fun y => s (h y)) d).
    { intros ys h. induction ys as [|y ys IH]; intro d; [reflexivity|]. cbn. apply andthen_ext; auto. }
    induction l as [|x l IH]; intro d; [reflexivity|]. cbn [flat_map]. rewrite foreach_app. cbn. apply andthen_ext; [|exact IH]. intro d0. now rewrite M.
  Qed.

  (** * The archive *)
  Notation SRC := ["data"; "ml-20m"]%string.
  Notation ML := ["data"; "ml_20m"]%string.
  Notation extract := (fun x : path * string * C => andthen (mkdir ("data"%string :: fst (fst x))) (write (("data"%string :: fst (fst x)) ++ [snd (fst x)]) (snd x))).

  Lemma write_ok p c (d : disk) : look d (removelast p) = Some Dir -> look d p <> Some Dir -> write p c d = (put d p (File c), None).
  Proof. intros E N. unfold write. rewrite E. destruct (look d p) as [[|?]|]; congruence. Qed.
  Lemma unlink_ok p (d : disk) : look d p <> Some Dir -> unlink p d = (remove d p, None).
  Proof. intros N. unfold unlink. destruct (look d p) as [[|?]|]; congruence. Qed.

  Definition at_file (files : list (string * C)) (q : path) : option (string * C) := find (fun f => path_eqb q (SRC ++ [fst f])) files.
  Lemma extract_ok files : forall d : disk,
    look d ["data"%string] = Some Dir -> (forall c, look d SRC <> Some (File c)) -> (forall n, look d (SRC ++ [n]) <> Some Dir) -> NoDup (map fst files) ->
    exists d', foreach (map (fun f => ([snd ("data", "ml-20m")]%string, fst f, snd f)) files) extract d = (d', None) /\
      (files <> [] -> look d' SRC = Some Dir) /\
      (forall q, q <> SRC -> look d' q = match at_file files q with Some f => Some (File (snd f)) | None => look d q end).
  Proof.
    induction files as [|[n c] files IH]; intros d H1 H2 H3 ND.
    - exists d. repeat split; auto. congruence.
    - inversion ND as [|? ? NI ND']; subst. destruct (mkdir_ok SRC d) as (d1 & E1 & L1).
      { intros q P c0. apply prefix_iff in P as [NE [r E]]. destruct q as [|x q]; [congruence|]. injection E as <- E.
        destruct q as [|y q]; [rewrite H1; discriminate|]. injection E as <- E. symmetry in E. apply app_eq_nil in E as [-> ->]. apply H2. }
      assert (K : forall q, prefix q SRC = true <-> q = ["data"%string] \/ q = SRC).
      { intro q. rewrite prefix_iff. split.
        - intros [NE [r E]]. destruct q as [|x q]; [congruence|]. injection E as <- E. destruct q as [|y q]; [now left|]. injection E as <- E.
          symmetry in E. apply app_eq_nil in E as [-> ->]. now right.
        - intros [->| ->]; (split; [discriminate|]); [now exists ["ml-20m"%string]|now exists []]. }
      assert (L1' : forall q, q <> SRC -> look d1 q = look d q).
      { intros q N. rewrite L1. destruct (prefix q SRC) eqn:P; [|reflexivity]. apply K in P as [->|]; [now rewrite H1|contradiction]. }
      assert (S1 : look d1 SRC = Some Dir) by (rewrite L1; reflexivity).
      assert (E2 : write (SRC ++ [n]) c d1 = (put d1 (SRC ++ [n]) (File c), None)).
      { apply write_ok; [exact S1|]. rewrite L1'; [apply H3|discriminate]. }
      destruct (IH (put d1 (SRC ++ [n]) (File c))) as (d' & E3 & L3 & L4).
      + rewrite look_put by discriminate. rewrite L1' by discriminate. exact H1.
      + intro c0. rewrite look_put by discriminate. rewrite S1. discriminate.
      + intro m. rewrite look_put by discriminate. destruct (path_eqb _ _); [discriminate|]. rewrite L1'; [apply H3|discriminate].
      + exact ND'.
      + exists d'. split.
        { cbn [map foreach fold_right fst snd]. unfold andthen at 1. cbn [fst snd] in E1. unfold andthen at 1. cbn [List.app]. rewrite E1. cbn [List.app] in E2. rewrite E2. exact E3. }
        split.
        * intros _. destruct files as [|f files]; [|apply L3; discriminate]. cbn in E3. injection E3 as <-. rewrite look_put by discriminate. exact S1.
        * intros q N. rewrite L4 by exact N. rewrite look_put by discriminate. unfold at_file. cbn [find fst].
          destruct (path_eqb q (SRC ++ [n])) eqn:P; [|now rewrite L1'].
          apply path_eqb_eq in P. subst q. destruct (find _ files) as [[m c']|] eqn:F; [|reflexivity].
          exfalso. apply find_some in F as [I F]. cbn [fst] in F. apply path_eqb_eq in F. apply app_inv_head in F. injection F as ->.
          apply NI. apply in_map_iff. now exists (m, c').
  Qed.

  Lemma rename_look src dst (d : disk) q : below src dst = None -> below dst src = None -> src <> [] -> dst <> [] ->
    (forall x, In x d -> below dst (fst x) = None) -> q <> [] ->
    look (map (fun x => match below src (fst x) with Some r => (dst ++ r, snd x) | None => x end) d) q =
    match below dst q with Some r => look d (src ++ r) | None => match below src q with Some _ => None | None => look d q end end.
  Proof.
    intros B1 B2 N1 N2 H NQ. destruct (below dst q) as [r|] eqn:Bq.
    - apply below_Some in Bq. subst q. induction d as [|[p n] d IH].
      + unfold look. destruct dst, src; cbn; congruence.
      + assert (IH' := IH (fun x I => H x (or_intror I))). clear IH. assert (Hp := H (p, n) (or_introl eq_refl)). cbn [fst] in Hp.
        cbn [map fst snd]. unfold look in *. destruct (dst ++ r) as [|a b] eqn:D; [congruence|]. destruct (src ++ r) as [|a' b'] eqn:S; [destruct src; cbn in S; congruence|].
        cbn [find]. destruct (below src p) as [r'|] eqn:Bp; cbn [fst].
        * apply below_Some in Bp. subst p. destruct (path_eqb (a :: b) (dst ++ r')) eqn:E.
          -- apply path_eqb_eq in E. rewrite <- D in E. apply app_inv_head in E. subst r'. rewrite S, path_eqb_refl. reflexivity.
          -- rewrite path_eqb_neq; [exact IH'|]. intro X. rewrite <- S in X. apply app_inv_head in X. subst r'. rewrite D, path_eqb_refl in E. discriminate.
        * rewrite path_eqb_neq, path_eqb_neq; [exact IH'| |].
          -- intros <-. rewrite <- S, below_app in Bp. discriminate.
          -- intros <-. rewrite <- D, below_app in Hp. discriminate.
    - destruct q as [|a b]; [congruence|]. destruct (below src (a :: b)) as [r|] eqn:Bs.
      + unfold look. destruct (find _ _) as [x|] eqn:F; [|reflexivity]. exfalso. apply find_some in F as [I F]. apply path_eqb_eq in F.
        apply in_map_iff in I as ([p n] & <- & I). cbn [fst snd] in F. destruct (below src p) as [r'|] eqn:Bp; cbn [fst] in F.
        * rewrite F, below_app in Bq. discriminate.
        * congruence.
      + unfold look. induction d as [|[p n] d IH]; [reflexivity|]. cbn [map find fst snd]. specialize (IH (fun x I => H x (or_intror I))).
        destruct (below src p) as [r'|] eqn:Bp; cbn [fst].
        * rewrite path_eqb_neq; [|intro X; rewrite X, below_app in Bq; discriminate]. rewrite path_eqb_neq; [exact IH|]. congruence.
        * destruct (path_eqb (a :: b) p); [reflexivity|exact IH].
  Qed.

  (** [d'] is [d0] with the tree [lay] for its data directory. *)
  Definition over (lay d0 d' : disk) : Prop :=
    forall q, look d' q = match below ["data"%string] q with Some _ => look lay q | None => look d0 q end.
  Definition ml_layout (files : list (string * C)) : disk :=
    [(["data"%string], Dir); (ML, Dir)] ++ map (fun f => (ML ++ [fst f], File (snd f))) files.

  Lemma ml20m_ok (w : world C) (d : disk) zip files :
    (forall p, below ["data"%string] p <> None -> look d p = None) ->
    w_fetch w "ml-20m.zip" = Ok zip -> w_unzip w zip = Ok (map (fun f => ([snd ("data", "ml-20m")]%string, fst f, snd f)) files) ->
    files <> [] -> NoDup (map fst files) ->
    exists d', run_ml20m w d = (d', None) /\ over (ml_layout files) d d'.
  Proof.
    intros F E1 E2 NE ND. unfold run_ml20m, load_ml20m. rewrite E1.
    assert (Dd : look d ["data"%string] = None) by (apply F; discriminate).
    assert (M : mkdir ["data"%string] d = (put d ["data"%string] Dir, None)).
    { unfold mkdir. cbn [mkdir_from]. unfold andthen, mkdir_one. cbn [List.app]. rewrite Dd. reflexivity. }
    rewrite (andthen_ok _ _ _ _ M). cbn [withres]. set (d1 := put d ["data"%string] Dir).
    assert (L1 : forall q, look d1 q = if path_eqb q ["data"%string] then Some Dir else look d q) by (intro q; apply look_put; discriminate).
    assert (W : write ["data"; "temp.zip"]%string zip d1 = (put d1 ["data"; "temp.zip"]%string (File zip), None)).
    { apply write_ok; cbn [removelast]; rewrite L1; [reflexivity|]. cbn [path_eqb]. rewrite path_eqb_neq by discriminate. rewrite F; discriminate. }
    rewrite (andthen_ok _ _ _ _ W). set (d2 := put d1 ["data"; "temp.zip"]%string (File zip)). rewrite E2. cbn [withres].
    assert (L2 : forall q, look d2 q = if path_eqb q ["data"; "temp.zip"]%string then Some (File zip) else if path_eqb q ["data"%string] then Some Dir else look d q).
    { intro q. unfold d2. rewrite look_put by discriminate. now rewrite L1. }
    destruct (extract_ok files d2) as (d3 & E3 & L3 & L3').
    { rewrite L2. rewrite path_eqb_neq by discriminate. reflexivity. }
    { intro c. rewrite L2, !path_eqb_neq by discriminate. rewrite F; discriminate. }
    { intro n. rewrite L2, !path_eqb_neq by discriminate. rewrite F; discriminate. }
    { exact ND. }
    specialize (L3 NE). rewrite (andthen_ok _ _ _ _ E3).
    assert (AF : forall q, (forall n, q <> SRC ++ [n]) -> at_file files q = None).
    { intros q N. unfold at_file. destruct (find _ files) as [x|] eqn:X; [|reflexivity]. apply find_some in X as [_ X]. apply path_eqb_eq in X. exfalso. eapply N. exact X. }
    assert (U : unlink ["data"; "temp.zip"]%string d3 = (remove d3 ["data"; "temp.zip"]%string, None)).
    { apply unlink_ok. rewrite L3' by discriminate. rewrite AF by (intro; discriminate). rewrite L2, path_eqb_refl. discriminate. }
    rewrite (andthen_ok _ _ _ _ U). set (d4 := remove d3 ["data"; "temp.zip"]%string).
    assert (L4 : look d4 SRC = Some Dir) by (unfold d4; rewrite look_remove by discriminate; rewrite path_eqb_neq by discriminate; exact L3).
    assert (L4' : forall q, q <> SRC -> look d4 q = if path_eqb q ["data"; "temp.zip"]%string then None else
              match at_file files q with Some f => Some (File (snd f)) | None => if path_eqb q ["data"%string] then Some Dir else look d q end).
    { intros q N. unfold d4. rewrite look_remove by discriminate. destruct (path_eqb q ["data"; "temp.zip"]%string) eqn:P; [reflexivity|].
      rewrite L3' by exact N. rewrite L2, P. reflexivity. }
    assert (Lm : forall r, look d4 (ML ++ r) = None).
    { intro r. rewrite L4' by discriminate. rewrite path_eqb_neq by discriminate. rewrite AF by (intro; discriminate).
      rewrite path_eqb_neq by discriminate. apply F. discriminate. }
    unfold rename. rewrite L4. assert (Lm0 := Lm []). cbn [List.app] in Lm0. rewrite Lm0.
    eexists. split; [reflexivity|]. intro q. destruct (path_dec q []) as [->|Nq].
    { reflexivity. }
    rewrite rename_look; [|reflexivity|reflexivity|discriminate|discriminate| |exact Nq].
    2:{ intros [p n] I. cbn [fst]. destruct (below ML p) as [r|] eqn:B; [|reflexivity]. apply below_Some in B. subst p.
        apply In_look in I. rewrite Lm in I. congruence. }
    assert (Lay : forall q, q <> [] -> look (ml_layout files) q = if path_eqb q ["data"%string] then Some Dir else if path_eqb q ML then Some Dir else
              match find (fun f => path_eqb q (ML ++ [fst f])) files with Some f => Some (File (snd f)) | None => None end).
    { intros p N. unfold look, ml_layout. destruct p as [|a b]; [congruence|]. cbn [List.app find fst].
      destruct (path_eqb (a :: b) ["data"%string]); [reflexivity|]. destruct (path_eqb (a :: b) ML); [reflexivity|].
      clear. induction files as [|f files IH]; [reflexivity|]. cbn [map find fst List.app]. destruct (path_eqb _ _); [reflexivity|exact IH]. }
    destruct (below ML q) as [r|] eqn:Bm.
    - apply below_Some in Bm. subst q. cbn [below List.app String.eqb Ascii.eqb Bool.eqb]. change ("data"%string :: "ml_20m"%string :: r) with (ML ++ r).
      rewrite Lay by discriminate. rewrite (path_eqb_neq (ML ++ r) ["data"%string]) by discriminate. destruct r as [|x r].
      + cbn [List.app]. rewrite L4. reflexivity.
      + change ("data"%string :: "ml-20m"%string :: x :: r) with (SRC ++ x :: r). rewrite L4' by discriminate. rewrite (path_eqb_neq (SRC ++ x :: r) ["data"; "temp.zip"]%string) by discriminate. rewrite (path_eqb_neq (ML ++ x :: r) ML) by discriminate.
        rewrite (path_eqb_neq (SRC ++ x :: r) ["data"%string]) by discriminate. rewrite (F (SRC ++ x :: r)) by discriminate.
        unfold at_file. replace (find (fun f => path_eqb (SRC ++ x :: r) (SRC ++ [fst f])) files) with (find (fun f => path_eqb (ML ++ x :: r) (ML ++ [fst f])) files); [reflexivity|].
        clear. induction files as [|f files IH]; [reflexivity|]. cbn [find]. rewrite IH.
        assert (T : path_eqb (ML ++ x :: r) (ML ++ [fst f]) = path_eqb (SRC ++ x :: r) (SRC ++ [fst f])).
        { destruct (path_dec (x :: r) [fst f]) as [->|N]; [now rewrite !path_eqb_refl|]. rewrite !path_eqb_neq; auto; intro X; apply app_inv_head in X; auto. }
        rewrite T. reflexivity.
    - destruct (below SRC q) as [r|] eqn:Bs.
      + apply below_Some in Bs. subst q. cbn [below List.app String.eqb Ascii.eqb Bool.eqb]. change ("data"%string :: "ml-20m"%string :: r) with (SRC ++ r).
        rewrite Lay by discriminate. rewrite !path_eqb_neq by discriminate. destruct (find _ files) as [f|] eqn:X; [|reflexivity].
        apply find_some in X as [_ X]. apply path_eqb_eq in X. discriminate.
      + assert (N : q <> SRC) by (intros ->; discriminate). rewrite L4' by exact N.
        rewrite AF by (intros n ->; rewrite below_app in Bs; discriminate).
        destruct (below ["data"%string] q) as [r|] eqn:Bd.
        * rewrite Lay by exact Nq. destruct (path_eqb q ["data"; "temp.zip"]%string) eqn:P.
          { apply path_eqb_eq in P. subst q. rewrite !path_eqb_neq by discriminate. destruct (find _ files) as [f|] eqn:X; [|reflexivity].
            apply find_some in X as [_ X]. apply path_eqb_eq in X. discriminate. }
          destruct (path_eqb q ["data"%string]); [reflexivity|].
          rewrite (path_eqb_neq q ML) by (intros ->; discriminate). destruct (find _ files) as [f|] eqn:X.
          { apply find_some in X as [_ X]. apply path_eqb_eq in X. subst q. rewrite below_app in Bm. discriminate. }
          apply F. congruence.
        * rewrite path_eqb_neq by (intros ->; discriminate). rewrite path_eqb_neq by (intros ->; discriminate). reflexivity.
  Qed.

  (** * The other datasets *)
  Definition stage (name tmp file : string) (got : res C) (parse : C -> res C) : step :=
    andthen (mkdir ["data"%string; name])
    (withres got (fun raw =>
     andthen (write ["data"%string; tmp] raw)
    (withres (parse raw) (fun table =>
     andthen (write ["data"%string; name; file] table)
    (unlink ["data"%string; tmp]))))).

  Lemma look_cons (p q : path) n (d : disk) : q <> [] -> look ((p, n) :: d) q = if path_eqb q p then Some n else look d q.
  Proof. intro N. unfold look. destruct q as [|a b]; [congruence|]. cbn [find fst]. destruct (path_eqb (a :: b) p); reflexivity. Qed.

  Lemma stage_ok name tmp file got parse raw table (lay d0 d : disk) :
    over lay d0 d -> look lay ["data"%string] = Some Dir -> look lay ["data"%string; name] = None ->
    look lay ["data"%string; name; file] = None -> look lay ["data"%string; tmp] = None -> tmp <> name ->
    got = Ok raw -> parse raw = Ok table ->
    exists d', stage name tmp file got parse d = (d', None) /\
      over ((["data"%string; name; file], File table) :: (["data"%string; name], Dir) :: lay) d0 d'.
  Proof.
    intros O Hd Hn Hf Ht NE -> E. unfold stage. cbn [withres]. rewrite E. cbn [withres].
    assert (Od : forall r, look d ("data"%string :: r) = look lay ("data"%string :: r)) by (intro r; rewrite O; reflexivity).
    destruct (mkdir_ok ["data"%string; name] d) as (d1 & E1 & L1).
    { intros q P c. apply prefix_iff in P as [Nq [r P]]. destruct q as [|a q]; [congruence|]. injection P as <- P. rewrite Od.
      destruct q as [|b q]; [rewrite Hd; discriminate|]. injection P as <- P. symmetry in P. apply app_eq_nil in P as [-> ->]. rewrite Hn. discriminate. }
    assert (L1' : forall q, q <> [] -> look d1 q = if path_eqb q ["data"%string; name] then Some Dir else look d q).
    { intros q Nq. rewrite L1. destruct (prefix q ["data"%string; name]) eqn:P.
      - apply prefix_iff in P as [_ [r P]]. destruct q as [|a q]; [congruence|]. injection P as <- P. destruct q as [|b q].
        + rewrite path_eqb_neq by discriminate. now rewrite Od, Hd.
        + injection P as <- P. symmetry in P. apply app_eq_nil in P as [-> ->]. now rewrite path_eqb_refl.
      - rewrite path_eqb_neq; [reflexivity|]. intros ->. enough (T : prefix ["data"%string; name] ["data"%string; name] = true) by congruence.
        apply prefix_iff. split; [discriminate|]. now exists []. }
    rewrite (andthen_ok _ _ _ _ E1).
    assert (W1 : write ["data"%string; tmp] raw d1 = (put d1 ["data"%string; tmp] (File raw), None)).
    { apply write_ok; cbn [removelast]; rewrite L1' by discriminate.
      - rewrite path_eqb_neq by discriminate. now rewrite Od.
      - rewrite path_eqb_neq by congruence. rewrite Od, Ht. discriminate. }
    rewrite (andthen_ok _ _ _ _ W1). set (d2 := put d1 ["data"%string; tmp] (File raw)).
    assert (L2 : forall q, look d2 q = if path_eqb q ["data"%string; tmp] then Some (File raw) else look d1 q) by (intro q; apply look_put; discriminate).
    assert (W2 : write ["data"%string; name; file] table d2 = (put d2 ["data"%string; name; file] (File table), None)).
    { apply write_ok; cbn [removelast]; rewrite L2.
      - rewrite path_eqb_neq by congruence. rewrite L1' by discriminate. now rewrite path_eqb_refl.
      - rewrite path_eqb_neq by discriminate. rewrite L1' by discriminate. rewrite path_eqb_neq by discriminate. rewrite Od, Hf. discriminate. }
    rewrite (andthen_ok _ _ _ _ W2). set (d3 := put d2 ["data"%string; name; file] (File table)).
    assert (L3 : forall q, look d3 q = if path_eqb q ["data"%string; name; file] then Some (File table) else look d2 q) by (intro q; apply look_put; discriminate).
    rewrite unlink_ok.
    2:{ rewrite L3, path_eqb_neq by discriminate. rewrite L2, path_eqb_refl. discriminate. }
    eexists. split; [reflexivity|]. intro q. rewrite look_remove by discriminate. destruct (path_dec q []) as [->|Nq]; [reflexivity|].
    rewrite L3, L2, L1' by exact Nq. destruct (path_eqb q ["data"%string; tmp]) eqn:P.
    - apply path_eqb_eq in P. subst q. cbn [below]. rewrite String.eqb_refl. rewrite !look_cons by discriminate.
      rewrite !path_eqb_neq by congruence. now rewrite Ht.
    - destruct (below ["data"%string] q) as [r|] eqn:B.
      + rewrite !look_cons by exact Nq. apply below_Some in B. subst q. cbn [List.app]. now rewrite Od.
      + rewrite !path_eqb_neq; [now rewrite O, B| |]; intros ->; cbn in B; discriminate.
  Qed.

  Lemma tree_holds (lay tree : disk) q : q <> [] -> (forall x, In x lay <-> In x tree) -> holds tree q (look lay q).
  Proof.
    intros N H. unfold holds. destruct (look lay q) as [n|] eqn:L.
    - apply H. now apply look_In.
    - intro I. apply in_map_iff in I as ([p n] & <- & I). apply H in I. apply In_look in I. now cbn in L.
  Qed.
  Lemma look_files (lay : disk) (files : list (string * C)) q : q <> [] -> (forall n, q <> ML ++ [n]) ->
    look (lay ++ map (fun f => (ML ++ [fst f], File (snd f))) files) q = look lay q.
  Proof.
    intros N H. induction lay as [|[p n] lay IH].
    - cbn [List.app]. induction files as [|f files IH]; [reflexivity|]. cbn [map]. rewrite look_cons by exact N. rewrite path_eqb_neq by apply H. exact IH.
    - cbn [List.app] in *. rewrite !look_cons by exact N. now rewrite IH.
  Qed.

  Theorem fresh_main (w : world C) (d : disk) zip files raw_b raw_g raw_s amz_b amz_g steam :
    (forall p, within ["data"%string] p -> look d p = None) ->
    (forall p t, p <> [] -> within p t -> In t wanted_dirs -> forall c, look d p <> Some (File c)) ->
    w_fetch w "ml-20m.zip" = Ok zip -> w_unzip w zip = Ok (map (fun f => (["ml-20m"%string], fst f, snd f)) files) ->
    files <> [] -> NoDup (map fst files) ->
    w_fetch w "amz_b" = Ok raw_b -> w_amazon w raw_b = Ok amz_b -> w_fetch w "amz_g" = Ok raw_g -> w_amazon w raw_g = Ok amz_g ->
    w_fetch w "steam" = Ok raw_s -> w_steam w raw_s = Ok steam ->
    exists d', run w d = (d', None) /\
      forall p, p <> [] ->
        (within ["data"%string] p -> holds (data_tree files amz_b amz_g steam) p (look d' p)) /\
        (~ within ["data"%string] p -> (exists t, In t wanted_dirs /\ within p t) -> look d' p = Some Dir) /\
        (~ within ["data"%string] p -> ~ (exists t, In t wanted_dirs /\ within p t) -> look d' p = look d p).
  Proof.
    intros F G Ez Eu NE ND Eb Tb Eg Tg Es Ts.
    destruct (ml20m_ok w d zip files) as (d1 & E1 & O1); auto.
    { intros p B. apply F. destruct (below ["data"%string] p) eqn:X; [|congruence]. apply below_Some in X. eexists. exact X. }
    unfold run, load_data. change (load_ml20m (w_fetch w) (w_unzip w)) with (run_ml20m w). rewrite (andthen_ok _ _ _ _ E1).
    change (@load_amazon C (w_fetch w) (w_amazon w) "amz_b") with (stage "amz_b" "temp_amz_b" "amz_b.gz" (w_fetch w "amz_b") (w_amazon w)).
    change (@load_amazon C (w_fetch w) (w_amazon w) "amz_g") with (stage "amz_g" "temp_amz_g" "amz_g.gz" (w_fetch w "amz_g") (w_amazon w)).
    change (@load_steam C (w_fetch w) (w_steam w)) with (stage "steam" "temp_steam" "steam.csv" (w_fetch w "steam") (w_steam w)).
    Ltac lay := rewrite ?look_cons by discriminate; unfold ml_layout; rewrite look_files by (intros; discriminate); reflexivity.
    edestruct (stage_ok "amz_b" "temp_amz_b" "amz_b.gz") as (d2 & E2 & O2); [exact O1|lay|lay|lay|lay|discriminate|exact Eb|exact Tb|].
    rewrite (andthen_ok _ _ _ _ E2).
    edestruct (stage_ok "amz_g" "temp_amz_g" "amz_g.gz") as (d3 & E3 & O3); [exact O2|lay|lay|lay|lay|discriminate|exact Eg|exact Tg|].
    rewrite (andthen_ok _ _ _ _ E3).
    edestruct (stage_ok "steam" "temp_steam" "steam.csv") as (d4 & E4 & O4); [exact O3|lay|lay|lay|lay|discriminate|exact Es|exact Ts|].
    rewrite (andthen_ok _ _ _ _ E4).
    set (l := flat_map (fun dd => map (fun k => ["results"%string; dd; k]) target_dirs) data_dirs ++ map (fun dd => ["configs"%string; dd]) data_dirs).
    assert (W : forall t, In t l <-> In t wanted_dirs) by (intro t; unfold l, wanted_dirs, data_dirs, target_dirs; cbn; tauto).
    destruct (mkdirs_ok l d4) as (d5 & E5 & L5).
    { intros t I q P c. apply W in I. assert (Pr := P). apply prefix_iff in P as [Nq Wq]. rewrite O4. destruct (below ["data"%string] q) as [r|] eqn:B.
      - exfalso. apply below_Some in B. subst q. destruct Wq as [r' ->]. clear - I. cbn in I.
        repeat (destruct I as [I|I]; [discriminate I|]). exact I.
      - exact (G q t Nq Wq I c). }
    exists d5. split.
    { rewrite <- E5. unfold l. rewrite foreach_app. unfold prepare_extra_dirs. apply andthen_ext.
      - intro e. now rewrite <- foreach_nest.
      - intro e. clear. induction data_dirs as [|x ds IH] in e |- *; [reflexivity|]. cbn. apply andthen_ext; auto. }
    intros p Np. assert (X : existsb (prefix p) l = true <-> exists t, In t wanted_dirs /\ within p t).
    { rewrite existsb_exists. split.
      - intros (t & I & P). apply prefix_iff in P as [_ P]. exists t. split; [now apply W|exact P].
      - intros (t & I & P). exists t. split; [now apply W|]. now apply prefix_iff. }
    rewrite L5. split; [|split].
    - intros [r ->]. destruct (existsb (prefix (["data"%string] ++ r)) l) eqn:Y.
      + exfalso. destruct (proj1 X eq_refl) as (t & I & [r' ->]). clear - I. cbn in I. repeat (destruct I as [I|I]; [discriminate I|]). exact I.
      + rewrite O4, below_app. apply tree_holds; [discriminate|]. intro x. unfold data_tree, ml_layout. cbn. tauto.
    - intros _ Y. now rewrite (proj2 X Y).
    - intros N Y. destruct (existsb (prefix p) l) eqn:Z0; [exfalso; apply Y, X; reflexivity|]. rewrite O4. destruct (below ["data"%string] p) as [r|] eqn:B; [|reflexivity].
      exfalso. apply N. apply below_Some in B. eexists. exact B.
  Qed.
End Fresh.
