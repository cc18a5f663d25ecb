(** Facts about strings, splitting and dictionaries. *)
From Coq Require Import ZArith QArith List Bool String Ascii Lia.
From Verif Require Import Prelude Dynamic_model Report_model Report_spec.
Import ListNotations.
Local Open Scope string_scope.

Lemma app_nil : forall s, s ++ "" = s.
Proof. induction s; cbn; congruence. Qed.
Lemma app_assoc_s : forall a b c, (a ++ b) ++ c = a ++ (b ++ c).
Proof. induction a; cbn; intros; congruence. Qed.
Lemma chars_app : forall a b, list_ascii_of_string (a ++ b) = (list_ascii_of_string a ++ list_ascii_of_string b)%list.
Proof. induction a; cbn; intros; congruence. Qed.
Lemma len_app : forall a b, String.length (a ++ b) = (String.length a + String.length b)%nat.
Proof. induction a; cbn; intros; auto. Qed.

Lemma prefix_cons : forall c t d s, prefix (String c t) (String d s) = if ascii_dec c d then prefix t s else false.
Proof. reflexivity. Qed.

Lemma prefix_iff : forall t s, prefix t s = true <-> exists b, s = t ++ b.
Proof.
  induction t as [|c t IH]; intros s.
  - split; [intros _; exists s; reflexivity|]. destruct s; reflexivity.
  - destruct s as [|d s].
    + split; [discriminate|]. intros [b H]; discriminate.
    + rewrite prefix_cons. destruct (ascii_dec c d) as [->|N].
      * rewrite IH. split; intros [b H]; exists b; cbn in *; [now subst|now injection H].
      * split; [discriminate|]. intros [b H]. cbn in H. injection H as H1 H2. congruence.
Qed.

Lemma prefix_app : forall t b, prefix t (t ++ b) = true.
Proof. intros; apply prefix_iff; eauto. Qed.

Lemma contains_iff : forall t s, contains t s = true <-> occurs t s.
Proof.
  intros t s. induction s as [|c s IH]; cbn [contains].
  - rewrite orb_false_r, prefix_iff. split.
    + intros [b H]. exists "", b. exact H.
    + intros (a & b & H). destruct a; [exists b; exact H|discriminate].
  - rewrite orb_true_iff, prefix_iff, IH. split.
    + intros [[b H]|(a & b & H)]; [exists "", b; exact H|exists (String c a), b; cbn; now rewrite H].
    + intros (a & b & H). destruct a as [|d a]; [left; exists b; exact H|].
      right. exists a, b. cbn in H. now injection H.
Qed.

(** ** One separator *)

Lemma occurs_char : forall c t s, t <> "" -> In c (list_ascii_of_string t) -> free c s -> ~ occurs t s.
Proof.
  intros c t s N I F (a & b & ->). apply F. rewrite !chars_app, !in_app_iff. auto.
Qed.

Lemma split_skip : forall sep k cur a b, String.length a = k -> split_from sep k cur (a ++ b) = split_from sep 0 cur b.
Proof.
  intros sep k cur a b <-. revert cur. induction a as [|c a IH]; intros cur; [reflexivity|]. cbn. apply IH.
Qed.

(** No occurrence of [sep] in [a ++ rest] begins in [a]. *)
Definition clear_until (sep a rest : string) : Prop :=
  forall x y, a = x ++ y -> y <> "" -> prefix sep (y ++ rest) = false.

Lemma clear_tail : forall sep c a rest, clear_until sep (String c a) rest -> clear_until sep a rest.
Proof. intros sep c a rest H x y E N. apply (H (String c x) y); [cbn; now rewrite E|exact N]. Qed.

Lemma split_clear : forall sep a cur rest, clear_until sep a rest ->
  split_from sep 0 cur (a ++ rest) = split_from sep 0 (cur ++ a) rest.
Proof.
  intros sep. induction a as [|c a IH]; intros cur rest H.
  - now rewrite app_nil.
  - assert (P : prefix sep (String c a ++ rest) = false) by (apply (H "" (String c a)); [reflexivity|discriminate]).
    change (String c a ++ rest) with (String c (a ++ rest)) in *. cbn [split_from]. rewrite P.
    rewrite IH by (eapply clear_tail; eauto). rewrite app_assoc_s. reflexivity.
Qed.

Lemma split_hit : forall c sep cur b,
  split_from (String c sep) 0 cur (String c sep ++ b) = cur :: split_from (String c sep) 0 "" b.
Proof.
  intros c sep cur b. pose proof (prefix_app (String c sep) b) as P.
  change (String c sep ++ b) with (String c (sep ++ b)) in *. cbn [split_from]. rewrite P. f_equal.
  apply split_skip. cbn. lia.
Qed.

Lemma split_end : forall sep cur a, sep <> "" -> ~ occurs sep a -> split_from sep 0 cur a = [cur ++ a].
Proof.
  intros sep cur a N F. rewrite <- (app_nil a) at 1. rewrite split_clear.
  - reflexivity.
  - intros x y E Ny. rewrite app_nil. destruct (prefix sep y) eqn:P; [|reflexivity].
    apply prefix_iff in P. destruct P as [b ->]. exfalso. apply F. exists x, b. exact E.
Qed.

(** Splitting once: [a] has no occurrence that begins in it, [b] has none. *)
Lemma split_once : forall c sep a b, clear_until (String c sep) a (String c sep ++ b) -> ~ occurs (String c sep) b ->
  split (String c sep) (a ++ String c sep ++ b) = [a; b].
Proof.
  intros c sep a b H F. unfold split. rewrite split_clear by exact H. rewrite split_hit.
  rewrite split_end; [reflexivity|discriminate|exact F].
Qed.

(** What comes out of a split, joined again, is the string. *)
Lemma split_from_join : forall c sep s k cur, (k <= String.length s)%nat ->
  exists skipped rest, s = skipped ++ rest /\ String.length skipped = k /\
  String.concat (String c sep) (split_from (String c sep) k cur s) = cur ++ rest /\
  split_from (String c sep) k cur s <> [].
Proof.
  intros c sep. induction s as [|d s IH]; intros k cur L.
  - cbn in L. assert (k = 0)%nat by lia. subst k. exists "", "". cbn. rewrite app_nil. repeat split; congruence.
  - destruct k as [|k].
    + exists "", (String d s). split; [reflexivity|]. split; [reflexivity|]. cbn [split_from].
      destruct (prefix (String c sep) (String d s)) eqn:P.
      * apply prefix_iff in P. destruct P as [b P]. cbn in P. injection P as <- E.
        destruct (IH (String.length (String d sep) - 1)%nat "") as (sk & rest & E1 & E2 & E3 & E4).
        { rewrite E, len_app. cbn. lia. }
        assert (sk = sep /\ rest = b) as [-> ->].
        { assert (Hl : String.length sk = String.length sep) by (rewrite E2; cbn; lia).
          rewrite E in E1. clear - E1 Hl. revert sk E1 Hl. induction sep as [|x sep IHs]; intros [|y sk] E1 Hl; cbn in *; try discriminate; auto.
          injection E1 as -> E1. injection Hl as Hl. destruct (IHs _ E1 Hl). now subst. }
        split; [|discriminate].
        destruct (split_from (String d sep) (String.length (String d sep) - 1) "" s) as [|p r] eqn:Es; [congruence|].
        change (String.concat (String d sep) (cur :: p :: r)) with (cur ++ String d sep ++ String.concat (String d sep) (p :: r)).
        rewrite E3. cbn. now rewrite E.
      * destruct (IH 0%nat (cur ++ String d "")) as (sk & rest & E1 & E2 & E3 & E4); [lia|].
        destruct sk; [|discriminate]. cbn in E1. subst rest. split; [|exact E4]. rewrite E3, app_assoc_s. reflexivity.
    + cbn in L. destruct (IH k cur) as (sk & rest & E1 & E2 & E3 & E4); [lia|].
      exists (String d sk), rest. cbn [split_from]. split; [cbn; now rewrite E1|]. split; [cbn; now rewrite E2|]. split; assumption.
Qed.

Lemma split_join : forall c sep s, String.concat (String c sep) (split (String c sep) s) = s.
Proof.
  intros c sep s. destruct (split_from_join c sep s 0 "") as (sk & rest & E1 & E2 & E3 & _); [lia|].
  destruct sk; [|discriminate]. unfold split. rewrite E3. now rewrite E1.
Qed.

Lemma split2_shape : forall c sep s a b, split2 (String c sep) s = Ok (a, b) -> s = a ++ String c sep ++ b.
Proof.
  intros c sep s a b H. unfold split2 in H. pose proof (split_join c sep s) as J.
  destruct (split (String c sep) s) as [|x [|y [|z r]]]; try discriminate. injection H as -> ->. now rewrite <- J.
Qed.

(** ** Occurrences around a character that [t] does not have *)

Lemma app_cut : forall a b x y, a ++ b = x ++ y -> (exists m, x = a ++ m /\ b = m ++ y) \/ (exists m, a = x ++ m /\ y = m ++ b).
Proof.
  induction a as [|c a IH]; intros b x y E.
  - left. exists x. split; [reflexivity|exact E].
  - destruct x as [|d x]; [right; exists (String c a); split; [reflexivity|symmetry; exact E]|].
    cbn in E. injection E as -> E. destruct (IH _ _ _ E) as [[m [-> ->]]|[m [-> ->]]]; [left|right]; exists m; split; reflexivity.
Qed.

Lemma occurs_around : forall c t a b, free c t -> occurs t (a ++ String c b) -> occurs t a \/ occurs t b.
Proof.
  intros c t a b F (x & y & E). destruct (app_cut _ _ _ _ E) as [[m [-> E2]]|[m [-> E2]]].
  - destruct m as [|d m].
    + cbn in E2. destruct t as [|e t].
      * left. exists a, "". now rewrite app_nil.
      * exfalso. cbn in E2. injection E2 as -> _. apply F. cbn. auto.
    + cbn in E2. injection E2 as -> E2. right. exists m, y. exact E2.
  - destruct (app_cut _ _ _ _ E2) as [[k [-> E3]]|[k [-> E3]]].
    + left. exists x, k. reflexivity.
    + destruct k as [|d k].
      * left. exists x, "". now rewrite !app_nil.
      * exfalso. cbn in E3. injection E3 as -> _. apply F. rewrite chars_app, in_app_iff. right. cbn. auto.
Qed.

Lemma occurs_left : forall t a b, occurs t a -> occurs t (a ++ b).
Proof. intros t a b (x & y & ->). exists x, (y ++ b). now rewrite !app_assoc_s. Qed.
Lemma occurs_right : forall t a b, occurs t b -> occurs t (a ++ b).
Proof. intros t a b (x & y & ->). exists (a ++ x), y. now rewrite !app_assoc_s. Qed.

Lemma free_app : forall c a b, free c (a ++ b) <-> free c a /\ free c b.
Proof. intros c a b. unfold free. rewrite chars_app, in_app_iff. tauto. Qed.

(** ** Dictionaries *)

Lemma sget_sset : forall V k k' (v : V) d, sget k (sset k' v d) = if String.eqb k k' then Some v else sget k d.
Proof.
  intros V k k' v. induction d as [|[k1 v1] d IH]; cbn.
  - reflexivity.
  - destruct (String.eqb_spec k' k1) as [->|N]; cbn.
    + destruct (String.eqb_spec k k1); reflexivity.
    + destruct (String.eqb_spec k k1) as [->|N2].
      * destruct (String.eqb_spec k1 k') as [->|_]; [congruence|reflexivity].
      * exact IH.
Qed.

Lemma sset_new : forall V k (v : V) d, ~ In k (map fst d) -> sset k v d = (d ++ [(k, v)])%list.
Proof.
  intros V k v. induction d as [|[k1 v1] d IH]; cbn; intros N; [reflexivity|].
  destruct (String.eqb_spec k k1) as [->|_]; [tauto|]. rewrite IH by tauto. reflexivity.
Qed.

(** A loop that assigns new keys appends. *)
Lemma assign_loop : forall E V (f : E -> res (string * V)) (l : list E) (out : list (string * V)) (d : list (string * V)),
  mapM f l = Ok out -> NoDup (map fst d ++ map fst out) ->
  fold_left (fun acc e => do d <- acc; do kv <- f e; Ok (sset (fst kv) (snd kv) d)) l (Ok d) = Ok (d ++ out)%list.
Proof.
  intros E V f. induction l as [|e l IH]; intros out d M N; cbn in *.
  - injection M as <-. now rewrite app_nil_r.
  - destruct (f e) as [kv|] eqn:Ef; [|discriminate]. cbn in *. destruct (mapM f l) as [ys|] eqn:Em; [|discriminate].
    cbn in M. injection M as <-. cbn in N. rewrite sset_new.
    + rewrite (IH ys); [|reflexivity|].
      * destruct kv; cbn. now rewrite <- List.app_assoc.
      * rewrite map_app; cbn. rewrite <- List.app_assoc. cbn. exact N.
    + apply NoDup_remove_2 in N. rewrite in_app_iff in N. tauto.
Qed.

Lemma assign_loop_err : forall E V (f : E -> res (string * V)) (l : list E) (e : exn),
  fold_left (fun acc x => do d <- acc; do kv <- f x; Ok (sset (fst kv) (snd kv) d)) l (Err e) = @Err (list (string * V)) e.
Proof. induction l; cbn; auto. Qed.

Lemma assign_loop_fail : forall E V (f : E -> res (string * V)) (l : list E) (e : exn) (d : list (string * V)),
  mapM f l = Err e ->
  fold_left (fun acc x => do d <- acc; do kv <- f x; Ok (sset (fst kv) (snd kv) d)) l (Ok d) = @Err (list (string * V)) e.
Proof.
  intros E V f. induction l as [|x l IH]; intros e d M; cbn in *; [discriminate|].
  destruct (f x) as [kv|e1]; cbn in *.
  - destruct (mapM f l) as [ys|e2]; cbn in *; [discriminate|]. apply IH. exact M.
  - injection M as <-. apply assign_loop_err.
Qed.
