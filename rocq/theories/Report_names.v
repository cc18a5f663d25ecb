(** Names and labels of the ablation study. *)
From Coq Require Import ZArith QArith List Bool String Ascii Lia.
From Verif Require Import Prelude Dynamic_model Report_model Report_spec Report_str.
Import ListNotations.
Local Open Scope string_scope.

(** ** Characters *)

Lemma numeral_free : forall s c, numeral s -> ~ In c (list_ascii_of_string "0123456789.+-einfa") -> free c s.
Proof. intros s c H N I. apply N. now apply H. Qed.

Ltac not_in := let H := fresh in intros H; cbn in H; repeat (destruct H as [H|H]; [discriminate|]); destruct H.

Lemma numeral_facts : forall s, numeral s -> free "_" s /\ free "/" s /\ free "j" s /\ free "t" s.
Proof. intros s H. repeat split; apply numeral_free; auto; not_in. Qed.

Lemma free_first : forall c d a, free c (String d a) -> d <> c /\ free c a.
Proof. intros c d a F. split; [intros ->; apply F; cbn; auto|intros I; apply F; cbn; auto]. Qed.

Lemma prefix_head : forall c t d s, prefix (String c t) (String d s) = true -> c = d /\ prefix t s = true.
Proof. intros c t d s H. rewrite prefix_cons in H. destruct (ascii_dec c d); [split; assumption|discriminate]. Qed.

(** ** The last part of a path *)

Lemma split_slash : forall name a cur, free "/" name ->
  last (split_from "/" 0 cur (a ++ String "/" name)) "" = name /\ split_from "/" 0 cur (a ++ String "/" name) <> [].
Proof.
  intros name a cur F. revert cur. induction a as [|c a IH]; intros cur.
  - change ("" ++ String "/" name) with ("/" ++ name). rewrite split_hit.
    rewrite split_end; [split; [reflexivity|discriminate]|discriminate|].
    apply (occurs_char "/"); [discriminate|cbn; auto|exact F].
  - change (String c a ++ String "/" name) with (String c (a ++ String "/" name)). cbn [split_from].
    destruct (prefix "/" (String c (a ++ String "/" name))).
    + change (String.length "/" - 1)%nat with 0%nat. destruct (IH "") as [H N]. split; [|discriminate].
      destruct (split_from "/" 0 "" (a ++ String "/" name)) as [|p r] eqn:Es; [congruence|]. exact H.
    + apply IH.
Qed.

Lemma file_name : forall dir name, free "/" name -> last (split "/" (in_dir dir name)) "" = name.
Proof. intros dir name F. apply (split_slash name dir "" F). Qed.

Lemma stem_json : forall dir x, free "/" x -> ~ occurs ".json" x -> stem (in_dir dir (x ++ ".json")) = x.
Proof.
  intros dir x F J. unfold stem. rewrite file_name.
  2: { apply free_app. split; [exact F|]. not_in. }
  rewrite <- (app_nil ".json") at 2. rewrite split_once; [reflexivity| |].
  - intros u y E Ny. destruct (prefix _ _) eqn:P; [exfalso|reflexivity].
    destruct y as [|c1 y]; [congruence|]. cbn [String.append] in P. apply prefix_head in P. destruct P as [<- P].
    destruct y as [|c2 y]; cbn [String.append] in P; apply prefix_head in P; destruct P as [P1 P]; [discriminate|subst c2].
    destruct y as [|c3 y]; cbn [String.append] in P; apply prefix_head in P; destruct P as [P1 P]; [discriminate|subst c3].
    destruct y as [|c4 y]; cbn [String.append] in P; apply prefix_head in P; destruct P as [P1 P]; [discriminate|subst c4].
    destruct y as [|c5 y]; cbn [String.append] in P; apply prefix_head in P; destruct P as [P1 P]; [discriminate|subst c5].
    apply J. exists u, y. exact E.
  - intros H. apply contains_iff in H. discriminate.
Qed.

(** ** Labels *)

Lemma clear_first : forall c t a rest, free c a -> clear_until (String c t) a rest.
Proof.
  intros c t a rest F x y E N. destruct (prefix _ _) eqn:P; [exfalso|reflexivity].
  destruct y as [|d y]; [congruence|]. cbn [String.append] in P. apply prefix_head in P. destruct P as [P _]. subst d.
  rewrite E in F. apply free_app in F. destruct F as [_ F]. apply free_first in F. destruct F. congruence.
Qed.

Lemma clear_app : forall t a b rest, clear_until t a (b ++ rest) -> clear_until t b rest -> clear_until t (a ++ b) rest.
Proof.
  intros t a b rest A B x y E N. destruct (app_cut _ _ _ _ E) as [[m [-> E2]]|[m [-> E2]]].
  - apply (B m y E2 N).
  - destruct m as [|c m].
    + cbn in E2. subst y. apply (B "" b); [reflexivity|exact N].
    + subst y. rewrite app_assoc_s. apply (A x (String c m)); [reflexivity|discriminate].
Qed.

Lemma clear_int : forall m x b, free "_" m -> free "_" x -> free "t" x ->
  clear_until "_int_" (m ++ "_std_" ++ x) ("_int_" ++ b).
Proof.
  intros m x b Fm Fx Ft. apply clear_app; [now apply clear_first|]. apply clear_app; [|now apply clear_first].
  intros u y E N. destruct (prefix _ _) eqn:P; [exfalso|reflexivity].
  destruct u as [|c1 u]; [cbn in E; subst y; discriminate|].
  destruct u as [|c2 u]; [cbn in E; injection E as <- E; subst y; discriminate|].
  destruct u as [|c3 u]; [cbn in E; injection E as <- <- E; subst y; discriminate|].
  destruct u as [|c4 u]; [cbn in E; injection E as <- <- <- E; subst y; discriminate|].
  destruct u as [|c5 u]; [|cbn in E; injection E as <- <- <- <- <- E; destruct u; [cbn in E; congruence|discriminate]].
  cbn in E. injection E as <- <- <- <- E. subst y. cbn [String.append] in P. apply prefix_head in P. destruct P as [_ P].
  destruct x as [|d1 x]; cbn [String.append] in P; apply prefix_head in P; destruct P as [P1 P]; [discriminate|].
  destruct x as [|d2 x]; cbn [String.append] in P; apply prefix_head in P; destruct P as [P2 P]; [discriminate|].
  destruct x as [|d3 x]; cbn [String.append] in P; apply prefix_head in P; destruct P as [P3 P]; [discriminate|].
  subst d3. apply Ft. cbn. auto.
Qed.

Lemma study_label_ok : forall m x b, free "_" m -> numeral x ->
  study_label (m ++ "_std_" ++ x ++ "_int_" ++ (if b : bool then "True" else "False")) = Ok (label_of m x b).
Proof.
  intros m x b Fm Nx. destruct (numeral_facts x Nx) as (F1 & _ & _ & F4). unfold study_label, split2.
  replace (m ++ "_std_" ++ x ++ "_int_" ++ (if b then "True" else "False"))
    with ((m ++ "_std_" ++ x) ++ "_int_" ++ (if b then "True" else "False")) by (rewrite !app_assoc_s; reflexivity).
  rewrite (split_once "_" "int_").
  2: { now apply clear_int. }
  2: { intros H. apply contains_iff in H. destruct b; discriminate. }
  cbn [bind]. rewrite (split_once "_" "std_").
  2: { now apply clear_first. }
  2: { apply (occurs_char "_"); [discriminate|cbn; auto|exact F1]. }
  cbn [bind]. f_equal. unfold label_of. cbn [glue fold_right]. f_equal.
  destruct (String.eqb_spec x "0") as [->|_]; destruct b; cbn; rewrite ?app_nil, ?app_assoc_s; reflexivity.
Qed.

Lemma study_file_eq : forall m x b, study_file m x b = (m ++ "_std_" ++ x ++ "_int_" ++ (if b then "True" else "False")) ++ ".json".
Proof. intros m x b. unfold study_file. cbn [glue fold_right]. rewrite !app_assoc_s, app_nil. reflexivity. Qed.

Lemma mapper_ok : forall target mapper dir name label, study_of target mapper -> study_name target name label ->
  mapper (stem (in_dir dir name)) = Ok label.
Proof.
  intros target mapper dir name label M H.
  assert (S : exists x, name = x ++ ".json" /\ free "/" x /\ free "j" x /\ mapper x = Ok label).
  { destruct H as [| | |x b Nx|x b Nx]; inversion M; subst.
    1: exists "TIRec". 2: exists "TIRecA". 3: exists "PSIRec".
    1, 2, 3: split; [reflexivity|split; [not_in|split; [not_in|reflexivity]]].
    all: destruct (numeral_facts x Nx) as (F1 & F2 & F3 & F4); rewrite study_file_eq; eexists; split; [reflexivity|].
    all: split; [rewrite !free_app; repeat split; auto; destruct b; not_in|].
    all: split; [rewrite !free_app; repeat split; auto; destruct b; not_in|].
    all: rewrite <- study_label_ok; [reflexivity|not_in|exact Nx]. }
  destruct S as (x & -> & A & B & C). rewrite stem_json; auto.
  apply (occurs_char "j"); [discriminate|cbn; auto|exact B].
Qed.

Lemma same_tail : forall a b x y, String.length x = String.length y -> a ++ x = b ++ y -> a = b /\ x = y.
Proof.
  induction a as [|c a IH]; intros [|d b] x y L E; cbn in *.
  - auto.
  - subst x. cbn in L. rewrite len_app in L. lia.
  - subst y. cbn in L. rewrite len_app in L. lia.
  - injection E as -> E. destruct (IH _ _ _ L E). now subst.
Qed.

Lemma label_inj : forall m x b x' b', label_of m x b = label_of m x' b' -> x = x' /\ b = b'.
Proof.
  intros m x b x' b' E. unfold label_of in E.
  assert (E' : x ++ (";" ++ (if b then "0" else "B") ++ ")") = x' ++ (";" ++ (if b' then "0" else "B") ++ ")")).
  { induction m as [|c m IH]; [cbn in E; now injection E|]. apply IH. cbn in E. now injection E. }
  apply same_tail in E'; [|destruct b, b'; reflexivity]. destruct E' as [-> E']. split; [reflexivity|]. destruct b, b'; solve [reflexivity|discriminate].
Qed.

Lemma label_unique : forall target name name' label, study_name target name label -> study_name target name' label -> name = name'.
Proof.
  intros target name name' label H H'.
  destruct H as [| | |x b Nx|x b Nx].
  1, 2, 3: inversion H'; reflexivity.
  - remember (label_of "TIRecA" x b) as lab eqn:L. remember "TIRec" as tg eqn:T.
    destruct H'; try discriminate. apply label_inj in L. destruct L as [-> ->]. reflexivity.
  - remember (label_of "PSIRec" x b) as lab eqn:L. remember "PSIRec" as tg eqn:T.
    destruct H'; try discriminate. apply label_inj in L. destruct L as [-> ->]. reflexivity.
Qed.

(** The mapping refuses everything of another form. *)
Lemma study_label_outcome : forall s, (exists m x b, s = m ++ "_std_" ++ x ++ "_int_" ++ b) \/ study_label s = Err ValueError.
Proof.
  intros s. unfold study_label. destruct (split2 "_int_" s) as [[l i]|e] eqn:E1.
  - apply split2_shape in E1. cbn [bind]. destruct (split2 "_std_" l) as [[m x]|e] eqn:E2.
    + apply split2_shape in E2. left. exists m, x, i. subst. rewrite !app_assoc_s. reflexivity.
    + right. unfold split2 in E2. destruct (split "_std_" l) as [|? [|? [|? ?]]]; try discriminate; injection E2 as <-; reflexivity.
  - right. unfold split2 in E1. destruct (split "_int_" s) as [|? [|? [|? ?]]]; try discriminate; injection E1 as <-; reflexivity.
Qed.

Lemma study_label_errors : forall s e, study_label s = Err e -> e = ValueError.
Proof.
  intros s e. unfold study_label, split2.
  destruct (split "_int_" s) as [|l [|i [|? ?]]]; cbn [bind]; try congruence.
  destruct (split "_std_" l) as [|? [|? [|? ?]]]; cbn [bind]; congruence.
Qed.

Lemma mapper_errors : forall target mapper s e, study_of target mapper -> mapper s = Err e -> e = ValueError.
Proof.
  intros target mapper s e []; unfold map_tensor_name, map_matrix_name;
    repeat match goal with |- context [if ?c then _ else _] => destruct c end; try discriminate; apply study_label_errors.
Qed.
