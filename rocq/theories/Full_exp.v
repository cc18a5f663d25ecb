(** Whole experiments for any model whose state describes the rows it has been given. *)
From Coq Require Import ZArith QArith List Bool Lia Permutation.
From Verif Require Import Prelude Prelude_proofs DataPrep_model DataPrep_spec DataPrep_proofs DataPrep_main Eval_model Eval_spec Eval_proofs Eval_main Tensor_model Tensor_spec Matrix_model LinAlg_model Full_spec Full_rec Dynamic_model Dynamic_spec Dynamic_main Dynamic_extra.
From Verif Require Full_gen.
Import ListNotations.
Open Scope Z_scope.

Section Exp.
  Context {S D A V T : Type} (zero : A) (sub : A -> A -> A).
  Variables (norm : mat A -> V) (div : V -> V -> V) (minus_one : V) (clock : nat -> T).
  Variable m : api S D A.
  Variables (grow : D -> list row -> res D) (test_users : list Z) (chunk_mode : bool) (hm : Z).
  Variables (st0 : S) (initial : D) (first_rows : list row) (stream : list (list row)).
  Variable k : nat.
  Hypothesis k1 : (1 <= k)%nat.
  Variable keep : list row -> list row.
  Variable good : S -> D -> list row -> Prop.
  Variable fits : list row -> list row -> Prop.
  Variable starts : Prop.
  Variable chosen : S -> list row -> Z -> list Z -> Prop.
  Variables width_u width_v : nat.   (* numbers of columns of the embeddings *)

  Variable excuse : exn -> Prop.   (* exceptions of external routines *)

  Hypothesis train_cases : match train m st0 initial with
    | Ok s => starts /\ good s initial first_rows
    | Err e => starts -> excuse e end.
  Hypothesis good_users : forall s d P, good s d P -> bij (m_users (maps m s)) 0.
  Hypothesis good_items : forall s d P, good s d P -> bij (m_items (maps m s)) 0.
  Hypothesis good_known : forall s d P r, good s d P -> known (maps m s) r = heard P r.
  Hypothesis good_rec : forall s d P us b, good s d P ->
    ((exists rows, recommend m s us b = Ok rows) <-> forall u, In u us -> serves k P u).
  Hypothesis good_external : forall s d P us rows, good s d P -> recommend m s us false = Ok rows ->
    Forall2 (fun u row => offer k P u row /\ chosen s P u row) us rows.
  Hypothesis good_internal : forall s d P us rows, good s d P -> recommend m s us true = Ok rows ->
    length rows = length us /\
    Forall (fun row => length row = k /\ NoDup row /\ forall j, In j row -> 0 <= j < Z.of_nat (length (catalogue P))) rows.
  Hypothesis good_n : forall s d P, good s d P -> n_items m s = length (catalogue P).
  Hypothesis good_u : forall s d P, good s d P -> exists u, get_u m s = Ok u /\
    mr u = length (nodup Z.eq_dec (map r_user P)) /\ mc u = width_u.
  Hypothesis good_v : forall s d P, good s d P -> exists v, get_v m s = Ok v /\
    mr v = length (catalogue P) /\ mc v = width_v.
  Notation upd_step := (Full_gen.upd_step m grow chunk_mode).
  Hypothesis update_cases : forall s d P c, good s d P -> match upd_step (s, d) c with
    | Ok (s', d') => fits P c /\ good s' d' (P ++ keep c)
    | Err e => fits P c -> excuse e end.

  Notation past t := (past keep first_rows stream t).
  Notation n := (n_steps hm (length stream)).
  Notation experiment := (dynamical_experiment zero sub norm div minus_one clock m grow test_users chunk_mode hm st0 initial stream).
  Notation runs := (runs zero sub norm div minus_one m grow test_users chunk_mode).

  Lemma past_S t c : nth_error stream t = Some c -> past (Datatypes.S t) = past t ++ keep c.
  Proof.
    intros E. unfold Full_spec.past. rewrite <- app_assoc. f_equal.
    assert (F : firstn (Datatypes.S t) stream = firstn t stream ++ [c]).
    { clear -E. revert t E. induction stream as [|x l IH]; intros [|t] E; cbn in *; try discriminate; [congruence|]. now rewrite <- (IH t E). }
    rewrite F, map_app, concat_app. cbn. now rewrite app_nil_r.
  Qed.
  Lemma n_le : (n <= length stream)%nat.
  Proof. unfold n_steps. destruct (0 <? hm); lia. Qed.
  Lemma chunk_at t : (t < n)%nat -> exists c, nth_error stream t = Some c.
  Proof.
    intros H. destruct (nth_error stream t) eqn:E; [eauto|]. apply nth_error_None in E. pose proof n_le. lia.
  Qed.
  Lemma distinct_grow (key : row -> Z) P Q : (length (nodup Z.eq_dec (map key P)) <= length (nodup Z.eq_dec (map key (P ++ Q))))%nat.
  Proof.
    apply NoDup_incl_length; [apply NoDup_nodup|]. intros x Hx. apply nodup_In in Hx. apply nodup_In.
    rewrite map_app, in_app_iff. auto.
  Qed.

  Definition all_fit : Prop := starts /\ feasible k fits keep test_users first_rows stream n.
  Definition fits_at (t : nat) : Prop := forall c, nth_error stream t = Some c -> fits (past t) c.

  Lemma first_past : past 0 = first_rows.
  Proof. unfold Full_spec.past. cbn. apply app_nil_r. Qed.
  Lemma train_cases' : match train m st0 initial with
    | Ok s => starts /\ good s initial (past 0) /\ True | Err e => starts -> excuse e end.
  Proof. rewrite first_past. destruct (train m st0 initial); [|exact train_cases]. destruct train_cases; auto. Qed.
  Lemma update_cases' : forall t c s d, (t < n)%nat -> nth_error stream t = Some c -> good s d (past t) -> match upd_step (s, d) c with
    | Ok (s', d') => fits_at t /\ good s' d' (past (Datatypes.S t)) /\ (True -> Full_gen.items_grow (fun t => past t) t -> True)
    | Err e => fits_at t -> excuse e end.
  Proof.
    intros t c s d _ Ec G. pose proof (update_cases s d (past t) c G) as X. destruct (upd_step (s, d) c) as [[s' d']|e].
    - destruct X as [X1 X2]. rewrite (past_S _ _ Ec). split; auto. intros c' Ec'. rewrite Ec in Ec'. injection Ec' as <-. exact X1.
    - intros F. apply X, F, Ec.
  Qed.
  Lemma users_more : forall t, (Datatypes.S t < n)%nat -> Full_gen.users_grow (fun t => past t) t.
  Proof. intros t Ht. destruct (chunk_at t ltac:(lia)) as [c Ec]. unfold Full_gen.users_grow. rewrite (past_S _ _ Ec). apply distinct_grow. Qed.
  Lemma items_more : Full_gen.always_grow hm stream (fun t => past t).
  Proof. intros t Ht. destruct (chunk_at t ltac:(lia)) as [c Ec]. unfold Full_gen.items_grow. rewrite (past_S _ _ Ec). apply distinct_grow. Qed.
  Lemma good_rec_only : forall s d P us b rows, good s d P -> recommend m s us b = Ok rows -> forall u, In u us -> serves k P u.
  Proof. intros s d P us b rows G R. apply (good_rec s d P us b G). eauto. Qed.
  Lemma good_rec_if : forall s d P us b, good s d P -> True -> (forall u, In u us -> serves k P u) -> exists rows, recommend m s us b = Ok rows.
  Proof. intros s d P us b G _. apply (good_rec s d P us b G). Qed.

  Lemma outcome_main : match experiment with Ok _ => all_fit | Err e => all_fit -> excuse e end.
  Proof.
    assert (EQ : Full_gen.all_fit test_users hm stream k (fun t => past t) fits_at starts <-> all_fit).
    { unfold Full_gen.all_fit, all_fit, feasible, fits_at. split; intros [H1 [H2 H3]]; (split; [exact H1|]; split; [|exact H3]); intros t c Ht Ec.
      - destruct (H2 t c Ht Ec) as [X1 X2]. auto.
      - destruct (H2 t c Ht Ec) as [X1 X2]. split; auto. intros c' Ec'. rewrite Ec in Ec'. injection Ec' as <-. exact X2. }
    pose proof (Full_gen.outcome_main zero sub norm div minus_one clock m grow test_users chunk_mode hm st0 initial stream k k1 (fun t => past t)
      good (fun _ _ => True) fits_at starts chosen width_u width_v excuse train_cases' good_users good_items good_known good_rec_only good_rec_if
      good_external good_internal good_n good_u good_v update_cases' users_more) as X.
    destruct experiment; [apply EQ, X|]. intros F. apply X; [apply EQ, F|exact items_more].
  Qed.

  Lemma report_main dyn : experiment = Ok dyn -> exists (model : nat -> S) (table : nat -> D),
    train m st0 initial = Ok (model 0%nat) /\ table 0%nat = initial /\
    (forall t c, (t < n)%nat -> nth_error stream t = Some c ->
       updates m grow chunk_mode (model t) (table t) c (model (Datatypes.S t)) (table (Datatypes.S t)) /\
       exists h q, nth_error (d_hr dyn) t = Some h /\ nth_error (d_mrr dyn) t = Some q /\
         step_report k (chosen (model t) (past t)) (past t) c h q) /\
    length (d_hr dyn) = n /\ length (d_mrr dyn) = n /\ length (d_wji dyn) = (n - 1)%nat /\
    Forall (fun w => 0 <= w <= 1)%Q (d_wji dyn).
  Proof.
    exact (Full_gen.report_main zero sub norm div minus_one clock m grow test_users chunk_mode hm st0 initial stream k k1 (fun t => past t)
      good (fun _ _ => True) fits_at starts chosen excuse train_cases' good_users good_items good_known good_rec_only good_rec_if
      good_external good_internal good_n update_cases' dyn).
  Qed.
End Exp.
