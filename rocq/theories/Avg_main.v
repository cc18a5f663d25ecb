(** Lemmas for C110. *)
From Coq Require Import ZArith QArith Qfield List Bool String Lia Lqa.
From Verif Require Import Prelude DataPrep_model Eval_model Eval_spec Tensor_model Dynamic_model Dynamic_spec Report_model Report_spec Avg_spec.
From Verif Require Eval_proofs Dynamic_main Report_tab Report_graph.
Import ListNotations.
Open Scope Q_scope.

Lemma Qsum_app l l' : Qsum (l ++ l') == Qsum l + Qsum l'.
Proof. induction l as [|x l IH]; cbn [app Qsum]; [ring|]. rewrite IH. ring. Qed.
Lemma total_S n f : total (S n) f == total n f + f n.
Proof. unfold total. rewrite seq_S, map_app, Qsum_app. cbn [plus map Qsum]. ring. Qed.
Lemma total_0 f : total 0 f = 0. Proof. reflexivity. Qed.
Lemma total_ext n f g : (forall t, (t < n)%nat -> f t == g t) -> total n f == total n g.
Proof.
  induction n as [|n IH]; intros E; [reflexivity|]. rewrite !total_S, IH, (E n) by (auto with arith). reflexivity.
Qed.
Lemma total_le n f g : (forall t, (t < n)%nat -> f t <= g t) -> total n f <= total n g.
Proof.
  induction n as [|n IH]; intros E; [rewrite !total_0; lra|].
  rewrite !total_S. assert (total n f <= total n g) by auto with arith. assert (f n <= g n) by auto with arith. lra.
Qed.
Lemma total_scale n f c : total n (fun t => c * f t) == c * total n f.
Proof. induction n as [|n IH]; [rewrite !total_0; ring|]. rewrite !total_S, IH. ring. Qed.
Lemma num_S n : num (S n) == num n + 1.
Proof. unfold num. rewrite Nat2Z.inj_succ, <- Z.add_1_r, inject_Z_plus. reflexivity. Qed.
Lemma num_plus a b : num (a + b) == num a + num b.
Proof. unfold num. rewrite Nat2Z.inj_add, inject_Z_plus. reflexivity. Qed.
Lemma num_pos n : (0 < n)%nat -> 0 < num n.
Proof. apply Eval_proofs.len_pos. Qed.
Lemma total_one n : total n (fun _ => 1) == num n.
Proof. induction n as [|n IH]; [reflexivity|]. rewrite total_S, IH, num_S. reflexivity. Qed.
Lemma num_sum n (w : nat -> nat) : num (list_sum (map w (seq 0 n))) == total n (fun t => num (w t)).
Proof.
  induction n as [|n IH]; [reflexivity|]. rewrite seq_S, map_app, list_sum_app, num_plus, IH, total_S.
  cbn [plus map list_sum fold_right]. rewrite Nat.add_0_r. reflexivity.
Qed.
Lemma Qsum_right l : Qsum l = fold_right Qplus 0 l.
Proof. induction l as [|x l IH]; [reflexivity|]. cbn [Qsum fold_right]. now rewrite IH. Qed.

(** ** Weighted means *)
Lemma lowest n (f : nat -> Q) : (0 < n)%nat -> exists t, (t < n)%nat /\ forall s, (s < n)%nat -> f t <= f s.
Proof.
  induction n as [|n IH]; [lia|]. intros _. destruct n as [|n].
  - exists 0%nat. split; [lia|]. intros s Hs. replace s with 0%nat by lia. lra.
  - destruct IH as (t & Ht & L); [lia|]. destruct (Qlt_le_dec (f (S n)) (f t)) as [C|C].
    + exists (S n). split; [lia|]. intros s Hs. destruct (Nat.eq_dec s (S n)) as [->|N]; [lra|]. assert (f t <= f s) by (apply L; lia). lra.
    + exists t. split; [lia|]. intros s Hs. destruct (Nat.eq_dec s (S n)) as [->|N]; [exact C|]. apply L. lia.
Qed.

Lemma weighted_low n f (w : nat -> Q) q : (0 < n)%nat -> (forall t, (t < n)%nat -> 0 < w t) ->
  q * total n w == total n (fun t => f t * w t) -> exists t, (t < n)%nat /\ f t <= q.
Proof.
  intros Hn Hw E. destruct (lowest n f Hn) as (t & Ht & L). exists t. split; [exact Ht|].
  assert (P : 0 < total n w).
  { clear E L f q t Ht. destruct n as [|n]; [lia|]. rewrite total_S. assert (0 < w n) by auto with arith.
    assert (0 <= total n w). { rewrite <- (Qmult_0_l (total n (fun _ => 0))). rewrite <- total_scale. apply total_le. intros. assert (0 < w t) by auto with arith. lra. }
    lra. }
  assert (A : f t * total n w <= q * total n w).
  { rewrite E, <- total_scale. apply total_le. intros s Hs. apply Qmult_le_compat_r; [auto|]. apply Qlt_le_weak; auto. }
  destruct (Qlt_le_dec q (f t)) as [C|C]; [|exact C]. assert (q * total n w < f t * total n w) by (apply Qmult_lt_compat_r; auto). lra.
Qed.

Lemma weighted_between n f w q : (0 < n)%nat -> (forall t, (t < n)%nat -> 0 < w t) ->
  q * total n w == total n (fun t => f t * w t) -> between n f q.
Proof.
  intros Hn Hw E. split; [eapply weighted_low; eauto|].
  destruct (weighted_low n (fun t => - f t) w (- q) Hn Hw) as (t & Ht & L).
  - transitivity (- (1) * total n (fun t => f t * w t)); [rewrite <- E; ring|]. rewrite <- total_scale. apply total_ext. intros. ring.
  - exists t. split; [exact Ht|]. lra.
Qed.

Lemma mean_between n f q : (0 < n)%nat -> q * num n == total n f -> between n f q.
Proof.
  intros Hn E. apply (weighted_between n f (fun _ => 1) q Hn); [intros; lra|].
  rewrite total_one, E. apply total_ext. intros. ring.
Qed.

(** ** Cells *)
Lemma metrics_nodup : NoDup table_metrics.
Proof. repeat constructor; cbn; intuition discriminate. Qed.

Lemma cell_of metric (dyn : dynamics Q Q) l : In metric table_metrics -> sget metric (json_of dyn) = Some l -> l <> [] ->
  exists q, shown metric (json_of dyn) q /\ q * num (List.length l) == Qsum l.
Proof.
  intros I G N. destruct (Report_tab.cell_shows table_metrics (Ok (json_of dyn)) metric metrics_nodup I) as [(j & l' & E & _ & G' & C)|[C _]].
  - injection E as <-. rewrite G in G'. injection G' as <-. destruct C as [[-> _]|(_ & q & C & V)]; [now contradiction N|].
    exists q. split; [exists q; split; [exact C|reflexivity]|]. rewrite Qsum_right. exact V.
  - exfalso. destruct (C _ eq_refl) as (m & Im & G'). cbn in Im. destruct Im as [<-|[<-|[<-|[<-|[]]]]]; discriminate.
Qed.

Lemma cell_series metric (dyn : dynamics Q Q) n f : In metric table_metrics -> sget metric (json_of dyn) = Some (series n f) -> (0 < n)%nat ->
  exists q, shown metric (json_of dyn) q /\ q * num n == total n f.
Proof.
  intros I G N. destruct (cell_of metric dyn _ I G) as (q & S & V).
  - destruct n; [lia|discriminate].
  - exists q. split; [exact S|]. rewrite Report_graph.series_len in V. exact V.
Qed.

Lemma choose n {X} (P : nat -> X -> Prop) (d : X) : (forall t, (t < n)%nat -> exists x, P t x) ->
  exists f : nat -> X, forall t, (t < n)%nat -> P t (f t).
Proof.
  induction n as [|n IH]; intros E; [exists (fun _ => d); lia|].
  destruct IH as [f F]; [intros; apply E; lia|]. destruct (E n) as [x Px]; [lia|].
  exists (fun t => if Nat.eqb t n then x else f t). intros t Ht. destruct (Nat.eqb_spec t n) as [->|N]; [exact Px|]. apply F. lia.
Qed.

Lemma steps_le hm n : (n_steps hm n <= n)%nat.
Proof. unfold n_steps. destruct (0 <? hm)%Z; lia. Qed.

Lemma hr_parts rec items h : hr rec items = Ok h -> (0 < List.length items)%nat /\ h * num (List.length items) == num (Eval_spec.hits rec items).
Proof.
  intros E. destruct (Eval_proofs.hr_exact_main rec items) as (A & B & C).
  destruct (Nat.lt_ge_cases (List.length rec) (List.length items)) as [L|L]; [rewrite (A L) in E; discriminate|].
  destruct items as [|i items]; [rewrite (B eq_refl) in E; discriminate|]. split; [cbn; lia|].
  destruct C as (q & E' & V & _); [exact L|discriminate|]. rewrite E in E'. injection E' as <-. rewrite V.
  assert (0 < num (List.length (i :: items))) by (apply num_pos; cbn; lia).
  unfold num in *. field. lra.
Qed.

Lemma mrr_parts rec items h : mrr rec items = Ok h -> exists rrs, Forall2 (fun rt y => RR (fst rt) (snd rt) y) (combine rec items) rrs /\
  h * num (List.length items) == Qsum rrs.
Proof.
  intros E. destruct (Eval_proofs.mrr_is_mean_main rec items) as (A & B & C).
  destruct (Nat.lt_ge_cases (List.length rec) (List.length items)) as [L|L]; [rewrite (A L) in E; discriminate|].
  destruct items as [|i items]; [rewrite (B eq_refl) in E; discriminate|].
  destruct C as (q & rrs & E' & F & V); [exact L|discriminate|]. rewrite E in E'. injection E' as <-. exists rrs. split; [exact F|]. rewrite V.
  assert (0 < num (List.length (i :: items))) by (apply num_pos; cbn; lia).
  unfold num in *. field. lra.
Qed.

(** The overall value against the mean of the steps, for values [f] with weights [w]. *)
Lemma overall_vs_mean n f (w : nat -> nat) q p x : (0 < n)%nat -> (forall t, (t < n)%nat -> (0 < w t)%nat) ->
  q * num n == total n f -> p == x / num (list_sum (map w (seq 0 n))) -> x == total n (fun t => f t * num (w t)) ->
  between n f q /\ between n f p /\ ((forall t, (t < n)%nat -> w t = w 0%nat) -> q == p).
Proof.
  intros Hn Hw Q P X.
  assert (W : 0 < num (list_sum (map w (seq 0 n)))).
  { apply num_pos. destruct n as [|n]; [lia|]. cbn [seq map list_sum fold_right]. specialize (Hw 0%nat). lia. }
  assert (E : p * total n (fun t => num (w t)) == total n (fun t => f t * num (w t))).
  { rewrite <- num_sum, P, X. field. lra. }
  split; [now apply mean_between|]. split; [apply (weighted_between n f (fun t => num (w t)) p Hn); [intros; now apply num_pos, Hw|exact E]|].
  intros Same. rewrite (total_ext n (fun t => num (w t)) (fun _ => num (w 0%nat) * 1)) in E by (intros t Ht; rewrite (Same t Ht); ring).
  rewrite (total_ext n (fun t => f t * num (w t)) (fun t => num (w 0%nat) * f t)) in E by (intros t Ht; rewrite (Same t Ht); ring).
  rewrite !total_scale, total_one, <- Q in E.
  assert (0 < num n) by now apply num_pos. assert (0 < num (w 0%nat)) by (apply num_pos, Hw; exact Hn).
  assert (Z : p * (num (w 0%nat) * num n) == q * (num (w 0%nat) * num n)) by (rewrite E; ring).
  apply Qmult_inj_r in Z; [now rewrite Z|]. intros C. assert (0 < num (w 0%nat) * num n) by now apply Qmult_lt_0_compat. lra.
Qed.

Section Experiment.
  Context {S D A : Type} (zero : A) (sub : A -> A -> A) (norm : mat A -> Q) (div : Q -> Q -> Q) (minus_one : Q)
    (clock : nat -> Q) (m : api S D A) (grow : D -> list DataPrep_model.row -> res D) (test_users : list Z) (chunk_mode : bool).

  Theorem table_main how_many st0 initial stream dyn n :
    dynamical_experiment zero sub norm div minus_one clock m grow test_users chunk_mode how_many st0 initial stream = Ok dyn ->
    n = n_steps how_many (List.length stream) -> (0 < n)%nat ->
    exists (H : history) (lists : nat -> list (list Z)) (items : nat -> list Z) (h r c o : Q),
      runs zero sub norm div minus_one m grow test_users chunk_mode st0 initial stream n H /\ dyn = reported norm clock n H /\
      tested_in m stream n H lists items /\
      (forall t, (t < n)%nat -> (0 < List.length (items t))%nat /\ Dynamic_spec.hits H t * num (List.length (items t)) == num (Eval_spec.hits (lists t) (items t))) /\
      shown "hr" (json_of dyn) h /\ shown "mrr" (json_of dyn) r /\ shown "calculation_time" (json_of dyn) c /\
      overall_rank lists items n o /\
      h * num n == total n (Dynamic_spec.hits H) /\ between n (Dynamic_spec.hits H) h /\ between n (Dynamic_spec.hits H) (overall_share lists items n) /\
      r * num n == total n (ranks H) /\ between n (ranks H) r /\ between n (ranks H) o /\
      c * num (n + 1) == clock 0%nat + total n (fun t => clock (t + 1)%nat) /\
      ((forall t, (t < n)%nat -> List.length (items t) = List.length (items 0%nat)) -> h == overall_share lists items n /\ r == o).
  Proof.
    intros E -> Hn. apply Dynamic_main.experiment_main in E. destruct E as (H & R & ->).
    set (n := n_steps how_many (List.length stream)) in *.
    destruct (choose n (fun t li => forall chunk, nth_error stream t = Some chunk ->
        recommend m (st H t) (fst (tests m chunk (st H t))) false = Ok (fst li) /\ snd li = snd (tests m chunk (st H t)) /\
        hr (fst li) (snd li) = Ok (Dynamic_spec.hits H t) /\ mrr (fst li) (snd li) = Ok (ranks H t)) ([], [])) as [li F].
    { intros t Ht. destruct (nth_error stream t) as [chunk|] eqn:Et.
      - destruct R as (_ & _ & R & _). destruct (R t chunk Ht Et) as ((rec & R1 & R2 & R3) & _).
        exists (rec, snd (tests m chunk (st H t))). intros c [= <-]. cbn [fst snd]. auto.
      - exists ([], []). discriminate. }
    assert (G : forall t, (t < n)%nat -> hr (fst (li t)) (snd (li t)) = Ok (Dynamic_spec.hits H t) /\ mrr (fst (li t)) (snd (li t)) = Ok (ranks H t)).
    { intros t Ht. destruct (nth_error stream t) as [chunk|] eqn:Et; [destruct (F t Ht chunk Et) as (_ & _ & ?); auto|].
      apply nth_error_None in Et. unfold n in Ht. pose proof (steps_le how_many (List.length stream)). lia. }
    set (lists t := fst (li t)). set (items t := snd (li t)).
    assert (P : forall t, (t < n)%nat -> (0 < List.length (items t))%nat /\ Dynamic_spec.hits H t * num (List.length (items t)) == num (Eval_spec.hits (lists t) (items t))).
    { intros t Ht. apply hr_parts, G, Ht. }
    destruct (choose n (fun t rrs => Forall2 (fun rt y => RR (fst rt) (snd rt) y) (combine (lists t) (items t)) rrs /\
        ranks H t * num (List.length (items t)) == Qsum rrs) []) as [rrs RS].
    { intros t Ht. apply mrr_parts, G, Ht. }
    set (o := total n (fun t => Qsum (rrs t)) / num (all_tests items n)).
    destruct (cell_series "hr" (reported norm clock n H) n (Dynamic_spec.hits H)) as (h & Sh & Vh); [cbn; tauto|reflexivity|exact Hn|].
    destruct (cell_series "mrr" (reported norm clock n H) n (ranks H)) as (r & Sr & Vr); [cbn; tauto|reflexivity|exact Hn|].
    destruct (cell_series "calculation_time" (reported norm clock n H) (n + 1) clock) as (c & Sc & Vc); [cbn; tauto|reflexivity|lia|].
    destruct (overall_vs_mean n (Dynamic_spec.hits H) (fun t => List.length (items t)) h (overall_share lists items n) (num (all_hits lists items n)) Hn) as (B1 & B2 & B3).
    { intros t Ht. apply P, Ht. } { exact Vh. } { reflexivity. }
    { unfold all_hits. rewrite num_sum. apply total_ext. intros t Ht. destruct (P t Ht) as [_ ->]. reflexivity. }
    destruct (overall_vs_mean n (ranks H) (fun t => List.length (items t)) r o (total n (fun t => Qsum (rrs t))) Hn) as (C1 & C2 & C3).
    { intros t Ht. apply P, Ht. } { exact Vr. } { reflexivity. }
    { apply total_ext. intros t Ht. destruct (RS t Ht) as [_ ->]. reflexivity. }
    exists H, lists, items, h, r, c, o.
    split; [exact R|]. split; [reflexivity|].
    split; [intros t chunk Ht Et; destruct (F t Ht chunk Et) as (? & ? & _); auto|].
    split; [exact P|]. split; [exact Sh|]. split; [exact Sr|]. split; [exact Sc|].
    split; [exists rrs; split; [intros t Ht; apply RS, Ht|reflexivity]|].
    split; [exact Vh|]. split; [exact B1|]. split; [exact B2|]. split; [exact Vr|]. split; [exact C1|]. split; [exact C2|].
    split; [|intros Same; auto].
    rewrite Vc. clear. rewrite Nat.add_1_r. induction n as [|k IH]; [cbn; ring|].
    rewrite total_S, IH, (total_S k). replace (k + 1)%nat with (Datatypes.S k) by lia. ring.
  Qed.
End Experiment.

(** ** The end of the running totals *)
Lemma total_window l : window_total l 0 (List.length l) == Qsum l.
Proof.
  induction l as [|x l IH]; [reflexivity|]. cbn [List.length Qsum]. rewrite Report_graph.window_total_cons, IH. reflexivity.
Qed.

Lemma draws_in key curve results f r : draws key curve results f -> In r results ->
  exists y l, In (fst r, y) (f_curves f) /\ sget key (snd r) = Some l /\ curve l y.
Proof.
  intros F. induction F as [|r' c rs cs (E & l & G & C) F IH]; intros I; [destruct I|].
  destruct I as [<-|I].
  - exists (snd c), l. split; [left; rewrite <- E; now destruct c|auto].
  - destruct (IH I) as (y & l' & ? & ?). exists y, l'. split; [now right|auto].
Qed.

Lemma end_of_totals l y : totals l y -> l <> [] -> nth_error y (List.length l - 1) <> None /\ last y 0 == Qsum l.
Proof.
  intros [L T] N. destruct (T (List.length l - 1)%nat) as (x & E & V); [destruct l; [congruence|cbn; lia]|].
  split; [congruence|]. replace (List.length l - 1 + 1)%nat with (List.length l) in V by (destruct l; [congruence|cbn; lia]).
  rewrite total_window in V. rewrite <- V.
  assert (y <> []) by (intros ->; destruct l; [congruence|discriminate]).
  destruct (exists_last H) as (y' & z & ->). rewrite last_last.
  rewrite app_length in L. cbn [List.length] in L. rewrite nth_error_app2, <- L in E by lia.
  replace (List.length y' + 1 - 1 - List.length y')%nat with 0%nat in E by lia. injection E as ->. reflexivity.
Qed.

Theorem curve_ends (digits : Z -> string) dir topk (results : list (string * json)) extra f n m m' j j' q q' :
  plot_cum_hr digits dir topk results extra = Ok f -> (0 < n)%nat ->
  (forall r, In r results -> result_of_steps n (snd r)) ->
  In (m, j) results -> In (m', j') results -> shown "hr" j q -> shown "hr" j' q' ->
  exists y y', In (m, y) (f_curves f) /\ In (m', y') (f_curves f) /\ List.length y = n /\ List.length y' = n /\
    last y 0 == num n * q /\ last y' 0 == num n * q' /\ (last y 0 < last y' 0 <-> q < q').
Proof.
  intros E Hn R I I' Sq Sq'.
  destruct (Report_graph.cum_fig digits dir topk results extra n) as (f' & E' & _ & Dr); [intros ->; destruct I|exact R|].
  rewrite E in E'. injection E' as <-.
  assert (One : forall m j q, In (m, j) results -> shown "hr" j q -> exists y, In (m, y) (f_curves f) /\ List.length y = n /\ last y 0 == num n * q).
  { clear m m' j j' q q' I I' Sq Sq'. intros m j q I (c & G & C).
    destruct (draws_in _ _ _ _ _ Dr I) as (y & l & Iy & Gl & T). cbn [fst snd] in *. exists y. split; [exact Iy|].
    destruct (R _ I) as (_ & (l' & Gl' & L) & _). cbn [snd] in Gl'. rewrite Gl in Gl'. injection Gl' as <-.
    split; [now rewrite (proj1 T)|]. destruct (end_of_totals l y T) as [_ ->]; [intros ->; cbn in L; lia|].
    destruct (Report_tab.cell_shows table_metrics (Ok j) "hr" metrics_nodup (or_introl eq_refl)) as [(j' & l' & Ej & _ & G' & V)|[_ V]]; [|congruence].
    injection Ej as <-. rewrite Gl in G'. injection G' as <-. destruct V as [[_ V]|(_ & q' & V & W)]; [congruence|].
    rewrite G in V. injection V as <-. rewrite Qsum_right, <- W, L, C. unfold num. ring. }
  destruct (One _ _ _ I Sq) as (y & Iy & Ly & Vy). destruct (One _ _ _ I' Sq') as (y' & Iy' & Ly' & Vy').
  exists y, y'. split; [exact Iy|]. split; [exact Iy'|]. split; [exact Ly|]. split; [exact Ly'|]. split; [exact Vy|]. split; [exact Vy'|].
  rewrite Vy, Vy'. apply Qmult_lt_l. now apply num_pos.
Qed.
