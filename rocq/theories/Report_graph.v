(** Figures drawn from results. *)
From Coq Require Import ZArith QArith List Bool String Ascii Lia.
From Verif Require Import Prelude DataPrep_model Tensor_model Dynamic_model Dynamic_spec Dynamic_main Dynamic_extra
  Report_model Report_spec Report_str.
Import ListNotations.
Local Open Scope string_scope.
Local Open Scope list_scope.

(** ** Curves *)

Lemma window_total_cons : forall x l k, (window_total (x :: l) 0 (S k) == x + window_total l 0 k)%Q.
Proof.
  intros x l k. unfold window_total. cbn [seq map fold_right]. rewrite Nat.add_0_r. cbn [nth].
  rewrite <- seq_shift, map_map. apply Qplus_comp; [reflexivity|].
  rewrite (map_ext (fun j => nth (0 + S j) (x :: l) 0%Q) (fun j => nth (0 + j) l 0%Q)); [reflexivity|].
  intros j. reflexivity.
Qed.

Lemma cumsum_from_len : forall l acc, List.length (cumsum_from acc l) = List.length l.
Proof. induction l; cbn; intros; auto. Qed.

Lemma cumsum_from_nth : forall l acc t, (t < List.length l)%nat ->
  exists x, nth_error (cumsum_from acc l) t = Some x /\ (x == acc + window_total l 0 (t + 1))%Q.
Proof.
  induction l as [|y l IH]; intros acc t L; cbn in L; [lia|].
  destruct t as [|t]; cbn [cumsum_from nth_error].
  - eexists. split; [reflexivity|]. change (0 + 1)%nat with (S 0). rewrite window_total_cons.
    change (window_total l 0 0) with 0%Q. ring.
  - destruct (IH (acc + y)%Q t) as (x & E & V); [lia|]. exists x. split; [exact E|].
    change (S t + 1)%nat with (S (t + 1)). rewrite window_total_cons, V. ring.
Qed.

Lemma cumsum_totals : forall l, totals l (cumsum l).
Proof.
  intros l. split; [apply cumsum_from_len|]. intros t L.
  destruct (cumsum_from_nth l 0%Q t L) as (x & E & V). exists x. split; [exact E|]. rewrite V. ring.
Qed.

Lemma window_averages : forall l w, (0 < w)%nat -> exists y, sliding_window l w WMean = Ok y /\ averages w l y.
Proof.
  intros l w W. destruct (sliding_main l w) as [A B].
  destruct (Nat.lt_ge_cases (List.length l) w) as [L|L].
  - exists l. split; [apply A; exact L|]. left. split; [exact L|reflexivity].
  - destruct (B L) as (_ & _ & M). destruct (M W) as (y & E & Ly & V). exists y. split; [exact E|].
    right. split; [exact L|]. split; [exact Ly|exact V].
Qed.

Lemma averages_len : forall w l l' y y', averages w l y -> averages w l' y' -> List.length l = List.length l' -> List.length y = List.length y'.
Proof.
  intros w l l' y y' [[A ->]|(A & B & _)] [[A' ->]|(A' & B' & _)] E; try congruence; lia.
Qed.

(** ** One figure *)

(** The transformed series of all results. *)
Definition curves_for (f : list Q -> res (list Q)) (key : string) (results : list (string * json)) (ys : list (list Q)) : Prop :=
  Forall2 (fun r y => exists l, sget key (snd r) = Some l /\ f l = Ok y) results ys.

Lemma collect_ok : forall f key d ys, curves_for f key d ys -> collect f key d = Ok ys.
Proof.
  intros f key d ys H. induction H as [|r y d ys (l & E1 & E2) _ IH]; [reflexivity|].
  assert (J : jseries key (snd r) = Ok l) by (unfold jseries; now rewrite E1).
  unfold collect in *. cbn [mapM]. rewrite J. cbn [bind]. rewrite E2. cbn [bind]. rewrite IH. reflexivity.
Qed.

Lemma curves_exist : forall f key (P : list Q -> list Q -> Prop) d,
  (forall r, In r d -> exists l, sget key (snd r) = Some l) -> (forall l, exists y, f l = Ok y /\ P l y) ->
  exists ys, curves_for f key d ys /\ Forall2 (fun r y => exists l, sget key (snd r) = Some l /\ P l y) d ys.
Proof.
  intros f key P. induction d as [|r d IH]; intros H F.
  - exists []. split; constructor.
  - destruct IH as (ys & A & B); [intros; apply H; now right|exact F|].
    destruct (H r) as [l El]; [now left|]. destruct (F l) as (y & Ey & Py).
    exists (y :: ys). split; constructor; eauto.
Qed.

Lemma add_plots_same : forall n curves, (forall c, In c curves -> List.length (snd c) = n) -> add_plots n curves = Ok curves.
Proof.
  intros n. induction curves as [|[a y] r IH]; intros H; [reflexivity|]. cbn.
  rewrite (H (a, y) (or_introl eq_refl) : List.length y = n), Nat.eqb_refl.
  rewrite IH by (intros; apply H; now right). reflexivity.
Qed.

Lemma add_plots_differ : forall n curves c, In c curves -> List.length (snd c) <> n -> add_plots n curves = Err ValueError.
Proof.
  intros n. induction curves as [|[a y] r IH]; intros c I N; [destruct I|]. cbn.
  destruct (Nat.eqb_spec (List.length y) n) as [E|E]; [|reflexivity].
  destruct I as [<-|I]; [cbn in N; congruence|]. rewrite (IH c I N). reflexivity.
Qed.

Lemma combine_in_r : forall A B (la : list A) (lb : list B) b, List.length la = List.length lb -> In b lb -> exists a, In (a, b) (combine la lb).
Proof.
  induction la as [|a la IH]; intros [|b' lb] b L I; cbn in *; try discriminate; [destruct I|].
  destruct I as [->|I]; [exists a; now left|]. destruct (IH lb b) as [a' H]; [lia|exact I|]. exists a'. now right.
Qed.

Lemma plot_same : forall f key (P : list Q -> list Q -> Prop) d ys ylabel title path,
  curves_for f key d ys -> Forall2 (fun r y => exists l, sget key (snd r) = Some l /\ P l y) d ys ->
  d <> [] -> (forall y y', In y ys -> In y' ys -> List.length y = List.length y') ->
  exists fig, (do zs <- collect f key d; plot_results zs (map fst d) ylabel title path) = Ok fig /\
    f_path fig = path /\ f_ylabel fig = ylabel /\ f_title fig = title /\ draws key P d fig.
Proof.
  intros f key P d ys ylabel title path C F N L. rewrite (collect_ok _ _ _ _ C). cbn [bind].
  destruct ys as [|y0 ys]; [inversion F; subst; now destruct N|]. unfold plot_results.
  rewrite add_plots_same.
  - cbn [bind]. eexists. split; [reflexivity|]. cbn [f_path f_ylabel f_title f_curves]. do 3 (split; [reflexivity|]).
    unfold draws. cbn [f_curves]. clear C N L. revert F. generalize (y0 :: ys). clear. intros zs F.
    induction F as [|r y d zs H _ IH]; cbn; constructor; [cbn; auto|exact IH].
  - intros [a y] I. apply in_combine_r in I. cbn [snd]. apply L; [exact I|now left].
Qed.

Lemma plot_differ : forall f key d ys y y' ylabel title path,
  curves_for f key d ys -> In y ys -> In y' ys -> List.length y <> List.length y' ->
  (do zs <- collect f key d; plot_results zs (map fst d) ylabel title path) = Err ValueError.
Proof.
  intros f key d ys y y' ylabel title path C I I' N. rewrite (collect_ok _ _ _ _ C). cbn [bind].
  assert (LL : List.length (map fst d) = List.length ys) by (rewrite map_length; revert C; clear; induction 1; cbn; auto).
  destruct ys as [|y0 ys]; [destruct I|]. unfold plot_results.
  assert (exists z, In z (y0 :: ys) /\ List.length z <> List.length y0) as (z & Iz & Nz).
  { destruct (Nat.eq_dec (List.length y) (List.length y0)) as [E|E]; [exists y'; split; [exact I'|congruence]|exists y; auto]. }
  destruct (combine_in_r _ _ (map fst d) (y0 :: ys) z LL Iz) as [a Ia].
  rewrite (add_plots_differ _ _ _ Ia Nz). reflexivity.
Qed.

(** ** The lengths of curves of results *)

Definition lengths_by (g : nat -> nat) (key : string) (d : list (string * json)) (steps : string * json -> nat) : Prop :=
  forall r, In r d -> has_series key (g (steps r)) (snd r).

Lemma curves_same_length : forall f key d ys n m,
  curves_for f key d ys -> (forall r, In r d -> has_series key n (snd r)) ->
  (forall l y, List.length l = n -> f l = Ok y -> List.length y = m) -> forall y, In y ys -> List.length y = m.
Proof.
  intros f key d ys n m C H F. induction C as [|r y d ys (l & E1 & E2) _ IH]; intros z I; [destruct I|].
  destruct I as [<-|I].
  - destruct (H r (or_introl eq_refl)) as (l' & E3 & E4). assert (l' = l) by congruence. subst l'. eapply F; eauto.
  - apply IH; [intros; apply H; now right|exact I].
Qed.

Lemma curves_of_member : forall f key d ys r, curves_for f key d ys -> In r d ->
  exists l y, sget key (snd r) = Some l /\ f l = Ok y /\ In y ys.
Proof.
  intros f key d ys r C. induction C as [|r' y d ys (l & E1 & E2) _ IH]; intros I; [destruct I|].
  destruct I as [->|I]; [exists l, y; cbn; auto|]. destruct (IH I) as (l' & y' & A & B & D). exists l', y'. cbn; auto.
Qed.

(** Figures of all results of the same number of steps. *)
Lemma figure_same : forall f key (P : list Q -> list Q -> Prop) d n ylabel title path,
  d <> [] -> (forall r, In r d -> has_series key n (snd r)) ->
  (forall l, exists y, f l = Ok y /\ P l y) ->
  (forall l l' y y', List.length l = List.length l' -> f l = Ok y -> f l' = Ok y' -> List.length y = List.length y') ->
  exists fig, (do zs <- collect f key d; plot_results zs (map fst d) ylabel title path) = Ok fig /\
    f_path fig = path /\ f_ylabel fig = ylabel /\ f_title fig = title /\ draws key P d fig.
Proof.
  intros f key P d n ylabel title path N H F L.
  destruct (curves_exist f key P d) as (ys & C & D); [|exact F|].
  { intros r I. destruct (H r I) as (l & E & _). eauto. }
  apply (plot_same f key P d ys); auto. intros y y' I I'.
  assert (Q : forall z, In z ys -> exists l, List.length l = n /\ f l = Ok z).
  { clear - C H. induction C as [|r y d ys (l & E1 & E2) _ IH]; intros z I; [destruct I|].
    destruct I as [<-|I]; [|apply IH; [intros; apply H; now right|exact I]].
    destruct (H r (or_introl eq_refl)) as (l' & E3 & E4). exists l. split; [congruence|exact E2]. }
  destruct (Q y I) as (l & E1 & E2), (Q y' I') as (l' & E3 & E4). apply (L l l'); congruence.
Qed.

Lemma figure_differ : forall key d r r' n n' ylabel title path,
  (forall x, In x d -> exists l, sget key (snd x) = Some l) ->
  In r d -> In r' d -> has_series key n (snd r) -> has_series key n' (snd r') -> n <> n' ->
  (forall f, (forall l, exists y, f l = Ok y /\ List.length y = List.length l) ->
  (do zs <- collect f key d; plot_results zs (map fst d) ylabel title path) = Err ValueError).
Proof.
  intros key d r r' n n' ylabel title path A I I' H H' N f F.
  destruct (curves_exist f key (fun l y => List.length y = List.length l) d A F) as (ys & C & _).
  destruct (curves_of_member _ _ _ _ _ C I) as (l & y & E1 & E2 & E3).
  destruct (curves_of_member _ _ _ _ _ C I') as (l' & y' & E1' & E2' & E3').
  apply (plot_differ f key d ys y y'); auto.
  destruct H as (m & Em & Lm), H' as (m' & Em' & Lm'). destruct (F l) as (z & Ez & Lz), (F l') as (z' & Ez' & Lz'). congruence.
Qed.

Lemma ok_cumsum : forall l, exists y, Ok (cumsum l) = Ok y /\ totals l y.
Proof. intros l. exists (cumsum l). split; [reflexivity|apply cumsum_totals]. Qed.
Lemma ok_same : forall l : list Q, exists y, Ok l = Ok y /\ as_is l y.
Proof. intros l. exists l. split; reflexivity. Qed.

Lemma figure_none : forall f key ylabel title path,
  (do zs <- collect f key []; plot_results zs [] ylabel title path) = Err IndexError.
Proof. reflexivity. Qed.

(** ** Which series an experiment saves *)

Lemma series_len : forall X n (f : nat -> X), List.length (series n f) = n.
Proof. intros. unfold series. now rewrite map_length, seq_length. Qed.

Lemma experiment_lengths : forall n j, from_experiment n j -> result_of_steps n j.
Proof.
  intros n j (S & D & A & zero & sub & norm & div & mo & clock & m & grow & tu & cm & hm & st0 & initial & stream & dyn & E & -> & ->).
  apply experiment_main in E. destruct E as (H & _ & ->).
  split; [|split]; (eexists; split; [reflexivity|apply series_len]).
Qed.

Section Figures.
  Variable digits : Z -> string.

  Lemma same_ok : forall l l' y y' : list Q, List.length l = List.length l' -> Ok l = Ok y -> Ok l' = Ok y' -> List.length y = List.length y'.
  Proof. intros; congruence. Qed.
  Lemma same_cumsum : forall l l' y y' : list Q, List.length l = List.length l' -> Ok (cumsum l) = Ok y -> Ok (cumsum l') = Ok y' -> List.length y = List.length y'.
  Proof. intros l l' y y' E A B. injection A as <-. injection B as <-. unfold cumsum. now rewrite !cumsum_from_len. Qed.
  Lemma same_window : forall w, (0 < w)%nat -> forall l l' y y' : list Q, List.length l = List.length l' ->
    sliding_window l w WMean = Ok y -> sliding_window l' w WMean = Ok y' -> List.length y = List.length y'.
  Proof.
    intros w W l l' y y' E A B. destruct (window_averages l w W) as (z & Ez & Pz), (window_averages l' w W) as (z' & Ez' & Pz').
    assert (z = y) by congruence. assert (z' = y') by congruence. subst. eapply averages_len; eauto.
  Qed.

  Lemma time_fig : forall dir d extra n, d <> [] -> (forall r, In r d -> result_of_steps n (snd r)) ->
    exists f, plot_computational_time dir d extra = Ok f /\
      f_path f = (dir ++ "/" ++ extra ++ "calc_time.pdf")%string /\ draws "calculation_time" as_is d f.
  Proof.
    intros dir d extra n N H.
    destruct (figure_same (@Ok _) "calculation_time" as_is d (n + 1) "Computational Time (sec)" "Computational Time Dynamics"
      (glue [dir; "/"; extra; "calc_time.pdf"]) N) as (f & E & P & _ & _ & D).
    - intros r I. apply (H r I).
    - apply ok_same.
    - apply same_ok.
    - exists f. split; [exact E|]. split; [rewrite P; cbn; now rewrite ?app_nil|exact D].
  Qed.

  Lemma cum_fig : forall dir topk d extra n, d <> [] -> (forall r, In r d -> result_of_steps n (snd r)) ->
    exists f, plot_cum_hr digits dir topk d extra = Ok f /\
      f_path f = (dir ++ "/" ++ extra ++ "cum_hr.pdf")%string /\ draws "hr" totals d f.
  Proof.
    intros dir topk d extra n N H.
    destruct (figure_same (fun l => Ok (cumsum l)) "hr" totals d n (glue ["$\Delta$"; "HR@"; digits topk]) "HR metric dynamics (Cumulative)"
      (glue [dir; "/"; extra; "cum_hr.pdf"]) N) as (f & E & P & _ & _ & D).
    - intros r I. apply (H r I).
    - apply ok_cumsum.
    - apply same_cumsum.
    - exists f. split; [exact E|]. split; [rewrite P; cbn; now rewrite ?app_nil|exact D].
  Qed.

  Lemma stab_fig : forall dir topk d extra n, d <> [] -> (forall r, In r d -> result_of_steps n (snd r)) ->
    (exists f, plot_stability digits dir topk d extra false = Ok f /\
      f_path f = (dir ++ "/" ++ extra ++ "stability.pdf")%string /\ draws "wji" as_is d f) /\
    (exists f, plot_stability digits dir topk d extra true = Ok f /\
      f_path f = (dir ++ "/" ++ extra ++ "cum_stability.pdf")%string /\ draws "wji" totals d f).
  Proof.
    intros dir topk d extra n N H. split.
    - destruct (figure_same (@Ok _) "wji" as_is d (n - 1) (glue ["REGULAR@"; digits topk]) "Stability of Recommendations"
        (glue [dir; "/"; extra; "stability.pdf"]) N) as (f & E & P & _ & _ & D).
      + intros r I. apply (H r I).
      + apply ok_same.
      + apply same_ok.
      + exists f. split; [exact E|]. split; [rewrite P; cbn; now rewrite ?app_nil|exact D].
    - destruct (figure_same (fun l => Ok (cumsum l)) "wji" totals d (n - 1) (glue ["$\Delta$"; "CUM@"; digits topk]) "Stability of Recommendations (Cumulative)"
        (glue [dir; "/"; extra; "cum_stability.pdf"]) N) as (f & E & P & _ & _ & D).
      + intros r I. apply (H r I).
      + apply ok_cumsum.
      + apply same_cumsum.
      + exists f. split; [exact E|]. split; [rewrite P; cbn; now rewrite ?app_nil|exact D].
  Qed.

  Lemma window_fig : forall dir topk d swl extra n, (0 < swl)%nat -> d <> [] -> (forall r, In r d -> result_of_steps n (snd r)) ->
    exists f, plot_window_hr digits dir topk d swl extra = Ok f /\
      f_path f = (dir ++ "/" ++ extra ++ "sw_" ++ digits (Z.of_nat swl) ++ "_hr.pdf")%string /\ draws "hr" (averages swl) d f.
  Proof.
    intros dir topk d swl extra n W N H.
    destruct (figure_same (fun l => sliding_window l swl WMean) "hr" (averages swl) d n (glue ["HR@"; digits topk])
      (glue ["HR metric dynamics (SW - "; digits (Z.of_nat swl); ")"])
      (glue [dir; "/"; extra; "sw_"; digits (Z.of_nat swl); "_hr.pdf"]) N) as (f & E & P & _ & _ & D).
    - intros r I. apply (H r I).
    - intros l. apply window_averages. exact W.
    - apply same_window. exact W.
    - exists f. split; [exact E|]. split; [rewrite P; cbn; now rewrite ?app_nil|exact D].
  Qed.

  Lemma windows_saved : forall dir topk d extra n swl, Forall (fun w => (0 < w)%nat) swl -> d <> [] ->
    (forall r, In r d -> result_of_steps n (snd r)) ->
    exists fw, save_all (map (fun w => plot_window_hr digits dir topk d w extra) swl) = (fw, None) /\
      Forall2 (fun w f => f_path f = (dir ++ "/" ++ extra ++ "sw_" ++ digits (Z.of_nat w) ++ "_hr.pdf")%string /\ draws "hr" (averages w) d f) swl fw.
  Proof.
    intros dir topk d extra n swl F N H. induction F as [|w swl W F IH]; [exists []; split; [reflexivity|constructor]|].
    destruct IH as (fw & E & G). destruct (window_fig dir topk d w extra n W N H) as (f & Ef & Pf & Df).
    exists (f :: fw). cbn [map save_all]. rewrite Ef, E. split; [reflexivity|]. constructor; auto.
  Qed.

  Lemma experiment_plots_same : forall dir d extra topk swl n, Forall (fun w => (0 < w)%nat) swl -> d <> [] ->
    (forall r, In r d -> result_of_steps n (snd r)) ->
    exists figs, experiment_plots digits dir d extra topk swl = (figs, None) /\ experiment_figures digits dir extra swl d figs.
  Proof.
    intros dir d extra topk swl n F N H.
    destruct (time_fig dir d extra n N H) as (ft & Et & Pt & Dt). destruct (cum_fig dir topk d extra n N H) as (fh & Eh & Ph & Dh).
    destruct (stab_fig dir topk d extra n N H) as [(fs & Es & Ps & Ds) _]. destruct (windows_saved dir topk d extra n swl F N H) as (fw & Ew & Gw).
    exists (ft :: fh :: fs :: fw). unfold experiment_plots. cbn [save_all]. rewrite Et, Eh, Es, Ew. split; [reflexivity|].
    exists ft, fh, fs, fw. repeat (split; [solve [reflexivity|assumption]|]). assumption.
  Qed.

  Lemma ablation_plots_same : forall dir d extra topk n, d <> [] -> (forall r, In r d -> result_of_steps n (snd r)) ->
    exists figs, ablation_plots digits dir d extra topk = (figs, None) /\ study_figures digits dir extra d figs.
  Proof.
    intros dir d extra topk n N H.
    destruct (cum_fig dir topk d extra n N H) as (fh & Eh & Ph & Dh).
    destruct (stab_fig dir topk d extra n N H) as [_ (fs & Es & Ps & Ds)].
    destruct (window_fig dir topk d 20 extra n (Nat.lt_0_succ 19) N H) as (fw & Ew & Pw & Dw).
    exists [fs; fh; fw]. unfold ablation_plots. cbn [save_all]. rewrite Eh, Es, Ew. split; [reflexivity|].
    exists fs, fh, fw. repeat (split; [solve [reflexivity|assumption]|]). assumption.
  Qed.

  Lemma experiment_plots_differ : forall dir d extra topk swl r r' n n',
    (forall x, In x d -> exists k, result_of_steps k (snd x)) -> In r d -> In r' d ->
    result_of_steps n (snd r) -> result_of_steps n' (snd r') -> n <> n' ->
    experiment_plots digits dir d extra topk swl = ([], Some ValueError).
  Proof.
    intros dir d extra topk swl r r' n n' A I I' H H' N. unfold experiment_plots. cbn [save_all].
    assert (E : plot_computational_time dir d extra = Err ValueError).
    { unfold plot_computational_time. apply (figure_differ "calculation_time" d r r' (n + 1) (n' + 1)); auto.
      - intros x Ix. destruct (A x Ix) as (k & (l & E & _) & _). eauto.
      - apply H.
      - apply H'.
      - lia.
      - intros l. exists l. auto. }
    rewrite E. reflexivity.
  Qed.

  (** The stability series of results of no step and of one step are both empty. *)
  Lemma ablation_plots_differ : forall dir d extra topk r r' n n',
    (forall x, In x d -> exists k, result_of_steps k (snd x)) -> In r d -> In r' d ->
    result_of_steps n (snd r) -> result_of_steps n' (snd r') -> (0 < n)%nat -> (0 < n')%nat -> n <> n' ->
    ablation_plots digits dir d extra topk = ([], Some ValueError).
  Proof.
    intros dir d extra topk r r' n n' A I I' H H' P P' N. unfold ablation_plots. cbn [save_all].
    assert (E : plot_stability digits dir topk d extra true = Err ValueError).
    { unfold plot_stability. apply (figure_differ "wji" d r r' (n - 1) (n' - 1)); auto.
      - intros x Ix. destruct (A x Ix) as (k & _ & _ & (l & E & _)). eauto.
      - apply H.
      - apply H'.
      - lia.
      - intros l. exists (cumsum l). split; [reflexivity|apply cumsum_from_len]. }
    rewrite E. reflexivity.
  Qed.
End Figures.
