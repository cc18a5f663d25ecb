(** The parameters taken from the search, and the experiments with them. *)
From Coq Require Import ZArith QArith.
From Coq Require List.
From Verif Require Import Prelude DataPrep_model DataPrep_spec History_model History_spec Recommend_model Recommend_spec Psi_model Tirec_model Tirec_spec Search_model Search_spec
  Training_model Tables_model Stream_model Stream_spec Tensor_model Tensor_spec Matrix_model Attention_model Attention_spec LinAlg_model Tucker_model Hooi_model Upd_model Nti_model
  Dynamic_model Dynamic_spec Full_spec Full_model Seqx_spec Seqx_model Tdx_spec Pipe_model Pipe_spec Hps_model Hps_spec Hpt_model.
From Verif Require Search_main Hps_val Hpt_crop Tables_main Rex_book Tdx_book Stream_main Pipe_num.
Set Warnings "-notation-overridden".
From mathcomp Require Import all_ssreflect all_algebra.
From Coq Require Import Lia.
From Verif Require Import LinAlg_spec Tucker_spec Hooi_spec Upd_spec Exact_spec Num_spec Nti_spec Hpt_spec.
From Verif Require Import Hpt_main.
Set Implicit Arguments.
Unset Strict Implicit.
Unset Printing Implicit Defensive.
Import Order.TTheory GRing.Theory Num.Theory.
Local Open Scope ring_scope.

(** The choice is a row of the table. *)
Lemma choice_row ds table c : get_optimal_tdrec_params ds table = Ok c ->
  exists t, List.In t table /\ Z.le (t_iter t) (Zpos 5) /\ c = (t_rank t, t_att t, t_iter t).
Proof.
  set early := List.filter (fun t => Z.leb (t_iter t) (Zpos 5)) table.
  have am f : forall c, (do t <- argmin_row volume (List.filter f early); Ok (t_rank t, t_att t, t_iter t)) = Ok c -> exists t, List.In t table /\ Z.le (t_iter t) (Zpos 5) /\ c = (t_rank t, t_att t, t_iter t).
  { move=> c'. have D : List.filter f early = nil \/ List.filter f early <> nil by case: (List.filter f early); [left|right].
    case: D => [->|/(Search_main.argmin_row_spec volume) [r [-> [pre [post [Es _]]]]]] //. cbn [bind] => -[<-]. exists r.
    have I : List.In r (List.filter f early) by rewrite Es; apply/List.in_app_iff; right; left.
    apply List.filter_In in I as [I _]. apply List.filter_In in I as [I H]. split=> //. split=> //. exact/Z.leb_le. }
  rewrite /get_optimal_tdrec_params -/early. case: ds => //; cbn [bind]; try exact: am.
  case: (List.nth_error _ 1) => [v|] //; cbn [bind]. exact: am.
Qed.

(** Rows of the table come from recorded scores. *)
Lemma row_of_config cfg kept t : List.In t (rows_of_config cfg kept) ->
  let: ((r0, r1, r2), f) := cfg in t_rank t = (Z.of_nat r0, Z.of_nat r1, Z.of_nat r2) /\ t_att t = f /\ Z.le 1 (t_iter t).
Proof. case: cfg => [[[r0 r1] r2] f] /List.in_map_iff [j [<- _]]. cbn [t_rank t_att t_iter]. do 2 split=> //. lia. Qed.
Lemma concat_row grid (kepts : list (list Q)) t : List.In t (List.concat (List.map (fun ck => rows_of_config ck.1 ck.2) (List.combine grid kepts))) ->
  exists cfg kept, List.In (cfg, kept) (List.combine grid kepts) /\ List.In t (rows_of_config cfg kept).
Proof. move=> /List.in_concat [x [/List.in_map_iff [[cfg kept] [<- I]] H]]. by exists cfg, kept. Qed.
Lemma Forall2_combine A B (P : A -> B -> Prop) l l' : List.Forall2 P l l' -> forall x y, List.In (x, y) (List.combine l l') -> P x y.
Proof. elim=> [|a b s s' H F IH] x y //. cbn [List.combine]. case=> [[<- <-]|I] //. exact: IH. Qed.

(** At least one score is recorded. *)
Lemma stops_first n scores kept : (0 < n)%N -> stops n 3 scores kept -> kept <> nil.
Proof.
  move=> H. case=> [[E [_ ->]]|[m [_ [E [[G _] [_ ->]]]]]]; first by case: scores E H => //= <-.
  case: m E G => [|m] E G; first by lia. by case: scores E {G}.
Qed.

(** What fits the earlier part fits the whole table. *)
Lemma fit_whole L cfg rows d q train valid : get_df_with_cropped_pos_column rows L true = Ok d -> parted day_of q d train valid -> fit L cfg (List.map p_row train) -> fit L cfg (List.map p_row d).
Proof.
  move=> E PT. have [IN _] := Hps_val.parted_incl _ _ _ _ _ PT. case: cfg => [[[r0 r1] r2] f] [H [H0 [H1 [u Hu]]]].
  have INC : List.incl (List.map p_row train) (List.map p_row d) by move=> x /List.in_map_iff [p [<- I]]; apply: List.in_map; apply: IN.
  split=> //. have D0 := Hps_val.distinct_incl r_user _ _ INC. have D1 := Hps_val.distinct_incl r_item _ _ INC.
  move: H0 H1. rewrite /n_users_in /n_items_in /ndistinct => H0 H1.
  split; [lia|]. split; [lia|]. exists u. move: PT Hu. rewrite /parted. case Ed: d => [|x d']; first by move=> [-> _].
  rewrite -Ed => -[i [pivot [_ [_ [-> _]]]]] Hu.
  exact: (@Hpt_crop.own_full (fun y : irow => Z.ltb (round_day (r_ts y)) pivot) rows L d u E Hu).
Qed.

(** Every way to write the cropped rows down. *)
Lemma crop_alike L keep rows d : crops L true keep -> get_df_with_cropped_pos_column rows L true = Ok d -> Tdx_book.alike (List.map p_row d) (keep rows).
Proof.
  move=> KE E u. have [x [Hx [_ Ex]]] := Rex_book.cropped_user _ _ _ u E. have [y [Hy Ey]] := KE rows u. rewrite Ex Ey.
  congr (lastn _ _). exact: Tirec_stream.StableSorted_unique Hx Hy.
Qed.
Lemma fit_alike L cfg P P' : Tdx_book.alike P P' -> fit L cfg P -> fit L cfg P'.
Proof.
  move=> A. case: cfg => [[[r0 r1] r2] f] [H [H0 [H1 [u Hu]]]]. split=> //. move: H0 H1. rewrite /n_users_in /n_items_in.
  rewrite (Tdx_book.alike_count r_user _ _ A) (Tdx_book.alike_count r_item _ _ A) => H0 H1. split=> //. split=> //. exists u. by rewrite -A.
Qed.

Section Tuned.
Variable R : realFieldType.
Variable of_val : Z -> R.
Variables (L : nat) (decay : Q -> nat -> R) (inv : mat R -> res (mat R)).
Hypothesis L2 : Peano.le 2 L.
Hypothesis INV : inv_ok inv.
Variables (qr : mat R -> res (mat R * mat R)) (rand : nat -> nat -> nat -> mat R) (rsvd : nat -> mat R -> nat -> res (mat R * list R * mat R)).
Hypotheses (QR : qr_ok qr) (RAND : forall m, randn_ok (rand m)) (INNER : inner_ok rsvd).
Variables (N : Type) (tnorm : ten R -> N) (norm0 : N) (grew : N -> N -> bool) (n_iter : nat).
Hypothesis NI : (0 < n_iter)%N.
Variable argpart : nat -> list R -> nat -> list nat.
Let le (x y : R) : bool := x <= y.
Hypothesis AP : argpartition_contract le argpart.
Variable k : nat.
Hypothesis k1 : Peano.le 1 k.
Variable sort_days : list trow -> list trow.
Notation search := (hyperparameters_search_tdrec 0 1 +%R *%R of_val L decay inv qr rand rsvd tnorm norm0 grew n_iter argpart k sort_days).

Lemma search_early data data' cut q grid : given_rows data cut = given_rows data' cut -> search data cut q grid = search data' cut q grid.
Proof.
  move=> E. rewrite /hyperparameters_search_tdrec. have [s [l E1]] := Hps_val.prepare_none sort_days data cut.
  have [s' [l' E2]] := Hps_val.prepare_none sort_days data' cut. by rewrite E1 E2 E.
Qed.

Variables (data : list trow) (cut : Z) (q : Q) (grid : list (Tensor_model.coord * Q)) (table : list trial).
Hypothesis POS : forall cfg, List.In cfg grid -> positive cfg.
Hypothesis TWO : two_items L q (List.map content (given_rows data cut)).
Hypothesis found : search data cut q grid = Ok table.

Lemma found_main : exists d train valid kepts, get_df_with_cropped_pos_column (List.map content (given_rows data cut)) L true = Ok d /\ parted day_of q d train valid /\
  List.Forall2 (fun cfg kept => fit L cfg (List.map p_row train) /\ kept <> nil) grid kepts /\
  table = List.concat (List.map (fun ck => rows_of_config ck.1 ck.2) (List.combine grid kepts)).
Proof.
  have := search_outcome of_val decay L2 INV QR RAND INNER tnorm norm0 grew NI AP k1 sort_days data cut q POS.
  cbv zeta. rewrite found. case=> [[_ //]|[d [Ed [[_ //]|[train [valid [PT H]]]]]]].
  have [kepts [F ->]] := H (TWO Ed PT). exists d, train, valid, kepts. split=> //. split=> //. split=> //.
  apply: (Forall2_in F) => -[[[r0 r1] r2] f] kept I [H1 _ [a [ainv [td [FS [model [scores [_ _ _ _ ST]]]]]]]]. split=> //. exact: stops_first ST.
Qed.

Lemma chosen_main keep : crops L true keep ->
  (forall ds, ds = AMZ_B \/ ds = STEAM -> grid <> nil -> exists c, get_optimal_tdrec_params ds table = Ok c) /\
  forall ds rank att it, get_optimal_tdrec_params ds table = Ok (rank, att, it) ->
    exists r0 r1 r2, rank = (Z.of_nat r0, Z.of_nat r1, Z.of_nat r2) /\ List.In ((r0, r1, r2), att) grid /\ (Z.le 1 it /\ Z.le it (Zpos 5)) /\
      seq_trainable r0 r1 r2 L (keep (List.map content (given_rows data cut))).
Proof.
  move=> KE. have [d [train [valid [kepts [Ed [PT [F ET]]]]]]] := found_main. split.
  - move=> ds DS NE. have [H _] := Search_main.tdrec_params_main table. have [H1 _] := H ds DS.
    have EN : List.filter (fun t => Z.leb (t_iter t) (Zpos 5)) table <> nil.
    { rewrite ET. move: F NE. clear. case: grid kepts => [|cfg g] ks F NE //. inversion F as [|x y s s' [_ Hy] F']; subst. cbn [List.combine List.map List.concat].
      case: cfg {F NE} => [[[r0 r1] r2] f]. by case: y Hy. }
    have [t [E _]] := H1 EN. by eexists; exact: E.
  - move=> ds rank att it /choice_row [t [I [H5 [-> -> ->]]]]. rewrite ET in I. have [cfg [kept [IC IR]]] := concat_row I.
    have [FT _] := Forall2_combine F IC. have := row_of_config IR. have W := fit_alike (crop_alike KE Ed) (fit_whole Ed PT FT).
    have IG := List.in_combine_l _ _ _ _ IC. move: W IG. case: cfg {FT IC IR} => [[[r0 r1] r2] f] W IG [-> [-> H1]].
    by exists r0, r1, r2.
Qed.

Lemma kept_items keep : crops L true keep -> Z.le 2 (n_items_in (keep (List.map content (given_rows data cut)))).
Proof.
  move=> KE. have [d [train [valid [kepts [Ed [PT _]]]]]] := found_main. have T := TWO Ed PT.
  have [IN _] := Hps_val.parted_incl _ _ _ _ _ PT.
  have INC : List.incl (List.map p_row train) (List.map p_row d) by move=> x /List.in_map_iff [p [<- I]]; apply: List.in_map; apply: IN.
  have D1 := Hps_val.distinct_incl r_item _ _ INC. move: T. rewrite /n_items_in -(Tdx_book.alike_count r_item _ _ (crop_alike KE Ed)) /ndistinct. lia.
Qed.

Section Pipe.
Hypothesis SD : sorts_by tb_day sort_days.
Variable keep : list irow -> list irow.
Hypothesis KE : crops L true keep.
Variables (ds : dataset) (r0 r1 r2 : nat) (att : Q) (it : Z).
Hypothesis chosen : get_optimal_tdrec_params ds table = Ok ((Z.of_nat r0, Z.of_nat r1, Z.of_nat r2), att, it).
Variables (St V T : Type) (norm : mat R -> V) (div : V -> V -> V) (minus_one : V) (clock : nat -> T) (m : api St (list prow) R) (st0 : St).
Variables (sort_counts : list (Z * Z) -> list (Z * Z)) (hm_min : option Z) (how_many : Z).
Hypothesis SC : sorts_by snd sort_counts.
Hypothesis hm1 : Z.lt 0 how_many.
Lemma chosen_ranks : [/\ (0 < r0)%N, (0 < r1)%N & (0 < r2)%N] /\ seq_trainable r0 r1 r2 L (keep (List.map content (given_rows data cut))).
Proof.
  have [_ H] := chosen_main KE. have [a [b [c [[E0 E1 E2] [IG [_ ST]]]]]] := H _ _ _ _ chosen.
  have [X0 [X1 X2]] : r0 = a /\ r1 = b /\ r2 = c by move: E0 E1 E2 => /Nat2Z.inj -> /Nat2Z.inj -> /Nat2Z.inj ->. subst a b c.
  split=> //. by have [H0 [H1 H2]] := POS IG.
Qed.
Lemma tuned (fits : list irow -> list irow -> Prop) (bad : exn -> Prop) :
  (forall test tab d stream, get_df_with_cropped_pos_column tab L true = Ok d -> Z.le 2 (n_items_in (keep tab)) ->
     let n := n_steps how_many (length stream) in
     match dynamical_experiment 0 (fun x y => x - y) norm div minus_one clock m (grow_3d L) test true how_many st0 d stream with
     | Ok _ => seq_trainable r0 r1 r2 L (keep tab) /\ feasible k fits keep test (keep tab) stream n
     | Err e => seq_trainable r0 r1 r2 L (keep tab) /\ feasible k fits keep test (keep tab) stream n -> bad e
     end) ->
  exists stream left d, prepare_data_for_experiment tb_index tb_day sort_days data cut hm_min = Ok (given_rows data cut, stream, left) /\
  let rows := List.map content (given_rows data cut) in
  get_df_with_cropped_pos_column rows L true = Ok d /\
  let test := stability_users users_3d sort_counts d left how_many in
  let chunks := List.map (fun g => List.map content g.2) stream in
  let possible := served k fits keep test (keep rows) chunks (n_steps how_many (length stream)) in
  match full_dynamical_experiment 0 (fun x y => x - y) norm div minus_one clock m (grow_3d L) true (entry_3d L) users_3d sort_days sort_counts
          data cut hm_min how_many st0 with
  | Ok _ => possible
  | Err e => possible -> bad e
  end.
Proof.
  move=> out. have [initial [stream [left [E H]]]] := @Pipe_num.outcome_3d sort_days sort_counts SD SC data cut hm_min how_many hm1 St V T R norm div minus_one clock m st0 L keep L2 KE k
    fits (seq_trainable r0 r1 r2 L) bad out.
  have Ei : initial = given_rows data cut.
  { have [i [s [l [E' [Ei _]]]]] := Stream_main.prepare_main tb_index tb_day sort_days data cut hm_min SD. move: E. rewrite E' => -[<- _ _]. exact: Ei. }
  subst initial. cbv zeta in H. have [d [Ed X]] := H (kept_items KE). exists stream, left, d. split; first exact: E. cbv zeta. split; first exact: Ed.
  have [_ Tr] := chosen_ranks.
  move: X. case: (full_dynamical_experiment _ _ _ _ _ _ _ _ _ _ _ _ _ _ _ _ _ _) => [dyn [_ X]|e X P]; first exact: X. exact: X (conj Tr P).
Qed.
End Pipe.
End Tuned.
