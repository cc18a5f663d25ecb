(** The search for the parameters of TDRec. *)
From Coq Require Import ZArith QArith.
From Coq Require List.
From Verif Require Import Prelude DataPrep_model DataPrep_spec History_model History_spec Recommend_model Recommend_spec Psi_model Tirec_model Tirec_spec Search_model Search_spec
  Training_model Tables_model Stream_model Stream_spec Tensor_model Tensor_spec Matrix_model Attention_model Attention_spec LinAlg_model Tucker_model Hooi_model Upd_model Nti_model
  Full_spec Seqx_spec Seqx_model Pipe_model Hps_model Hps_spec Hpt_model.
From Verif Require Prelude_proofs Search_main Tables_main Hps_val Hpt_crop Rex_book History_main History_proofs.
Set Warnings "-notation-overridden".
From mathcomp Require Import all_ssreflect all_algebra.
From Coq Require Import Lia.
From Verif Require Import LinAlg_spec Tucker_spec Hooi_spec Upd_spec Exact_spec Num_spec Nti_spec Hpt_spec.
From Verif Require Hpt_num.
Set Implicit Arguments.
Unset Strict Implicit.
Unset Printing Implicit Defensive.
Import Order.TTheory GRing.Theory Num.Theory.
Local Open Scope ring_scope.

(** The columns line up. *)
Section Rows.
Variable metrics_of : Tensor_model.coord * Q -> res (list Q).
Fixpoint loop (grid : list (Tensor_model.coord * Q)) (metrics : list Q) (params : list (Tensor_model.coord * Q * Z)) : res (list Q * list (Tensor_model.coord * Q * Z)) :=
  match grid with
  | nil => Ok (metrics, params)
  | cfg :: grid' => do ms <- metrics_of cfg; loop grid' (List.app metrics ms) (List.app params (List.map (fun j => (cfg, Z.of_nat j)) (List.seq 1 (length ms))))
  end.
Definition numbered (cfg : Tensor_model.coord * Q) (kept : list Q) := List.combine (List.map (fun j => (cfg, Z.of_nat j)) (List.seq 1 (length kept))) kept.
Lemma loop_outcome grid : forall metrics params, length metrics = length params -> match loop grid metrics params with
  | Ok (ms, ps) => length ms = length ps /\ exists kepts, List.Forall2 (fun cfg kept => metrics_of cfg = Ok kept) grid kepts /\
      List.combine ps ms = List.app (List.combine params metrics) (List.concat (List.map (fun ck => numbered ck.1 ck.2) (List.combine grid kepts)))
  | Err e => exists cfg, List.In cfg grid /\ metrics_of cfg = Err e end.
Proof.
  elim: grid => [|cfg grid IH] metrics params H.
    cbn [loop]. split=> //. exists nil. split; first by constructor. by rewrite List.app_nil_r.
  cbn [loop]. case E: (metrics_of cfg) => [ms|e]; cbn [bind]; last by exists cfg; split; [left|].
  have := IH (List.app metrics ms) (List.app params (List.map (fun j => (cfg, Z.of_nat j)) (List.seq 1 (length ms)))).
  have H' : length (List.app metrics ms) = length (List.app params (List.map (fun j => (cfg, Z.of_nat j)) (List.seq 1 (length ms)))).
  { by rewrite !List.app_length List.map_length List.seq_length H. }
  move=> /(_ H'). case: (loop grid _ _) => [[ms' ps']|e]; last by move=> [c [I Ec]]; exists c; split; [right|].
  move=> [HL [kepts [F EQ]]]. split=> //. exists (ms :: kepts). split; first by constructor.
  rewrite EQ History_proofs.combine_app //. by rewrite -List.app_assoc.
Qed.
End Rows.

Lemma saved_rows cfg kept : List.map saved (numbered cfg kept) = rows_of_config cfg kept.
Proof.
  case: cfg => [[[r0 r1] r2] f]. rewrite /rows_of_config /numbered.
  have H : forall (l : list Q) n, List.map saved (List.combine (List.map (fun j => (((r0, r1, r2), f), Z.of_nat j)) (List.seq n.+1 (length l))) l) =
    List.map (fun j => mkTrial (Z.of_nat r0, Z.of_nat r1, Z.of_nat r2) f (Z.of_nat (n + j).+1) (List.nth j l (Qmake Z0 1))) (List.seq 0 (length l)).
  { elim=> [|x l IH] n //. cbn [length List.seq List.map List.combine List.nth saved]. rewrite addn0. congr (_ :: _).
    rewrite IH -List.seq_shift List.map_map. apply: List.map_ext => j. cbn [List.nth]. by rewrite addnS addSn. }
  exact: (H kept 0%N).
Qed.

Lemma Forall2_in A B (P Q : A -> B -> Prop) l l' : List.Forall2 P l l' -> (forall x y, List.In x l -> P x y -> Q x y) -> List.Forall2 Q l l'.
Proof. elim=> [|x y s s' H F IH] X; constructor; [apply: X => //; by left|]. apply: IH => a b I. apply: X. by right. Qed.

Section Search.
Variable R : realFieldType.
Variable of_val : Z -> R.
Variables (L : nat) (decay : Q -> nat -> R) (inv : mat R -> res (mat R)).
Hypothesis L2 : Peano.le 2 L.
Hypothesis INV : inv_ok inv.
Variables (qr : mat R -> res (mat R * mat R)) (rand : nat -> nat -> nat -> mat R) (rsvd : nat -> mat R -> nat -> res (mat R * list R * mat R)).
Hypotheses (QR : qr_ok qr) (RAND : forall m, randn_ok (rand m)) (INNER : inner_ok rsvd).
Variables (N : Type) (tnorm : ten R -> N) (norm0 : N) (grew : N -> N -> bool) (n_iter : nat).
Hypothesis NI : (0 < n_iter)%N.
Variable argpart : nat -> list R -> nat -> list nat.
Let le (x y : R) : bool := x <= y.
Hypothesis AP : argpartition_contract le argpart.
Variable k : nat.
Hypothesis k1 : Peano.le 1 k.
Variable sort_days : list trow -> list trow.
Notation search := (hyperparameters_search_tdrec 0 1 +%R *%R of_val L decay inv qr rand rsvd tnorm norm0 grew n_iter argpart k sort_days).
Notation metrics := (tdrec_metrics 0 1 +%R *%R of_val L decay inv qr rand rsvd tnorm norm0 grew n_iter argpart k).
Notation excuse := (Hpt_num.excuse inv qr rsvd).
Notation tried := (tried of_val L decay inv qr rand rsvd n_iter k).

Lemma loops train valid grid ms ps : search_loop 0 1 +%R *%R of_val L decay inv qr rand rsvd tnorm norm0 grew n_iter argpart k train valid grid ms ps = loop (metrics train valid) grid ms ps.
Proof. elim: grid ms ps => [|cfg grid IH] ms ps //. cbn [search_loop loop]. case: (metrics train valid cfg) => [x|e] //. cbn [bind]. exact: IH. Qed.

Lemma grid_outcome train valid grid : match metric_grid 0 1 +%R *%R of_val L decay inv qr rand rsvd tnorm norm0 grew n_iter argpart k train valid grid with
  | Ok table => exists kepts, List.Forall2 (fun cfg kept => metrics train valid cfg = Ok kept) grid kepts /\
      table = List.concat (List.map (fun ck => rows_of_config ck.1 ck.2) (List.combine grid kepts))
  | Err e => exists cfg, List.In cfg grid /\ metrics train valid cfg = Err e end.
Proof.
  rewrite /metric_grid loops. have := @loop_outcome (metrics train valid) grid nil nil erefl.
  case: (loop _ _ _ _) => [[ms ps]|e]; cbn [bind] => //. move=> [-> [kepts [F EQ]]]. rewrite Nat.eqb_refl. exists kepts. split=> //.
  rewrite EQ. cbn [List.combine List.app]. rewrite List.concat_map List.map_map. congr (List.concat _). apply: List.map_ext => -[c s]. exact: saved_rows.
Qed.

Notation fit := (fit L).

Lemma parted_own rows d q train valid : get_df_with_cropped_pos_column rows L true = Ok d -> parted day_of q d train valid ->
  Z.le 2 (n_items_in (List.map p_row train)) -> get_df_with_cropped_pos_column (List.map p_row train) L true = Ok train.
Proof.
  move=> E. rewrite /parted. case Ed: d => [|x d'].
    move=> [-> _]. by rewrite /n_items_in /=; lia.
  rewrite -Ed. move=> [i [pivot [_ [_ [-> _]]]]] T.
  have -> : List.filter (fun r => Z.ltb (day_of r) pivot) d = List.filter (fun p : prow => (fun y : irow => Z.ltb (round_day (r_ts y)) pivot) (p_row p)) d by [].
  apply: (@Hpt_crop.own_crop (fun y : irow => Z.ltb (round_day (r_ts y)) pivot) _ rows L d E).
  - move=> a b H /Z.ltb_lt H1. apply/Z.ltb_lt. have := Tables_main.round_day_mono _ _ H. lia.
  - move=> Z1. move: T.
    have -> : List.filter (fun r => Z.ltb (day_of r) pivot) d = nil by exact: Z1. by rewrite /n_items_in /=; lia.
Qed.

Lemma search_outcome data cut q grid : (forall cfg, List.In cfg grid -> positive cfg) ->
  let rows := List.map content (given_rows data cut) in
  let outcome := search data cut q grid in
  (rows = nil /\ outcome = Err KeyError) \/
  exists d, get_df_with_cropped_pos_column rows L true = Ok d /\
  ((~ (Qle (Qmake Z0 1) q /\ Qle q (Qmake (Zpos 1) 1)) /\ outcome = Err ValueError) \/
   exists train valid, parted day_of q d train valid /\
   let P := List.map p_row train in let tests := List.map p_row valid in
   (Z.le 2 (n_items_in P) ->
    match outcome with
    | Ok table => exists kepts, List.Forall2 (fun cfg kept => [/\ fit cfg P, testable k nil P tests & tried cfg train tests kept]) grid kepts /\
        table = List.concat (List.map (fun ck => rows_of_config ck.1 ck.2) (List.combine grid kepts))
    | Err e => (forall cfg, List.In cfg grid -> fit cfg P) /\ testable k nil P tests -> excuse e
    end)).
Proof.
  move=> POS rows outcome. rewrite /outcome /hyperparameters_search_tdrec. have [stream [left E]] := Hps_val.prepare_none sort_days data cut.
  rewrite E. cbn [bind]. rewrite -/rows.
  have DN : rows = nil \/ rows <> nil by case: (rows); [left|right].
  case: DN => [Z1|NE]; first by left; split=> //; rewrite Z1.
  have L1 : Peano.le 1 L by lia. have [d [Ed _]] := History_proofs.crop_main rows L true L1 NE.
  right. exists d. split; first exact: Ed. rewrite Ed. cbn [bind].
  have := Hps_val.split_parted day_of d q. rewrite /day_of.
  case: (train_test_split _ d q) => [[train valid]|e]; cbn [bind]; last by move=> [-> H]; left; split.
  move=> [_ [_ PT]]. right. exists train, valid. split; first exact: PT. cbv zeta. set P := List.map p_row train. set tests := List.map p_row valid. move=> T2.
  have OWN := parted_own Ed PT T2.
  have one cfg : List.In cfg grid -> match metrics train tests cfg with
    | Ok kept => [/\ fit cfg P, testable k nil P tests & tried cfg train tests kept]
    | Err e => fit cfg P -> testable k nil P tests -> excuse e end.
  { move=> /POS. case: cfg => [[[r0 r1] r2] f] [H0 [H1 H2]].
    exact: (Hpt_num.config_outcome of_val decay f L2 H0 H1 H2 INV QR RAND INNER tnorm norm0 grew NI AP k1 tests OWN T2). }
  have := grid_outcome train tests grid. case: (metric_grid _ _ _ _ _ _ _ _ _ _ _ _ _ _ _ _ _ _ _ _) => [table|e].
  - move=> [kepts [F ->]]. exists kepts. split=> //. apply: (Forall2_in F) => c ks I Ec. have := one c I. by rewrite Ec.
  - move=> [cfg [I Ec]] [FT TS]. have := one cfg I. rewrite Ec. apply=> //. exact: FT.
Qed.
End Search.
