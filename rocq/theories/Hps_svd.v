(** The search for the rank of the SVD. *)
From Coq Require Import ZArith QArith Permutation.
From Coq Require List.
From Verif Require Import Prelude DataPrep_model DataPrep_spec Recommend_model Recommend_spec Psi_model Psi_spec Tables_model Stream_model Stream_spec Search_model Search_spec
  Tensor_model Matrix_model Attention_model LinAlg_model Num_model Dynamic_model Dynamic_spec Full_spec Full_model Pipe_model Pipe_spec Hps_model Hps_spec.
From Verif Require Full_rec Full_gen Full_exp Full_psi Psi_main DataPrep_proofs Full_num Hps_val Search_main Pipe_num Full_main.
Set Warnings "-notation-overridden".
From mathcomp Require Import all_ssreflect all_algebra.
From Coq Require Import Lia.
From Verif Require Import LinAlg_spec Upd_spec Exact_spec Num_spec.
Set Implicit Arguments.
Unset Strict Implicit.
Unset Printing Implicit Defensive.
Import Order.TTheory GRing.Theory Num.Theory.
Local Open Scope ring_scope.

Section Svd.
Variable R : realFieldType.
Variable of_rel : Z -> R.
Variable svds : mat R -> nat -> res (mat R * list R * mat R).
Variable argpart : nat -> list R -> nat -> list nat.
Let le (x y : R) : bool := x <= y.
Hypothesis SO : svds_mat_ok svds.
Hypothesis AP : argpartition_contract le argpart.
Variable k : nat.
Hypothesis k1 : Peano.le 1 k.
Notation train_on rank rows := (num_train 0 +%R of_rel svds rank rows).
Notation num_rec := (num_rec 0 +%R *%R).

Lemma one_outcome train valid rank : match svd_validate 0 +%R *%R of_rel svds argpart k train valid rank with
  | Ok h => [/\ trainable rank train, testable k [::] train valid &
      exists x, train_on rank train = Ok x /\ hit_report k (best le (num_rec x) train) train valid h]
  | Err e => trainable rank train /\ testable k [::] train valid -> exists x, svds x (Z.to_nat rank) = Err e end.
Proof.
  rewrite /svd_validate. have := Full_num.train_outcome of_rel SO rank train.
  case E: (train_on rank train) => [x|e]; cbn [bind]; last by move=> H [T _]; exact: H T.
  move=> [T M I]. have G : Full_num.good rank x train by [].
  have mu : bij (m_users (ps_maps (nm_book x))) Z0 by move: (Full_rec.ds_users _ _ (Full_num.good_describes k1 G)); rewrite /Full_model.num_rec; case: (nm_f x) => [[? ?] ?].
  have mi : bij (m_items (ps_maps (nm_book x))) Z0 by move: (Full_rec.ds_items _ _ (Full_num.good_describes k1 G)); rewrite /Full_model.num_rec; case: (nm_f x) => [[? ?] ?].
  have := @Hps_val.validate_outcome (ps_maps (nm_book x)) (fun users => svd_recommend 0 +%R *%R argpart k x users false) train k (best le (num_rec x) train) mu mi
    (fun y => Full_psi.inv_known _ _ y I)
    (fun us => Full_rec.recommend_iff _ (@Full_num.le_trans' R) _ AP _ _ (Full_num.good_describes k1 G) _ k1 (Full_num.good_two k1 G) us false)
    (fun us rows => Full_rec.recommend_external _ (@Full_num.le_trans' R) _ AP _ _ (Full_num.good_describes k1 G) _ k1 (Full_num.good_two k1 G) us rows) valid.
  case: (validate _ _ _) => [h|e]; last by move=> H [_ /H].
  move=> [H1 H2]. split=> //. by exists x.
Qed.

Variables (sort_days : list trow -> list trow) (order : list config -> list config).
Hypothesis Or : forall l, Permutation (order l) l.
Notation search := (hyperparameters_search_svd 0 +%R *%R of_rel svds argpart k sort_days order).

Lemma search_outcome data cut q ranks : match search data cut q ranks with
  | Ok table => Qle (Qmake Z0 1) q /\ Qle q (Qmake (Zpos 1) 1) /\ Permutation (List.map fst table) (List.nodup Z.eq_dec ranks) /\
      exists train valid, parted tb_day q (given_rows data cut) train valid /\
        let rows := List.map content train in let tests := List.map content valid in
        forall rank h, List.In (rank, h) table -> trainable rank rows /\ testable k [::] rows tests /\
          exists x, train_on rank rows = Ok x /\ hit_report k (best le (num_rec x) rows) rows tests h
  | Err e => (~ (Qle (Qmake Z0 1) q /\ Qle q (Qmake (Zpos 1) 1)) /\ e = ValueError) \/
      exists train valid, parted tb_day q (given_rows data cut) train valid /\
        ((forall rank, List.In rank ranks -> trainable rank (List.map content train)) /\
         (ranks <> [::] -> testable k [::] (List.map content train) (List.map content valid)) ->
         exists x rank, List.In rank ranks /\ svds x (Z.to_nat rank) = Err e)
  end.
Proof.
  rewrite /hyperparameters_search_svd. have [stream [left E]] := Hps_val.prepare_none sort_days data cut. rewrite E. cbn [bind].
  have := Hps_val.split_parted tb_day (given_rows data cut) q.
  case E2: (train_test_split _ _ _) => [[train valid]|e]; cbn [bind]; last by move=> [-> H]; left.
  move=> [Q0 [Q1 PT]]. have [grid [names [E3 PM]]] := Hps_val.grid_one ranks order Or. rewrite E3. cbn [bind].
  have := Hps_val.grid_outcome (svd_validate 0 +%R *%R of_rel svds argpart k (List.map content train) (List.map content valid)) (List.map (List.hd Z0) (order grid)).
  case E4: (metric_grid_svd _ _) => [table|e].
  - move=> [Ef Ev]. split=> //. split=> //. split; first by rewrite Ef.
    exists train, valid. split=> //. cbv zeta. move=> rank h /Ev Er.
    have := one_outcome (List.map content train) (List.map content valid) rank. rewrite Er. by move=> [H1 H2 H3].
  - move=> [rank [Hr Er]]. right. exists train, valid. split=> // -[T1 T2].
    have Hin : List.In rank ranks by apply/(List.nodup_In Z.eq_dec); exact: Permutation_in PM Hr.
    have := one_outcome (List.map content train) (List.map content valid) rank. rewrite Er => H.
    have [x Hx] := H (conj (T1 _ Hin) (T2 ltac:(move=> Z1; by rewrite Z1 in Hin))). by exists x, rank.
Qed.

Lemma content_incl (a b : list trow) : List.incl a b -> List.incl (List.map content a) (List.map content b).
Proof. move=> H x. rewrite !List.in_map_iff => -[y [E I]]. exists y. split=> //. exact: H. Qed.

Lemma chosen_main data cut q ranks table ds : search data cut q ranks = Ok table -> ds <> OTHER ->
  (ranks <> [::] -> exists rank, get_optimal_svd_rank ds table = Ok rank) /\
  forall rank, get_optimal_svd_rank ds table = Ok rank ->
    List.In rank ranks /\ trainable rank (List.map content (given_rows data cut)) /\
    exists h, List.In (rank, h) table /\ (forall r' h', List.In (r', h') table -> Qle h' h /\ (Z.lt r' rank -> Qlt h' h)).
Proof.
  move=> E D. have := search_outcome data cut q ranks. rewrite E => -[Q0 [Q1 [PM [train [valid [PT Ht]]]]]].
  have [M1 M2] := Search_main.svd_rank_main ds table D.
  have Nt : ranks <> [::] -> table <> [::].
  { move=> N Z1. subst table. apply Permutation_nil in PM. case: ranks N PM {E} => // a s _ F. have : List.In a (List.nodup Z.eq_dec (a :: s)) by apply/List.nodup_In; left. by rewrite F. }
  split; first by move=> /Nt /M1 [r [H _]]; exists r.1.
  have Dn : table = [::] \/ table <> [::] by case: (table); [left|right].
  move=> rank Er. case: Dn => [Z1|/M1 [[r h] [H1 [H2 [H3 H4]]]]].
    by rewrite (M2 Z1) in Er.
  rewrite Er in H1. case: H1 => H1. cbn [fst] in H1. subst r.
  split. { apply/(List.nodup_In Z.eq_dec). apply: (Permutation_in _ PM). apply/List.in_map_iff. by exists (rank, h). }
  split. { apply: (@Hps_val.trainable_incl rank (List.map content train)); last by case: (Ht _ _ H2). exact: content_incl (proj1 (Hps_val.parted_incl _ _ _ _ _ PT)). }
  exists h. split=> // r' h' I. have Le : Qle h' h by exact: (H3 (r', h') I). split=> // L.
  case: (Qlt_le_dec h' h) => // Ge. exfalso.
  have X : is_max snd table (r', h'). { move=> y Iy. apply: (Qle_trans _ h); [exact: H3|exact: Ge]. }
  have := H4 _ I X. cbn [fst]. lia.
Qed.

(** Tables with the same early rows. *)
Lemma search_early data data' cut q ranks : given_rows data cut = given_rows data' cut -> search data cut q ranks = search data' cut q ranks.
Proof.
  move=> E. rewrite /hyperparameters_search_svd. have [s [l E1]] := Hps_val.prepare_none sort_days data cut.
  have [s' [l' E2]] := Hps_val.prepare_none sort_days data' cut. by rewrite E1 E2 E.
Qed.
End Svd.
