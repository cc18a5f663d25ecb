(** Rational data for the concrete cases of the whole experiments. *)
From Coq Require Import ZArith Lia QArith Permutation.
From Verif Require Import Prelude DataPrep_model DataPrep_spec Eval_spec Recommend_model Recommend_spec Psi_model Psi_spec Tensor_model Matrix_model Attention_model LinAlg_model Num_model Dynamic_model Dynamic_spec Full_spec Full_model.
Set Warnings "-notation-overridden".
From mathcomp Require Import all_ssreflect all_algebra.
From Verif Require Import LinAlg_spec LinAlg_bridge LinAlg_tables LinAlg_wit Upd_spec Upd_wit Exact_spec Exact_wit Hooi_wit Num_spec Num_wit.
Set Implicit Arguments.
Unset Strict Implicit.
Unset Printing Implicit Defensive.
Import GRing.Theory Num.Theory.
Local Open Scope ring_scope.

(** A sort as an argpartition. *)
Lemma perm_eq_Permutation (s t : seq nat) : perm_eq s t -> Permutation s t.
Proof.
  elim: t s => [|x t IH] s H; first by rewrite (perm_nilP H).
  have /splitPr I : x \in s by rewrite (perm_mem H) mem_head. case: I H => p q H.
  apply: Permutation_sym. apply: Permutation_cons_app. apply: Permutation_sym. apply: IH.
  by move: H; rewrite -cat_rcons -cats1 -catA perm_catCA /= perm_cons.
Qed.
Lemma nth_error_nth T (x0 : T) s i x : List.nth_error s i = Some x -> (i < size s)%N /\ nth x0 s i = x.
Proof. elim: s i => [|y s IH] [|i] //=; [by case=> <-|]. by move=> /IH []. Qed.
Lemma iota_seq a n : List.seq a n = iota a n.
Proof. by elim: n a => //= n IH a; rewrite IH. Qed.
Definition f_argpart (_ : nat) (a : list rat) (_ : nat) : list nat := rat_argsort a.
Lemma f_argpart_ok : argpartition_contract (fun x y : rat => x <= y) f_argpart.
Proof.
  move=> i a kth H. have [P S] := w_argsort a. rewrite /f_argpart. split.
    rewrite iota_seq. exact: perm_eq_Permutation.
  have Hs : size (rat_argsort a) = size a by rewrite (perm_size P) size_iota.
  move=> m x j n y /(nth_error_nth 0%N) [Hm Em] /(nth_error_nth 0) [_ Ex] /(nth_error_nth 0%N) [Hj Ej] /(nth_error_nth 0) [_ Ey].
  rewrite -Ex -Ey -Em -Ej. split.
    by move=> /ssrnat.ltP L; apply: S; rewrite L -Hs.
  move=> /ssrnat.leP. rewrite leq_eqVlt => /orP [/eqP ->|L]; first exact: Order.POrderTheory.lexx.
  by apply: S; rewrite L -Hs.
Qed.

(** Orthonormal factors suffice for the truncated SVD of scipy. *)
Lemma f_svds_ok tab : all trunc_entry tab -> svds_mat_ok (trunc_lookup tab).
Proof.
  move=> T x k t E. have := trunc_table_ok T E. rewrite (minn_idPl _) //.
  move: E. rewrite /trunc_lookup. case E : (lookup tab x) => [[[u s] vt]|] //=.
  case: eqP => // -> _. case: (lookup_in E) => y [I S]. have := all_in T I. rewrite /=.
  move=> /andP [/and5P [_ _ _ _ L] _]. have Sy : shape (mr y) (mc y) y by [].
  by case: (same_mx Sy S) => -[-> ->] _.
Qed.

(** Three users and four items, rank one.  The table has singular values 16, 9 and one below
    3.  Then user 1 takes item 30, and user 2 takes item 40 together with a new user. *)
Definition f_data : list irow := [:: rw3 1 10 12; rw3 2 10 7; rw3 2 20 12; rw3 3 30 2; rw3 3 40 1].
Definition f_c1 : list irow := [:: rw3 1 30 20].
Definition f_c2 : list irow := [:: rw3 2 40 60; rw3 4 40 5].
Definition f_svds_tab : list (mat rat * (mat rat * list rat * mat rat)) :=
  [:: (mkMat 3 4 [:: 12%:Q; 0; 0; 0; 7%:Q; 12%:Q; 0; 0; 0; 0; 2%:Q; 1],
       (col [:: frac 3 5; frac 4 5; 0], [:: 16%:Q], rw [:: frac 4 5; frac 3 5; 0; 0]))].
Definition f_qr_tab : list (mat rat * (mat rat * mat rat)) :=
  [:: (col [:: frac 48 5; frac 64 5; 0], (col [:: frac 3 5; frac 4 5; 0], mkMat 1 1 [:: 16%:Q]));
      (col [:: frac 64 5; frac 48 5; 12%:Q; 0], (col [:: frac 16 25; frac 12 25; frac 3 5; 0], mkMat 1 1 [:: 20%:Q]));
      (col [:: 12%:Q; 16%:Q; 0; 0], (col [:: frac 3 5; frac 4 5; 0; 0], mkMat 1 1 [:: 20%:Q]));
      (col [:: frac 64 5; frac 48 5; 12%:Q; 48%:Q], (col [:: frac 16 65; frac 12 65; frac 3 13; frac 12 13], mkMat 1 1 [:: 52%:Q]))].
Definition f_qr := lookup f_qr_tab.
Definition f_svds := trunc_lookup f_svds_tab.
Lemma f_contracts : [/\ qr_ok f_qr, svd_ok demo_svd, truncated_ok w_rsvd, argsort_ok (fun x y : rat => x <= y) rat_argsort & randn_ok r_randn].
Proof.
  have [_ [W2 _] [W3 _] W4 W5] := w_contracts. split; [|exact: W2|exact: W3|exact: W4|exact: W5].
  apply: qr_table_ok. by vm_compute.
Qed.
Lemma f_svds_contract : svds_mat_ok f_svds.
Proof. apply: f_svds_ok. by vm_compute. Qed.

Definition f_cfg := mkCfg IZero false.
Definition f_psi k := psi_api (0 : rat) 1 +%R *%R (fun x y => x - y) o_rel f_qr demo_svd w_rsvd w_eps rat_argsort r_randn f_svds f_argpart k (Zpos 1) f_cfg.
Definition f_run k initial stream := dynamical_experiment (0 : rat) (fun x y => x - y) (fun _ => tt) (fun _ _ => tt) tt (fun _ => tt) (f_psi k) grow_2d
  [:: Zpos 3] true (Z.of_nat (length stream)) w_none initial stream.
Definition q0 : Q := Qmake Z0 1.
Definition q1 : Q := Qmake (Zpos 1) 1.
Definition qhalf : Q := Qmake (Zpos 1) 2.
Definition f_numbers {A B} (x : res (dynamics A B)) : res (list Q * list Q * list Q) :=
  match x with Ok d => Ok (d_hr d, d_mrr d, d_wji d) | Err e => Err e end.
Lemma numbers_ok A B (x : res (dynamics A B)) h q w : f_numbers x = Ok (h, q, w) ->
  exists dyn, x = Ok dyn /\ d_hr dyn = h /\ d_mrr dyn = q /\ d_wji dyn = w.
Proof. case: x => // d [E1 E2 E3]. by exists d. Qed.
Lemma f_result : exists dyn, f_run 2 f_data [:: f_c1; f_c2] = Ok dyn /\ d_hr dyn = [:: q0; q1] /\ d_mrr dyn = [:: q0; qhalf] /\ d_wji dyn = [:: Qmake (Zpos 6) 6].
Proof. apply: numbers_ok. vm_compute. reflexivity. Qed.
(** User 2 has no three items left. *)
Lemma f_refused : f_run 3 f_data [:: f_c2] = Err ValueError.
Proof. vm_compute. reflexivity. Qed.

(** Retraining: user 2 takes item 10, then item 30 together with a new pair. *)
Definition g_data : list irow := [:: rw3 1 10 12; rw3 2 20 12; rw3 3 30 2; rw3 3 40 1].
Definition g_c1 : list irow := [:: rw3 2 10 7].
Definition g_c2 : list irow := [:: rw3 4 50 100; rw3 2 30 5].
Definition g_svds_tab : list (mat rat * (mat rat * list rat * mat rat)) :=
  [:: (mkMat 3 4 [:: 12%:Q; 0; 0; 0; 0; 12%:Q; 0; 0; 0; 0; 2%:Q; 1], (col [:: 1; 0; 0], [:: 12%:Q], rw [:: 1; 0; 0; 0]));
      (mkMat 3 4 [:: 12%:Q; 0; 0; 0; 7%:Q; 12%:Q; 0; 0; 0; 0; 2%:Q; 1],
       (col [:: frac 3 5; frac 4 5; 0], [:: 16%:Q], rw [:: frac 4 5; frac 3 5; 0; 0]));
      (mkMat 4 5 [:: 12%:Q; 0; 0; 0; 0; 7%:Q; 12%:Q; 5%:Q; 0; 0; 0; 0; 2%:Q; 1; 0; 0; 0; 0; 0; 100%:Q],
       (col [:: 0; 0; 0; 1], [:: 100%:Q], rw [:: 0; 0; 0; 0; 1]))].
Definition g_svds := trunc_lookup g_svds_tab.
Lemma g_svds_contract : svds_mat_ok g_svds.
Proof. apply: f_svds_ok. by vm_compute. Qed.
Definition g_svd k := svd_api (0 : rat) +%R *%R o_rel g_svds f_argpart k (Zpos 1).
Definition g_run k initial stream := dynamical_experiment (0 : rat) (fun x y => x - y) (fun _ => tt) (fun _ _ => tt) tt (fun _ => tt) (g_svd k) grow_2d
  [:: Zpos 3] false (Z.of_nat (length stream)) w_none initial stream.
Lemma g_result : exists dyn, g_run 2 g_data [:: g_c1; g_c2] = Ok dyn /\ d_hr dyn = [:: q0; q1] /\ d_mrr dyn = [:: q0; qhalf] /\ d_wji dyn = [:: Qmake (Zpos 6) 6].
Proof. apply: numbers_ok. vm_compute. reflexivity. Qed.
(** Rank three with three users. *)
Lemma g_refused : is_ok (dynamical_experiment (0 : rat) (fun x y => x - y) (fun _ => tt) (fun _ _ => tt) tt (fun _ => tt)
  (svd_api (0 : rat) +%R *%R o_rel g_svds f_argpart 2 (Zpos 3)) grow_2d [:: Zpos 3] false Z0 w_none g_data [:: g_c1; g_c2]) = false.
Proof. vm_compute. reflexivity. Qed.
