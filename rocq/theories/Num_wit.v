(** Rational data for the concrete cases of the Num theorems. *)
From Coq Require Import ZArith Lia.
From Verif Require Import Prelude DataPrep_model DataPrep_spec Psi_model Psi_spec Tensor_model Matrix_model Attention_model LinAlg_model Num_model.
Set Warnings "-notation-overridden".
From mathcomp Require Import all_ssreflect all_algebra.
From Verif Require Import LinAlg_spec LinAlg_bridge LinAlg_tables LinAlg_wit Upd_spec Upd_wit Exact_spec Exact_wit Hooi_wit Num_spec Num_book Num_steps Num_lossless Num_train.
Set Implicit Arguments.
Unset Strict Implicit.
Unset Printing Implicit Defensive.
Import GRing.Theory Num.Theory.
Local Open Scope ring_scope.

Definition is_ok {A} (x : res A) : bool := if x is Ok _ then true else false.
Definition get {A} (d : A) (x : res A) : A := if x is Ok y then y else d.
Lemma get_ok A (d : A) x : is_ok x -> x = Ok (get d x).
Proof. by case: x. Qed.

(** Ranks of concrete matrices: a factorisation from above and an invertible compression
    from below. *)
Definition rank_cert (M X Y L K : mat rat) (r : nat) : bool :=
  [&& mr X == mr M, mc X == r, mr Y == r & mc Y == mc M] &&
  [&& mr L == r, mc L == mr M, mr K == mc M & mc K == r] &&
  same_res (qdot X Y) M && (match qdot L M with Ok a => same_res (qdot a K) (eye 0 1 r) | Err _ => false end).
Lemma rank_certP m n M X Y L K r : shape m n M -> rank_cert M X Y L K r -> \rank (mx m n M) = r.
Proof.
  move=> HM. have [E1 E2] := HM. rewrite /rank_cert E1 E2.
  move=> /andP [/andP [/andP [/and4P [/eqP X1 /eqP X2 /eqP Y1 /eqP Y2] /and4P [/eqP L1 /eqP L2 /eqP K1 /eqP K2]] P] C].
  have HX : shape m r X by []. have HY : shape r n Y by []. have HL : shape r m L by []. have HK : shape n r K by [].
  apply: anti_leq. apply/andP; split.
    rewrite -(same_dot HX HY HM P). apply: leq_trans (mulmx_max_rank _ _) _. by [].
  move: C. have [a -> [Ha Ea]] := dot_ok HL HM. have [He Ee] := eye_ok rat_comRing r => C.
  have := same_dot Ha HK He C. rewrite Ea Ee => /(congr1 (fun A => \rank A)). rewrite mxrank1 => <-.
  apply: leq_trans (mxrankM_maxl _ _) (mxrankM_maxr _ _).
Qed.

(** Scores and totals computed. *)
Definition cscore (x : @num_state rat) (i j : nat) : rat :=
  if (i < users_of (nm_book x))%N && (j < items_of (nm_book x))%N
  then nth 0 (get [::] (num_scores 0 +%R *%R x i)) j else 0.
Lemma cscoreE r x i j : model_ok r x -> score r x i j = cscore x i j.
Proof.
  move=> M. rewrite /cscore. have := scores_main i M. case: ifP => [Hi ->|Hi _] /=; last first.
    rewrite /score /at_mx. case: insubP => //= k Hk. by rewrite Hk in Hi.
  case: ifP => Hj.
    by rewrite (nth_map 0%N) ?size_iota // nth_iota.
  rewrite /score /at_mx insubT. case: insubP => //= k Hk. by rewrite Hk in Hj.
Qed.
Definition o_rel (z : Z) : rat :=
  match z with Z0 => 0 | Zpos p => (Pos.to_nat p)%:Q | Zneg p => - (Pos.to_nat p)%:Q end.
Definition ctotal (st : psi_state) (rows : list irow) (i j : nat) : rat :=
  foldr (fun x a => if hits st i j x then o_rel (r_rel x) + a else a) 0 rows.
Lemma ctotalE st rows i j : total o_rel st rows i j = ctotal st rows i j.
Proof. by rewrite /total; elim: rows => [|x l IH] /=; rewrite ?big_nil // big_cons IH. Qed.
Definition ctab x st rows := build (users_of st) (items_of st) (fun i j => cscore x i j + ctotal st rows i j).
Lemma ctabE r x st rows : model_ok r x ->
  fmx (users_of st) (items_of st) (fun i j => score r x i j + total o_rel st rows i j) = mx (users_of st) (items_of st) (ctab x st rows).
Proof. move=> M. apply/matrixP => i j. by rewrite !mxE /ctab build_mget // (cscoreE _ _ M) ctotalE. Qed.
Lemma ctab_shape x st rows : shape (users_of st) (items_of st) (ctab x st rows).
Proof. by []. Qed.
Lemma ctab_rank r x st rows X Y L K k : model_ok r x -> rank_cert (ctab x st rows) X Y L K k ->
  \rank (fmx (users_of st) (items_of st) (fun i j => score r x i j + total o_rel st rows i j)) = k.
Proof. move=> M C. rewrite (ctabE _ _ M). exact: rank_certP C. Qed.
Lemma tot_rank st rows X Y L K k : rank_cert (build (users_of st) (items_of st) (ctotal st rows)) X Y L K k ->
  \rank (fmx (users_of st) (items_of st) (total o_rel st rows)) = k.
Proof.
  move=> C. rewrite -(rank_certP (m := users_of st) (n := items_of st) _ C) //. congr mxrank.
  apply/matrixP => i j. by rewrite !mxE build_mget // ctotalE.
Qed.
Definition cprod (a b : mat rat) : mat rat := get (mkMat 0 0 [::]) (qdot a (transpose 0 b)).
Lemma cprod_rank m n a b X Y L K k : shape m n a -> shape m n b -> rank_cert (cprod a b) X Y L K k ->
  \rank (mx m n a *m (mx m n b)^T) = k.
Proof.
  move=> Ha Hb. have [Ht Et] := transpose_ok Hb. rewrite -Et. have [c E [Hc Ec]] := dot_ok Ha Ht. rewrite -Ec /cprod E.
  exact: rank_certP.
Qed.
Lemma ctab_prod r x st rows rows' X Y L K k : model_ok r x -> rank_cert (cprod (ctab x st rows) (ctab x st rows')) X Y L K k ->
  \rank (fmx (users_of st) (items_of st) (fun i j => score r x i j + total o_rel st rows i j)
     *m (fmx (users_of st) (items_of st) (fun i j => score r x i j + total o_rel st rows' i j))^T) = k.
Proof. move=> M C. rewrite !(ctabE _ _ M). exact: cprod_rank C. Qed.

(** Factorisations of the matrices met below. *)
Definition col (l : list rat) : mat rat := mkMat (size l) 1 l.
Definition rw (l : list rat) : mat rat := mkMat 1 (size l) l.
Definition w_qr_tab : list (mat rat * (mat rat * mat rat)) :=
  [:: (col [:: 0; 0], (col [:: frac 4 5; frac (-3) 5], mkMat 1 1 [:: 0]));
      (col [:: 30%:Q; 20%:Q; 60%:Q], (col [:: frac 3 7; frac 2 7; frac 6 7], mkMat 1 1 [:: 70%:Q]));
      (col [:: 42%:Q; 56%:Q], (demo_u, mkMat 1 1 [:: 70%:Q]));
      (col [:: 0; 0; 0], (col [:: frac (-6) 7; frac 3 7; frac 2 7], mkMat 1 1 [:: 0]));
      (* rank two *)
      (mkMat 3 2 [:: 16%:Q; 12%:Q; 0; 25%:Q; 0; 0], (mkMat 3 2 [:: 1; 0; 0; 1; 0; 0], mkMat 2 2 [:: 16%:Q; 12%:Q; 0; 25%:Q]));
      (mkMat 4 2 [:: 16%:Q; 0; 12%:Q; 25%:Q; 0; 0; 0; 0],
       (mkMat 4 2 [:: frac 4 5; frac (-3) 5; frac 3 5; frac 4 5; 0; 0; 0; 0], mkMat 2 2 [:: 20%:Q; 15%:Q; 0; 20%:Q]));
      (mkMat 4 2 [:: 0; 0; 0; 0; 0; 0; 0; 0], (mkMat 4 2 [:: 0; 0; 0; 0; 1; 0; 0; 1], mkMat 2 2 [:: 0; 0; 0; 0]));
      (* zero embeddings *)
      (col [:: 15%:Q; 20%:Q; 0], (col [:: frac 3 5; frac 4 5; 0], mkMat 1 1 [:: 25%:Q]));
      (col [:: 15%:Q; 20%:Q; 60%:Q], (col [:: frac 3 13; frac 4 13; frac 12 13], mkMat 1 1 [:: 65%:Q]));
      (col [:: 39%:Q; 52%:Q], (demo_u, mkMat 1 1 [:: 65%:Q]))].
Definition w_rsvd_tab : list (mat rat * (mat rat * list rat * mat rat)) :=
  [:: (mkMat 2 2 [:: 25%:Q; 60%:Q; 0; 0], (col [:: 1; 0], [:: 65%:Q], rw [:: frac 5 13; frac 12 13]));
      (mkMat 2 2 [:: 70%:Q; 168%:Q; 0; 0], (col [:: 1; 0], [:: 182%:Q], rw [:: frac 5 13; frac 12 13]));
      (mkMat 4 4 [:: 20%:Q; 0; -5%:Q; 40%:Q; 15%:Q; 20%:Q; 60%:Q; 0; 0; 0; 0; 0; 0; 0; 0; 0],
       (mkMat 4 2 [:: 0; 1; 1; 0; 0; 0; 0; 0], [:: 65%:Q; 45%:Q],
        mkMat 2 4 [:: frac 3 13; frac 4 13; frac 12 13; 0; frac 4 9; 0; frac (-1) 9; frac 8 9]))].
Definition w_svds_tab : list (mat rat * (mat rat * list rat * mat rat)) :=
  [:: (mkMat 2 2 [:: 9%:Q; 12%:Q; 12%:Q; 16%:Q], (demo_u, [:: 25%:Q], rw [:: frac 3 5; frac 4 5]));
      (mkMat 3 4 [:: 9%:Q; 0; 0; 0; 0; 4%:Q; 0; 0; 0; 0; 0; 0],
       (mkMat 3 2 [:: 0; 1; 1; 0; 0; 0], [:: 4%:Q; 9%:Q], mkMat 2 4 [:: 0; 1; 0; 0; 1; 0; 0; 0]))].
Definition w_qr := lookup w_qr_tab.
Definition w_rsvd := trunc_lookup w_rsvd_tab.
Definition w_svds := trunc_lookup w_svds_tab.
Lemma w_qr_ok : qr_ok w_qr.
Proof. apply: qr_table_ok. by vm_compute. Qed.
Lemma w_rsvd_ok : truncated_ok w_rsvd /\ lossless w_rsvd.
Proof. by split; [apply: trunc_table_ok; vm_compute|apply: exact_table_ok; vm_compute]. Qed.
Definition nonneg_entry (e : mat rat * (mat rat * list rat * mat rat)) : bool := all (fun y => 0 <= y) e.2.1.2.
Lemma nonneg_table (tab : list (mat rat * (mat rat * list rat * mat rat))) x t : all nonneg_entry tab -> lookup tab x = Ok t -> all (fun y => 0 <= y) t.1.2.
Proof. move=> A E. case: (lookup_in E) => y [I _]. exact: (all_in A I). Qed.
Lemma svds_table_ok tab : all exact_entry tab -> all nonneg_entry tab ->
  [/\ svds_mat_ok (trunc_lookup tab), lossless (trunc_lookup tab) & forall r, nonneg_svd (fun y => trunc_lookup tab y r)].
Proof.
  move=> T N. split; [|exact: exact_table_ok|].
  - move=> x k t E. have := trunc_table_ok (exact_trunc T) E. rewrite (minn_idPl _) //.
    move: E. rewrite /trunc_lookup. case E : (lookup tab x) => [[[u s] vt]|] //=.
    case: eqP => // -> _. case: (lookup_in E) => y [I S]. have := all_in T I. rewrite /=.
    move=> /andP [/andP [/and5P [_ _ _ _ L] _] _]. have Sy : shape (mr y) (mc y) y by [].
    by case: (same_mx Sy S) => -[-> ->] _.
  - move=> r x u s vt. rewrite /trunc_lookup. case E : (lookup tab x) => [t|] //=. case: eqP => // _ [Et].
    have := nonneg_table N E. by rewrite Et.
Qed.
Lemma w_svds_ok : [/\ svds_mat_ok w_svds, lossless w_svds & forall r, nonneg_svd (fun y => w_svds y r)].
Proof. apply: svds_table_ok; by vm_compute. Qed.
Lemma w_argsort : argsort_ok (fun x y : rat => x <= y) rat_argsort.
Proof. exact: rat_argsort_ok. Qed.
Definition w_eps (x : rat) : bool := x != 0.
Definition w_update cfg := num_update (0 : rat) 1 +%R *%R (fun x y => x - y) o_rel w_qr demo_svd w_rsvd w_eps rat_argsort r_randn cfg.
Definition w_stream cfg := num_stream (0 : rat) 1 +%R *%R (fun x y => x - y) o_rel w_qr demo_svd w_rsvd w_eps rat_argsort r_randn cfg.
Definition w_train := num_train (0 : rat) +%R o_rel w_svds.
Definition w_none : @num_state rat :=
  mkNum (mkPsi (mkMappings (get_cont_mapping_struct nil Z0) (get_cont_mapping_struct nil Z0)) Z0 Z0 nil nil) (mkMat 0 0 nil, SVec nil, mkMat 0 0 nil).
Definition rw3 (u i v : nat) : irow := mkRow (Z.of_nat u) (Z.of_nat i) Z0 (Z.of_nat v).

(** Contracts of all the routines above. *)
Lemma w_contracts : [/\ qr_ok w_qr, svd_ok demo_svd /\ nonneg_svd demo_svd, truncated_ok w_rsvd /\ lossless w_rsvd,
  argsort_ok (fun x y : rat => x <= y) rat_argsort & randn_ok r_randn].
Proof. split; [exact: w_qr_ok|exact: k_svd|exact: w_rsvd_ok|exact: w_argsort|by []]. Qed.
Lemma w_book cfg r x data x' : model_ok r x -> w_update cfg x data = Ok x' -> model_ok r x'.
Proof.
  have [W1 [W2 _] [W3 _] W4 W5] := w_contracts. rewrite /w_update => M E.
  have := book_main o_rel w_eps W1 W2 W3 W4 W5 cfg data M. by rewrite E => -[].
Qed.

(** First case, rank one: two users and two items, then a new user who rates both items while
    a known user rates them again, then a new item. *)
Definition e1_data : list irow := [:: rw3 10 30 9; rw3 10 40 12; rw3 20 30 12; rw3 20 40 16].
Definition e1_c1 : list irow := [:: rw3 50 30 36; rw3 10 30 9; rw3 50 40 48; rw3 10 40 12].
Definition e1_c2 : list irow := [:: rw3 10 60 72; rw3 20 60 48; rw3 50 60 144].
Definition plain := mkCfg INone false.
Definition e1_x0 := get w_none (w_train (Zpos 1) e1_data).
Definition e1_x1 := get w_none (w_update plain e1_x0 e1_c1).
Definition e1_x2 := get w_none (w_update plain e1_x1 e1_c2).
Lemma e1_r0 : w_train (Zpos 1) e1_data = Ok e1_x0.
Proof. apply: get_ok. by vm_compute. Qed.
Lemma e1_r1 : w_update plain e1_x0 e1_c1 = Ok e1_x1.
Proof. apply: get_ok. by vm_compute. Qed.
Lemma e1_r2 : w_update plain e1_x1 e1_c2 = Ok e1_x2.
Proof. apply: get_ok. by vm_compute. Qed.

Lemma e1_ok0 : [/\ model_ok 1 e1_x0, ortho 1 (users_of (nm_book e1_x0)) (items_of (nm_book e1_x0)) (nm_f e1_x0) & nonneg_middle (nm_f e1_x0).1.2].
Proof.
  have [W1 _ W2] := w_svds_ok. have [_ M O N _] := train_main W1 e1_r0.
  split; [exact M|exact O|exact (N (W2 1%N))].
Qed.
Lemma e1_ok1 : model_ok 1 e1_x1.
Proof. have [M _ _] := e1_ok0. exact (w_book M e1_r1). Qed.
Lemma e1_loss0 : \rank (fmx (users_of (nm_book e1_x0)) (items_of (nm_book e1_x0)) (total o_rel (nm_book e1_x0) e1_data)) = 1%N.
Proof.
  apply: (tot_rank (X := col [:: 3%:Q; 4%:Q]) (Y := rw [:: 3%:Q; 4%:Q]) (L := rw [:: frac 1 9; 0]) (K := col [:: 1; 0])).
  by vm_compute.
Qed.
Lemma e1_loss1 : lossless_update o_rel plain 1 e1_x0 (nm_book e1_x1) e1_c1.
Proof.
  have [M _ _] := e1_ok0. split.
    split.
    - apply: eq_leq. apply: (ctab_rank (X := col [:: 3%:Q; 4%:Q; 0]) (Y := rw [:: 3%:Q; 4%:Q]) (L := rw [:: frac 1 9; 0; 0]) (K := col [:: 1; 0]) M). by vm_compute.
    - move=> _. split.
        apply: (ctab_rank (X := col [:: 3%:Q; 4%:Q; 12%:Q]) (Y := rw [:: 3%:Q; 4%:Q]) (L := rw [:: frac 1 9; 0; 0]) (K := col [:: 1; 0]) M). by vm_compute.
      move=> _. by apply/matrixP => i j; rewrite !ord1 mxE.
    - move=> H; exfalso; apply: H; by vm_compute.
  rewrite (ctab_prod (X := col [:: 18%:Q; 12%:Q; 36%:Q]) (Y := rw [:: 25%:Q * frac 3 3; 25%:Q * frac 4 3; 100%:Q]) (L := rw [:: frac 1 450; 0; 0]) (K := col [:: 1; 0; 0]) (k := 1) M); last by vm_compute.
  apply/esym. apply: (ctab_rank (X := col [:: 6%:Q; 4%:Q; 12%:Q]) (Y := rw [:: 3%:Q; 4%:Q]) (L := rw [:: frac 1 18; 0; 0]) (K := col [:: 1; 0]) M).
  by vm_compute.
Qed.
Lemma e1_loss2 : lossless_update o_rel plain 1 e1_x1 (nm_book e1_x2) e1_c2.
Proof.
  have M := e1_ok1. split.
    split.
    - apply: eq_leq. apply: (ctab_rank (X := col [:: 6%:Q; 4%:Q; 12%:Q]) (Y := rw [:: 3%:Q; 4%:Q; 0]) (L := rw [:: frac 1 18; 0; 0]) (K := col [:: 1; 0; 0]) M). by vm_compute.
    - move=> H; exfalso; apply: H; by vm_compute.
    - move=> _. apply: (ctab_rank (X := col [:: 6%:Q; 4%:Q; 12%:Q]) (Y := rw [:: 3%:Q; 4%:Q; 12%:Q]) (L := rw [:: frac 1 18; 0; 0]) (K := col [:: 1; 0; 0]) M). by vm_compute.
  rewrite (ctab_prod (X := col [:: 6%:Q; 4%:Q; 12%:Q]) (Y := rw [:: 1014%:Q; 676%:Q; 2028%:Q]) (L := rw [:: frac 1 6084; 0; 0]) (K := col [:: 1; 0; 0]) (k := 1) M); last by vm_compute.
  apply/esym. apply: (ctab_rank (X := col [:: 6%:Q; 4%:Q; 12%:Q]) (Y := rw [:: 3%:Q; 4%:Q; 12%:Q]) (L := rw [:: frac 1 18; 0; 0]) (K := col [:: 1; 0; 0]) M).
  by vm_compute.
Qed.
Lemma e1_stream : lossless_stream o_rel plain 1 (w_update plain) e1_x0 [:: e1_c1; e1_c2].
Proof.
  exists e1_x1. split; [exact e1_r1|exact e1_loss1|]. exists e1_x2. split; [exact e1_r2|exact e1_loss2|exact I].
Qed.
(** The scores after both chunks. *)
Definition table_is (x : @num_state rat) (m n : nat) (l : list rat) : bool :=
  [&& users_of (nm_book x) == m, items_of (nm_book x) == n & same (build m n (cscore x)) (mkMat m n l)].
Lemma e1_scores : table_is e1_x2 3 3 [:: 18%:Q; 24%:Q; 72%:Q; 12%:Q; 16%:Q; 48%:Q; 36%:Q; 48%:Q; 144%:Q].
Proof. by vm_compute. Qed.

(** Second case, rank two: training, a chunk of known users and items, then two new users
    rating known items. *)
Definition rwz (u i : nat) (v : Z) : irow := mkRow (Z.of_nat u) (Z.of_nat i) Z0 v.
Definition e3_data : list irow := [:: rw3 10 30 9; rw3 20 40 4; rw3 70 50 0; rw3 70 60 0].
Definition e3_c1 : list irow := [:: rw3 10 30 7; rw3 10 40 12; rw3 20 40 21].
Definition e3_c2 : list irow := [:: rwz 80 30 (Z.opp (Z.of_nat 40)); rw3 80 40 45; rw3 90 30 32; rw3 90 40 24].
Definition e3_x0 := get w_none (w_train (Zpos 2) e3_data).
Definition e3_x1 := get w_none (w_update plain e3_x0 e3_c1).
Definition e3_x2 := get w_none (w_update plain e3_x1 e3_c2).
Lemma e3_r0 : w_train (Zpos 2) e3_data = Ok e3_x0.
Proof. apply: get_ok. by vm_compute. Qed.
Lemma e3_r1 : w_update plain e3_x0 e3_c1 = Ok e3_x1.
Proof. apply: get_ok. by vm_compute. Qed.
Lemma e3_r2 : w_update plain e3_x1 e3_c2 = Ok e3_x2.
Proof. apply: get_ok. by vm_compute. Qed.
Lemma e3_t1 : table_is e3_x1 3 4 [:: 16%:Q; 12%:Q; 0; 0; 0; 25%:Q; 0; 0; 0; 0; 0; 0].
Proof. by vm_compute. Qed.
Lemma e3_t2 : table_is e3_x2 5 4 [:: 7%:Q; 24%:Q; 0; 0; -12%:Q; 16%:Q; 0; 0; 0; 0; 0; 0; -40%:Q; 45%:Q; 0; 0; 32%:Q; 24%:Q; 0; 0].
Proof. by vm_compute. Qed.
Lemma e3_ok0 : [/\ model_ok 2 e3_x0, ortho 2 (users_of (nm_book e3_x0)) (items_of (nm_book e3_x0)) (nm_f e3_x0) & nonneg_middle (nm_f e3_x0).1.2].
Proof.
  have [W1 _ W2] := w_svds_ok. have [_ M O N _] := train_main W1 e3_r0.
  split; [exact M|exact O|exact (N (W2 2%N))].
Qed.
Definition two_cols (m : nat) : mat rat := build m 2 (fun i j => if i == j then 1 else 0).
Lemma e3_loss1 : lossless_update o_rel plain 2 e3_x0 (nm_book e3_x1) e3_c1.
Proof.
  have [M _ _] := e3_ok0. split.
    split.
    - apply: eq_leq. apply: (ctab_rank (X := two_cols 3) (Y := mkMat 2 4 [:: 9%:Q; 0; 0; 0; 0; 4%:Q; 0; 0])
        (L := mkMat 2 3 [:: frac 1 9; 0; 0; 0; frac 1 4; 0]) (K := two_cols 4) M). by vm_compute.
    - move=> H; exfalso; apply: H; by vm_compute.
    - move=> H; exfalso; apply: H; by vm_compute.
  rewrite (ctab_prod (X := two_cols 3) (Y := mkMat 2 3 [:: 144%:Q; 48%:Q; 0; 0; 100%:Q; 0])
     (L := mkMat 2 3 [:: frac 1 144; frac (-1) 300; 0; 0; frac 1 100; 0]) (K := two_cols 3) (k := 2) M); last by vm_compute.
  apply/esym. apply: (ctab_rank (X := two_cols 3) (Y := mkMat 2 4 [:: 16%:Q; 12%:Q; 0; 0; 0; 25%:Q; 0; 0])
     (L := mkMat 2 3 [:: frac 1 16; frac (-3) 100; 0; 0; frac 1 25; 0]) (K := two_cols 4) M).
  by vm_compute.
Qed.
Lemma w_lossless cfg r x data x' : model_ok r x -> ortho r (users_of (nm_book x)) (items_of (nm_book x)) (nm_f x) ->
  nonneg_middle (nm_f x).1.2 -> w_update cfg x data = Ok x' -> lossless_update o_rel cfg r x (nm_book x') data ->
  [/\ model_ok r x', ortho r (users_of (nm_book x')) (items_of (nm_book x')) (nm_f x') & nonneg_middle (nm_f x').1.2].
Proof.
  have [W1 [W2 W2'] [W3 W3'] W4 W5] := w_contracts. rewrite /w_update => M O N E LU.
  by have [] := update_lossless_main W1 W2 W2' W3 W3' W4 W5 M O N E LU.
Qed.
Lemma e3_ok1 : [/\ model_ok 2 e3_x1, ortho 2 (users_of (nm_book e3_x1)) (items_of (nm_book e3_x1)) (nm_f e3_x1) & nonneg_middle (nm_f e3_x1).1.2].
Proof. have [M O N] := e3_ok0. exact (w_lossless M O N e3_r1 e3_loss1). Qed.
(** The state with the middle factor transposed. *)
Definition turned (x : @num_state rat) : @num_state rat :=
  mkNum (nm_book x) ((nm_f x).1.1, SMat (transpose 0 (as_matrix 0 (nm_f x).1.2)), (nm_f x).2).
Lemma turned_score r x : model_ok r x -> model_ok r (turned x) /\
  forall i j, at_mx (turned_mx r (users_of (nm_book x)) (items_of (nm_book x)) (nm_f x)) i j = score r (turned x) i j.
Proof.
  move=> [A [H1 H2 H3 H4]]. have [H5 H6] := as_matrix_ok H2. have [H7 H8] := transpose_ok H5. split=> //.
  move=> i j. rewrite /score /turned_mx /score_mx [nm_f (turned x)]/= [_.1.1]/= [_.2]/= [X in smx r r X]/= -H6.
  congr (at_mx (_ *m _ *m _)). by rewrite -H8.
Qed.
Lemma turned_rank r x st rows X Y L K k : model_ok r x -> rank_cert (ctab (turned x) st rows) X Y L K k ->
  \rank (fmx (users_of st) (items_of st)
    (fun i j => at_mx (turned_mx r (users_of (nm_book x)) (items_of (nm_book x)) (nm_f x)) i j + total o_rel st rows i j)) = k.
Proof.
  move=> M C. have [M' S] := turned_score M. rewrite -(ctab_rank M' C).
  congr mxrank. apply/matrixP => i j. by rewrite !mxE S.
Qed.
Lemma e3_rank : \rank (fmx (users_of (nm_book e3_x2)) (items_of (nm_book e3_x2))
  (fun i j => at_mx (turned_mx 2 (users_of (nm_book e3_x1)) (items_of (nm_book e3_x1)) (nm_f e3_x1)) i j + total o_rel (nm_book e3_x2) e3_c2 i j)) = 2%N.
Proof.
  have [M _ _] := e3_ok1.
  apply: (turned_rank (X := mkMat 5 2 [:: 7%:Q; 24%:Q; -12%:Q; 16%:Q; 0; 0; -40%:Q; 45%:Q; 32%:Q; 24%:Q]) (Y := transpose 0 (two_cols 4))
    (L := mkMat 2 5 [:: frac 1 25; frac (-3) 50; 0; 0; 0; frac 3 100; frac 7 400; 0; 0; 0]) (K := two_cols 4) M).
  by vm_compute.
Qed.
Lemma e3_users : List.Forall (fun y => unknown_user (nm_book e3_x1) y /\ ~~ unknown_item (nm_book e3_x1) y) e3_c2.
Proof.
  apply/List.Forall_forall => y H. apply/andP.
  have A : all (fun y => unknown_user (nm_book e3_x1) y && ~~ unknown_item (nm_book e3_x1) y) e3_c2 by vm_compute.
  exact: (all_in A H).
Qed.

(** Third case, zero embeddings with the integrator option: a new user rates a new item. *)
Definition zeros := mkCfg IZero true.
Definition e4_c1 : list irow := [:: rw3 50 60 5].
Definition e4_x1 := get w_none (w_update zeros e1_x0 e4_c1).
Lemma e4_r1 : w_update zeros e1_x0 e4_c1 = Ok e4_x1.
Proof. apply: get_ok. by vm_compute. Qed.
Lemma e4_t1 : table_is e4_x1 3 3 [:: 9%:Q; 12%:Q; 0; 12%:Q; 16%:Q; 0; 0; 0; 0].
Proof. by vm_compute. Qed.
Definition e5_c1 : list irow := [:: rw3 50 30 36; rw3 50 40 48].
Definition e5_x1 := get w_none (w_update (mkCfg IZero false) e1_x0 e5_c1).
Lemma e5_r1 : w_update (mkCfg IZero false) e1_x0 e5_c1 = Ok e5_x1.
Proof. apply: get_ok. by vm_compute. Qed.
Lemma e5_loss1 : lossless_update o_rel (mkCfg IZero false) 1 e1_x0 (nm_book e5_x1) e5_c1.
Proof.
  have [M _ _] := e1_ok0. split.
    apply: eq_leq. apply: (ctab_rank (X := col [:: 3%:Q; 4%:Q; 0]) (Y := rw [:: 3%:Q; 4%:Q]) (L := rw [:: frac 1 9; 0; 0]) (K := col [:: 1; 0]) M). by vm_compute.
  rewrite (ctab_prod (X := col [:: 3%:Q; 4%:Q; 12%:Q]) (Y := rw [:: 75%:Q; 100%:Q; 0]) (L := rw [:: frac 1 225; 0; 0]) (K := col [:: 1; 0; 0]) (k := 1) M); last by vm_compute.
  apply/esym. apply: (ctab_rank (X := col [:: 3%:Q; 4%:Q; 12%:Q]) (Y := rw [:: 3%:Q; 4%:Q]) (L := rw [:: frac 1 9; 0; 0]) (K := col [:: 1; 0]) M).
  by vm_compute.
Qed.
Lemma e5_t1 : table_is e5_x1 3 2 [:: 9%:Q; 12%:Q; 12%:Q; 16%:Q; 36%:Q; 48%:Q].
Proof. by vm_compute. Qed.
Lemma scores_prod r x st rows X Y L K k : model_ok r x -> rank_cert (cprod (ctab x st rows) (ctab x st [::])) X Y L K k ->
  \rank (fmx (users_of st) (items_of st) (fun i j => score r x i j + total o_rel st rows i j)
     *m (fmx (users_of st) (items_of st) (score r x))^T) = k.
Proof.
  move=> M C. rewrite -(ctab_prod M C). congr (\rank (_ *m _^T)). apply/matrixP => i j. by rewrite !mxE /total big_nil addr0.
Qed.
Lemma e4_rank :
  let T := fmx (users_of (nm_book e4_x1)) (items_of (nm_book e4_x1)) (fun i j => score 1 e1_x0 i j + total o_rel (nm_book e4_x1) e4_c1 i j) in
  let A := fmx (users_of (nm_book e4_x1)) (items_of (nm_book e4_x1)) (score 1 e1_x0) in
  \rank (T *m A^T) = 1%N.
Proof.
  have [M _ _] := e1_ok0. move=> T A.
  apply: (scores_prod (X := col [:: 3%:Q; 4%:Q; 0]) (Y := rw [:: 75%:Q; 100%:Q; 0]) (L := rw [:: frac 1 225; 0; 0]) (K := col [:: 1; 0; 0]) M).
  by vm_compute.
Qed.
(** Training, a chunk of known users, a chunk of new users: known users' scores change. *)
Lemma table_score r x m n l i j : model_ok r x -> table_is x m n l -> (i < m)%N -> (j < n)%N ->
  score r x i j = mget 0 (mkMat m n l) i j.
Proof.
  move=> M /and3P [/eqP E1 /eqP E2 S] Hi Hj. rewrite (cscoreE _ _ M).
  have Sh : shape m n (mkMat m n l) by []. have [_ H] := same_mx Sh S.
  have := congr1 (fun A : 'M_(m, n) => A (Ordinal Hi) (Ordinal Hj)) H. by rewrite !mxE build_mget.
Qed.
Lemma known_users_changed :
  exists (svds : mat rat -> nat -> res (mat rat * list rat * mat rat)) (qr : mat rat -> res (mat rat * mat rat))
         (svd : mat rat -> res (mat rat * list rat * mat rat)) (rsvd : mat rat -> nat -> res (mat rat * list rat * mat rat))
         (exceeds_eps : rat -> bool) (argsort : list rat -> list nat) (normal : nat -> nat -> mat rat)
         (data c1 c2 : list irow) (x0 x1 x2 : num_state),
  let update := num_update 0 1 +%R *%R (fun x y => x - y) o_rel qr svd rsvd exceeds_eps argsort normal (mkCfg INone false) in
  [/\ [/\ svds_mat_ok svds, qr_ok qr, svd_ok svd, truncated_ok rsvd & lossless rsvd]
      /\ argsort_ok (fun x y => x <= y) argsort /\ randn_ok normal,
      [/\ num_train 0 +%R o_rel svds (Zpos 2) data = Ok x0, update x0 c1 = Ok x1 & update x1 c2 = Ok x2],
      List.Forall (fun y => unknown_user (nm_book x1) y /\ ~~ unknown_item (nm_book x1) y) c2,
      [/\ score 2 x1 0 0 = 16%:Q, score 2 x1 0 1 = 12%:Q, score 2 x1 1 0 = 0 & score 2 x1 1 1 = 25%:Q]
    & [/\ score 2 x2 0 0 = 7%:Q, score 2 x2 0 1 = 24%:Q, score 2 x2 1 0 = - 12%:Q & score 2 x2 1 1 = 16%:Q]].
Proof.
  exists w_svds, w_qr, demo_svd, w_rsvd, w_eps, rat_argsort, r_randn, e3_data, e3_c1, e3_c2, e3_x0, e3_x1, e3_x2.
  have [W1 [W2 _] [W3 W3'] W4 W5] := w_contracts. have [V1 _ _] := w_svds_ok.
  have [M _ _] := e3_ok1. have M2 := w_book M e3_r2.
  split; [split; [by split|by split]|split; [exact e3_r0|exact e3_r1|exact e3_r2]|exact e3_users| |].
  - split; [exact: (table_score M e3_t1 (i := 0) (j := 0))|exact: (table_score M e3_t1 (i := 0) (j := 1))
      |exact: (table_score M e3_t1 (i := 1) (j := 0))|exact: (table_score M e3_t1 (i := 1) (j := 1))].
  - split; [exact: (table_score M2 e3_t2 (i := 0) (j := 0))|exact: (table_score M2 e3_t2 (i := 0) (j := 1))
      |exact: (table_score M2 e3_t2 (i := 1) (j := 0))|exact: (table_score M2 e3_t2 (i := 1) (j := 1))].
Qed.
