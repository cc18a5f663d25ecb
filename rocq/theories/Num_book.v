(** The numerical PSI model keeps the bookkeeping of Psi_model, and its scores are the
    cells of the score matrix. *)
From Coq Require Import ZArith Lia.
From Verif Require Import Prelude DataPrep_model DataPrep_spec Psi_model Psi_spec Tensor_model Matrix_model Attention_model LinAlg_model Num_model Num_sim.
Set Warnings "-notation-overridden".
From mathcomp Require Import all_ssreflect all_algebra.
From Verif Require Import LinAlg_spec LinAlg_bridge Upd_spec Exact_spec Num_spec Num_upd.
Set Implicit Arguments.
Unset Strict Implicit.
Unset Printing Implicit Defensive.
Import GRing.Theory.
Local Open Scope ring_scope.

Section Book.
Variable R : comRingType.
Variable of_rel : Z -> R.
Variables (qr : mat R -> res (mat R * mat R)) (svd : mat R -> res (mat R * list R * mat R)).
Variables (rsvd : mat R -> nat -> res (mat R * list R * mat R)) (exceeds_eps : R -> bool).
Variables (argsort : list R -> list nat) (normal : nat -> nat -> mat R) (le : R -> R -> bool).
Hypotheses (QR : qr_ok qr) (SV : svd_ok svd) (TR : truncated_ok rsvd) (AS : argsort_ok le argsort) (NO : randn_ok normal).
Variable cfg : psi_cfg.
Notation num_updater := (num_updater (0 : R) 1 +%R *%R (fun x y => x - y) qr svd rsvd exceeds_eps argsort normal cfg).
Notation num_update := (num_update (0 : R) 1 +%R *%R (fun x y => x - y) of_rel qr svd rsvd exceeds_eps argsort normal cfg).
Notation num_stream := (num_stream (0 : R) 1 +%R *%R (fun x y => x - y) of_rel qr svd rsvd exceeds_eps argsort normal cfg).
Notation Orc := (Orc qr svd rsvd).

Definition inv r (nu ni : Z) (f : @triple R) : Prop :=
  exists m n, nu = Z.of_nat m /\ ni = Z.of_nat n /\ factors_ok r m n f.

Lemma inv_dims r nu ni u s vt : inv r nu ni (u, s, vt) -> nu = Z.of_nat (mr u) /\ ni = Z.of_nat (mc vt).
Proof. by move=> [m [n [-> [-> [[-> _] _ [_ ->] _]]]]]. Qed.

Lemma inv_ok r md da nu ni f f' : inv r nu ni f -> dims md da nu ni ->
  num_updater md (da_array 0 +%R of_rel da) f = Ok f' ->
  exists nu' ni', updater cfg md da nu ni = Ok (nu', ni') /\ inv r nu' ni' f'.
Proof.
  move=> [m [n [-> [-> F]]]] D E.
  have := upd_main of_rel exceeds_eps QR SV TR AS NO cfg F D. rewrite E => -[m' [n' [E' F']]].
  exists (Z.of_nat m'), (Z.of_nat n'). split=> //. by exists m', n'.
Qed.

Lemma inv_err r md da nu ni f e : inv r nu ni f -> dims md da nu ni ->
  num_updater md (da_array 0 +%R of_rel da) f = Err e -> Orc r e \/ updater cfg md da nu ni = Err e.
Proof.
  move=> [m [n [-> [-> F]]]] D E. have := upd_main of_rel exceeds_eps QR SV TR AS NO cfg F D. by rewrite E.
Qed.

Notation runs r := (Num_sim.runs (0 : R) 1 +%R *%R (fun x y => x - y) of_rel qr svd rsvd exceeds_eps argsort normal cfg (inv r)).

Lemma ok_inv r x : model_ok r x -> inv r (ps_n_users (nm_book x)) (ps_n_items (nm_book x)) (nm_f x).
Proof.
  move=> [A F]. exists (users_of (nm_book x)), (items_of (nm_book x)).
  have [_ _ _ /andP [R0]] := F. rewrite leq_min => /andP [/(leq_trans R0)/ltP H1 /(leq_trans R0)/ltP H2].
  rewrite /users_of /items_of in H1 H2 *. split; [|split=> //]; lia.
Qed.

Lemma inv_factors r st f : inv r (ps_n_users st) (ps_n_items st) f -> factors_ok r (users_of st) (items_of st) f.
Proof. by move=> [m [n [Hm [Hn F]]]]; rewrite /users_of /items_of Hm Hn !Nat2Z.id. Qed.

Lemma factors_smat r m n f : factors_ok r m n f -> factors_ok r m n (f.1.1, SMat (as_matrix 0 f.1.2), f.2)
  /\ smx r r (SMat (as_matrix (0 : R) f.1.2)) = smx r r f.1.2.
Proof.
  move=> [H1 H2 H3 H4]. have [H5 H6] := as_matrix_ok H2. split=> //.
Qed.

Lemma book_main r x data : model_ok r x ->
  match num_update x data with
  | Ok x' => [/\ psi_update cfg (nm_book x) data = Ok (nm_book x'), model_ok r x'
      & exists f l, [/\ ps_log (nm_book x') = ps_log (nm_book x) ++ l, runs r l (nm_f x) f,
          inv r (ps_n_users (nm_book x')) (ps_n_items (nm_book x')) f
          & nm_f x' = (f.1.1, SMat (as_matrix 0 f.1.2), f.2)]]
  | Err e => Orc r e \/ psi_update cfg (nm_book x) data = Err e
  end.
Proof.
  move=> M. have G := ok_inv M.
  have := @update_sim _ 0 1 +%R *%R (fun x y => x - y) of_rel qr svd rsvd exceeds_eps argsort normal cfg (inv r) (Orc r) (@inv_dims r) (@inv_ok r) (@inv_err r) x data G.
  case: (num_update x data) => [x'|e] //= -[b [E [Eb [f [l [L [RN [J F]]]]]]]]. subst b. split=> //.
    split; first by have [] := update_aligned _ _ _ _ (proj1 M) E.
    rewrite F. by case: (factors_smat (inv_factors J)).
  by exists f, l.
Qed.

Lemma stream_main r chunks : forall x, model_ok r x ->
  match num_stream x chunks with
  | Ok x' => psi_stream cfg (nm_book x) chunks = Ok (nm_book x') /\ model_ok r x'
  | Err e => Orc r e \/ psi_stream cfg (nm_book x) chunks = Err e
  end.
Proof.
  rewrite /Num_model.num_stream /psi_stream. elim: chunks => [|c l IH] x M //=.
  have := book_main c M. case: (num_update x c) => [x'|e] /=.
    move=> [-> M' _]. exact: IH M'.
  have K : forall X (g : X -> list irow -> res X) k, List.fold_left (fun acc c => do y <- acc; g y c) k (Err e) = Err e.
    by move=> X g; elim.
  rewrite K. case=> [H| ->]; first by left. right. exact: K.
Qed.

Lemma at_mxE m n (M : 'M[R]_(m, n)) i j (Hi : (i < m)%N) (Hj : (j < n)%N) : at_mx M i j = M (Ordinal Hi) (Ordinal Hj).
Proof. by rewrite /at_mx !insubT. Qed.

Lemma at_ord m n (M : 'M[R]_(m, n)) (i : 'I_m) (j : 'I_n) : at_mx M i j = M i j.
Proof. rewrite at_mxE. by congr (M _ _); apply: val_inj. Qed.

Lemma scores_main r x i : model_ok r x ->
  num_scores (0 : R) +%R *%R x i =
    if (i < users_of (nm_book x))%N then Ok [seq score r x i j | j <- iota 0 (items_of (nm_book x))] else Err IndexError.
Proof.
  move=> [_]. rewrite /score /num_scores. case: (nm_f x) => [[u s] vt].
  set m := users_of _. set n := items_of _. move=> [/= Hu Hs Hv _].
  have [Hs' Es] := as_matrix_ok Hs.
  have [p -> [Hp Ep]] := dot_ok Hs' Hv. rewrite /= (proj1 Hp) (proj2 Hp) (proj1 Hu) (proj2 Hu) ltb_ltn eqb_eqn eqxx andbT.
  case: (ltnP i m) => Hi //. congr Ok. rewrite seq_iota.
  have K : forall (g h : nat -> R) l, {in l, g =1 h} -> List.map g l = [seq h j | j <- l] by move=> g h l /eq_in_map.
  apply: K => j. rewrite mem_iota add0n => /= Hj.
  rewrite sum_upto_big at_mxE /score_mx /= -mulmxA -Es -Ep mxE. apply: eq_bigr => k _. by rewrite !mxE /= mulrC.
Qed.
End Book.
