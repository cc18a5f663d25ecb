(** Training and streams of the numerical PSI model. *)
From Coq Require Import ZArith Lia.
From Verif Require Import Prelude DataPrep_model DataPrep_spec Psi_model Psi_spec Tensor_model Matrix_model Attention_model LinAlg_model Num_model Num_sim.
Set Warnings "-notation-overridden".
From mathcomp Require Import all_ssreflect all_algebra.
From Verif Require Import LinAlg_spec LinAlg_bridge LinAlg_psi LinAlg_block Upd_spec Exact_spec Exact_main Num_spec Num_upd Num_book Num_cells Num_steps Num_lossless.
Set Implicit Arguments.
Unset Strict Implicit.
Unset Printing Implicit Defensive.
Import GRing.Theory Num.Theory.
Local Open Scope ring_scope.

Section Train.
Variable R : comRingType.

Lemma reversed_ok m r n u s (vt : mat R) : svd_factors m r n (u, s, vt) ->
  let u' := build (mr u) (mc u) (fun i j => mget 0 u i (mc u - 1 - j)) in
  let vt' := build (mr vt) (mc vt) (fun i j => mget 0 vt (mr vt - 1 - i) j) in
  svd_factors m r n (u', List.rev s, vt') /\ product m r n (u', List.rev s, vt') = product m r n (u, s, vt).
Proof.
  move=> SF u' vt'. have [/= Hu Hs Hv Ou Ov] := SF.
  have Eu (i : 'I_m) (j : 'I_r) : mget 0 u' i j = mget 0 u i (rev_ord j).
    rewrite /u' build_mget ?(proj1 Hu) ?(proj2 Hu) // -!minusE. by rewrite /= -minusE -addn1 -plusE; congr mget; lia.
  have Ev (i : 'I_r) (j : 'I_n) : mget 0 vt' i j = mget 0 vt (rev_ord i) j.
    rewrite /vt' build_mget ?(proj1 Hv) ?(proj2 Hv) // -!minusE. by rewrite /= -minusE -addn1 -plusE; congr mget; lia.
  split; first split=> //=.
  - by rewrite -length_size List.rev_length length_size.
  - apply/matrixP => a b. have := congr1 (fun M : 'M_r => M (rev_ord a) (rev_ord b)) Ou. rewrite !mxE (inj_eq rev_ord_inj) => <-.
    apply: eq_bigr => i _. by rewrite !mxE !Eu.
  - apply/matrixP => a b. have := congr1 (fun M : 'M_r => M (rev_ord a) (rev_ord b)) Ov. rewrite !mxE (inj_eq rev_ord_inj) => <-.
    apply: eq_bigr => i _. by rewrite !mxE !Ev.
  - apply/matrixP => i j. rewrite /product /= !prod3E (reindex_inj rev_ord_inj). apply: eq_bigr => t _.
    rewrite Eu Ev rev_ordK rev_rev nth_rev ?Hs ?ltn_ord //. congr (_ * nth _ _ _ * _).
    have := ltn_ord t. by rewrite /= => Ht; rewrite subnSK // subKn // ltnW.
Qed.
End Train.

Section Main.
Variable R : realFieldType.
Variable of_rel : Z -> R.
Variable svds : mat R -> nat -> res (mat R * list R * mat R).
Notation num_train := (num_train (0 : R) +%R of_rel svds).
Notation total := (total of_rel).

Lemma train_main rank data x : svds_mat_ok svds -> num_train rank data = Ok x ->
  let r := Z.to_nat rank in let st := nm_book x in
  [/\ svd_train rank data = Ok st, model_ok r x, ortho r (users_of st) (items_of st) (nm_f x),
      nonneg_svd (fun y => svds y r) -> nonneg_middle (nm_f x).1.2
    & lossless svds -> (\rank (fmx (users_of st) (items_of st) (total st data)) <= r)%N ->
      forall i j, score r x i j = total st data i j].
Proof.
  move=> SO. rewrite /Num_model.num_train. case T : (svd_train rank data) => [st|e] //=.
  case G : (get_df_with_updated_indices data) => [[df ms]|e] //=.
  set da := Psi_model.mkCoo _ _ _. case E : (svds _ _) => [[[u s] vt]|e] //= [<-] /=.
  have [A [[B1 B2] [F RG]]] := train_facts _ _ _ _ _ T G.
  set r := Z.to_nat rank. have Hd : shape (users_of st) (items_of st) (da_array 0 +%R of_rel da) by [].
  have := SO _ _ _ E. rewrite (proj1 Hd) (proj2 Hd) => SF. have [SF' PE] := reversed_ok SF.
  set f := (_, SVec _, _). set m := users_of st in Hd SF SF' PE *. set n := items_of st in Hd SF SF' PE *.
  have [/= H1 H2 H3 H4 H5] := SF'.
  have RNG : List.Forall (fun e => (Z.le Z0 e.1.1 /\ Z.lt e.1.1 (da_rows da)) /\ (Z.le Z0 e.1.2 /\ Z.lt e.1.2 (da_cols da))) (da_entries da).
    rewrite /da /=. elim: RG => [|b l H _ IH] //=. by constructor.
  have SC i j : at_mx (mx m n (da_array 0 +%R of_rel da)) i j = total st data i j.
    rewrite (at_da of_rel RNG) /cell_sum /da /= /Num_spec.total.
    elim: F => [|x0 b l l' [K1 [K2 K3]] _ IH] /=; first by rewrite !big_nil.
    rewrite !big_cons IH /hits K1 K2 K3. by [].
  split=> //.
  - split=> //. split=> //=. move: B1 B2. rewrite /r /m /n /users_of /items_of => B1 B2.
    apply/andP; split; first by apply/ltP; lia. rewrite leq_min. apply/andP; split; apply/leP; lia.
  - move=> NN. rewrite /= /r in NN *. have := NN _ _ _ _ E. rewrite rev_rev => H. by rewrite all_rev.
  - move=> LL RK i j. rewrite -SC. rewrite /score /= -/m -/n. congr at_mx.
    rewrite /score_mx. transitivity (product m r n (u, s, vt)); first by rewrite -PE /product -smx_vec.
    have Hs : size s = r by case: SF.
    have := lossless_at LL E Hd. rewrite /= Hs. apply. apply: rank_low. move: RK. congr (is_true (\rank _ <= r)%N).
    by apply/matrixP => a b; rewrite !mxE -SC at_ord mxE.
Qed.

Variables (qr : mat R -> res (mat R * mat R)) (svd : mat R -> res (mat R * list R * mat R)).
Variables (rsvd : mat R -> nat -> res (mat R * list R * mat R)) (exceeds_eps : R -> bool).
Variables (argsort : list R -> list nat) (normal : nat -> nat -> mat R).
Hypotheses (QR : qr_ok qr) (SV : svd_ok svd) (NN : nonneg_svd svd) (TR : truncated_ok rsvd) (LL : lossless rsvd)
  (AS : argsort_ok (fun x y => x <= y) argsort) (NO : randn_ok normal).
Variable cfg : psi_cfg.
Notation num_update := (num_update (0 : R) 1 +%R *%R (fun x y => x - y) of_rel qr svd rsvd exceeds_eps argsort normal cfg).
Notation num_stream := (num_stream (0 : R) 1 +%R *%R (fun x y => x - y) of_rel qr svd rsvd exceeds_eps argsort normal cfg).

Lemma total_ext st st' (rows : list irow) i j :
  (forall k v, fu st k = Some v -> fu st' k = Some v) -> (forall k v, fi st k = Some v -> fi st' k = Some v) ->
  List.Forall (fun x => fu st (r_user x) <> None /\ fi st (r_item x) <> None) rows -> total st rows i j = total st' rows i j.
Proof.
  move=> XU XI. rewrite /Num_spec.total. elim=> [|x l [H1 H2] _ IH]; first by rewrite !big_nil.
  rewrite !big_cons IH /hits. case E1 : (fu st _) H1 => [a|] // _. case E2 : (fi st _) H2 => [b|] // _.
  by rewrite (XU _ _ E1) (XI _ _ E2).
Qed.

Lemma stream_lossless_main r chunks : forall x, model_ok r x ->
  ortho r (users_of (nm_book x)) (items_of (nm_book x)) (nm_f x) -> nonneg_middle (nm_f x).1.2 ->
  lossless_stream of_rel cfg r num_update x chunks ->
  exists x', [/\ num_stream x chunks = Ok x', model_ok r x',
    (forall k v, fu (nm_book x) k = Some v -> fu (nm_book x') k = Some v),
    (forall k v, fi (nm_book x) k = Some v -> fi (nm_book x') k = Some v)
    & forall i j, score r x' i j = score r x i j + total (nm_book x') (List.concat chunks) i j].
Proof.
  elim: chunks => [|c l IH] x M O N /=.
    move=> _. exists x. split=> // i j. by rewrite /Num_spec.total big_nil addr0.
  move=> [x1 [E LU LS]]. have [M1 O1 N1 H1] := update_lossless_main QR SV NN TR LL AS NO M O N E LU.
  have [x' [E' M' XU XI H']] := IH _ M1 O1 N1 LS. exists x'.
  have := book_main of_rel exceeds_eps QR SV TR AS NO cfg c M. rewrite E => -[PU _ _].
  have [_ [XU1 [XI1 _]]] := update_aligned _ _ _ _ (proj1 M) PU. have KN := update_known _ _ _ _ (proj1 M) PU.
  split=> //.
  - by rewrite /Num_model.num_stream /= E.
  - by move=> k v H; apply: XU; apply: XU1.
  - by move=> k v H; apply: XI; apply: XI1.
  - move=> i j. by rewrite H' H1 (total_ext i j XU XI KN) total_cat addrA.
Qed.

Lemma train_stream_main rank data chunks x : let r := Z.to_nat rank in
  svds_mat_ok svds -> nonneg_svd (fun y => svds y r) -> lossless svds -> num_train rank data = Ok x ->
  (\rank (fmx (users_of (nm_book x)) (items_of (nm_book x)) (total (nm_book x) data)) <= r)%N ->
  lossless_stream of_rel cfg r num_update x chunks ->
  exists x', [/\ num_stream x chunks = Ok x', model_ok r x'
    & forall i j, score r x' i j = total (nm_book x') (data ++ List.concat chunks) i j].
Proof.
  move=> r SO NS LS E RK LST. have [T M O N S] := train_main SO E.
  have [x' [E' M' XU XI H]] := stream_lossless_main M O (N NS) LST. exists x'. split=> // i j.
  rewrite H (S LS RK) total_cat. congr (_ + _). apply: total_ext => //.
  have [_ [_ [_ [KU [KI _]]]]] := Psi_main.train_inv _ _ _ T.
  apply/List.Forall_forall => y Hy. split; [apply/KU|apply/KI]; exact: List.in_map.
Qed.
End Main.
