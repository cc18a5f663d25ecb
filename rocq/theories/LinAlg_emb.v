(** Proofs for the matrix half of C42: embeddings of new users and items in PSI. *)
From Verif Require Import Prelude Tensor_model Matrix_model Attention_model LinAlg_model.
Set Warnings "-notation-overridden".
From mathcomp Require Import all_ssreflect all_algebra.
From Verif Require Import LinAlg_spec LinAlg_bridge LinAlg_psi LinAlg_vectors.
Set Implicit Arguments.
Unset Strict Implicit.
Unset Printing Implicit Defensive.
Import GRing.Theory.
Local Open Scope ring_scope.

Section Emb.
Variable R : comRingType.
Variables (qr : mat R -> res (mat R * mat R)) (normal : nat -> nat -> mat R).
Hypotheses (QR : qr_ok qr) (NRM : randn_ok normal).
Notation add_zero := (psi_add_zero (0 : R)).
Notation add_random := (psi_add_random (0 : R) +%R *%R qr normal).

Lemma mx_below m n k (c : mat R) (f g : nat -> nat -> R) :
  (forall i j, (i < m + n)%N -> (j < k)%N -> mget 0 c i j = if (i < m)%N then f i j else g (i - m)%N j) ->
  mx (m + n) k c = col_mx (\matrix_(i, j) f i j) (\matrix_(i, j) g i j).
Proof.
  move=> H; apply/matrixP => i j; rewrite !mxE H //. by case: (splitP i) => i' Ei; rewrite mxE Ei ?addKn.
Qed.

Lemma below_ok m n k (f c : mat R) : shape m k f -> shape (m + n) k c ->
  exists2 d, set_block 0 c 0 m 0 k f = Ok d & shape (m + n) k d /\
    mx (m + n) k d = col_mx (mx m k f) (dsubmx (mx (m + n) k c)).
Proof.
  move=> Hf Hc. have [d -> [Hd Cd]] := set_block_ok c 0 0 Hf. exists d => //. split; first by case: Hc Hd => -> ->.
  rewrite (@mx_below m n k d (mget 0 f) (fun i j => mget 0 c (m + i) j)).
    by congr col_mx; apply/matrixP => i j; rewrite !mxE.
  move=> i j Hi Hj. case: Hc Cd => -> -> Cd. rewrite Cd //= !add0n !subn0 Hj andbT. by case: (ltnP i m) => // H; rewrite subnKC.
Qed.

Lemma add_zero_main mode m r l n c u s vt : shape m r u -> sshape r l s -> shape l n vt ->
  exists u2 v2t, add_zero mode c u s vt = Ok (u2, s, v2t) /\
  match mode with
  | EUsers => [/\ shape (m + c) r u2, v2t = vt
                & mx (m + c) r u2 *m smx r l s *m mx l n v2t = col_mx (mx m r u *m smx r l s *m mx l n vt) 0]
  | EItems => [/\ u2 = u, shape l (n + c) v2t
                & mx m r u2 *m smx r l s *m mx l (n + c) v2t = row_mx (mx m r u *m smx r l s *m mx l n vt) 0]
  end.
Proof.
  move=> Hu Hs Hv; case: mode; rewrite /= /zero_rows plusE.
  - case: (Hu) => -> ->. have [Hz Ez] := zeros_ok R (m + c) r.
    have [d -> [Hd Ed]] := below_ok Hu Hz. exists d, vt; split => //; split => //.
    rewrite Ed Ez !mul_col_mx. congr col_mx. by rewrite linear0 !mul0mx.
  - have [Ht Et] := transpose_ok Hv. case: (Ht) => -> ->. have [Hz Ez] := zeros_ok R (n + c) l.
    have [d -> [Hd Ed]] := below_ok Ht Hz. have [Hdt Edt] := transpose_ok Hd.
    exists u, (transpose 0 d); split => //; split => //.
    rewrite Edt Ed Ez Et tr_col_mx trmxK mul_mx_row. by rewrite !linear0 ?mulmx0.
Qed.

Lemma random_rows_main m r c f : shape m r f ->
  match random_rows (0 : R) qr normal f c with
  | Err e => exists x, qr x = Err e
  | Ok (t, rr) =>
    let k := minn (m + c) r in
    [/\ shape (m + c) k t, shape k r rr, (mx (m + c) k t)^T *m mx (m + c) k t = 1%:M
      & mx (m + c) k t *m mx k r rr = col_mx (mx m r f) (dsubmx (mx (m + c) r (normal (m + c) r)))]
  end.
Proof.
  move=> Hf; rewrite /random_rows plusE. case: (Hf) => -> ->.
  have [d -> [Hd Ed]] := below_ok Hf (NRM (m + c)%N r). rewrite /=.
  case E : (qr d) => [[t rr]|e]; last by exists d.
  by move: (QR E); case: (Hd) => -> -> /= [H1 H2 H3 H4]; split => //; rewrite H3.
Qed.

Lemma add_random_users_main m r l n c u s vt : shape m r u -> sshape r l s -> shape l n vt ->
  match add_random EUsers c u s vt with
  | Err e => exists x, qr x = Err e
  | Ok (u2, s2, v2t) =>
    let k := minn (m + c) r in
    [/\ shape (m + c) k u2, sshape k l s2, v2t = vt, (mx (m + c) k u2)^T *m mx (m + c) k u2 = 1%:M
      & mx (m + c) k u2 *m smx k l s2 *m mx l n v2t
        = col_mx (mx m r u *m smx r l s *m mx l n vt)
                 (dsubmx (mx (m + c) r (normal (m + c) r)) *m smx r l s *m mx l n vt)]
  end.
Proof.
  move=> Hu Hs Hv; rewrite /=. have := random_rows_main c Hu.
  case: (random_rows _ _ _ _ _) => [[t rr]|e] //= [Ht Hr O P].
  have [Hs' Es'] := as_matrix_ok Hs. have [s2 -> [Hs2 Es2]] := dot_ok Hr Hs'.
  split => //. by rewrite /= Es2 Es' mulmxA P !mul_col_mx.
Qed.

Lemma add_random_items_main m r n c u s vt : shape m r u -> sshape r r s -> shape r n vt ->
  match add_random EItems c u s vt with
  | Err e => (exists x, qr x = Err e) \/ (n + c < r)%N
  | Ok (u2, s2, v2t) =>
    let k := minn (n + c) r in
    let E := dsubmx (mx (n + c) r (normal (n + c) r)) in
    exists rr : 'M[R]_(k, r),
    [/\ u2 = u, sshape k r s2, shape k (n + c) v2t,
        (mx k (n + c) v2t)^T *m rr = col_mx (mx r n vt)^T E
      & smx k r s2 = rr *m smx r r s]
  end.
Proof.
  move=> Hu Hs Hv; rewrite /=. have [Hvt Evt] := transpose_ok Hv. have := random_rows_main c Hvt.
  case: (random_rows _ _ _ _ _) => [[t rr]|e] /=; last by left. move=> [Ht Hr O P].
  have [Hs' Es'] := as_matrix_ok Hs. have [s2 -> [Hs2 Es2]] := dot_ok Hr Hs'.
  have [Htt Ett] := transpose_ok Ht. exists (mx (minn (n + c) r) r rr); split => //.
  - by rewrite Ett trmxK P Evt.
  - by rewrite /= Es2 Es'.
Qed.

(** With at least as many rows as the rank: the reconstruction uses [r S] where [S r^T]
    would keep the known scores. *)
Lemma add_random_items_error_main m r n c u s vt u2 s2 v2t : shape m r u -> sshape r r s -> shape r n vt ->
  (r <= n + c)%N ->
  add_random EItems c u s vt = Ok (u2, s2, v2t) ->
  let A := mx m r u *m smx r r s *m mx r n vt in
  let E := dsubmx (mx (n + c) r (normal (n + c) r)) in
  exists rr : 'M[R]_r,
  [/\ u2 = u, sshape r r s2, shape r (n + c) v2t,
      mx m r u *m (smx r r s *m rr^T) *m mx r (n + c) v2t = row_mx A (mx m r u *m smx r r s *m E^T)
    & mx m r u2 *m smx r r s2 *m mx r (n + c) v2t
      = row_mx A (mx m r u *m smx r r s *m E^T) + mx m r u *m (rr *m smx r r s - smx r r s *m rr^T) *m mx r (n + c) v2t].
Proof.
  move=> Hu Hs Hv Hle E0 A E. have := add_random_items_main c Hu Hs Hv. rewrite E0 /= -/E.
  rewrite (minn_idPr Hle) => -[rr [-> Hs2 Hv2 P ES]]. exists rr.
  have Q : mx m r u *m (smx r r s *m rr^T) *m mx r (n + c) v2t = row_mx A (mx m r u *m smx r r s *m E^T).
    by rewrite -!mulmxA -[mx r (n + c) v2t]trmxK -trmx_mul P tr_col_mx trmxK !mul_mx_row /A !mulmxA.
  split => //. by rewrite -Q ES mulmxBr mulmxBl addrC subrK.
Qed.
End Emb.
