(** One call of [_updater]: shapes and errors of the numerical model. *)
From Coq Require Import ZArith Lia.
From Verif Require Import Prelude DataPrep_model DataPrep_spec Psi_model Psi_spec Tensor_model Matrix_model Attention_model LinAlg_model Num_model Num_sim.
Set Warnings "-notation-overridden".
From mathcomp Require Import all_ssreflect all_algebra.
From Verif Require Import LinAlg_spec LinAlg_bridge LinAlg_psi LinAlg_vectors LinAlg_block LinAlg_emb Upd_spec Exact_spec Exact_final Num_spec.
Set Implicit Arguments.
Unset Strict Implicit.
Unset Printing Implicit Defensive.
Import GRing.Theory.
Local Open Scope ring_scope.

Local Arguments psi_add_zero : simpl never.
Local Arguments psi_add_random : simpl never.

Section Upd.
Variable R : comRingType.
Variable of_rel : Z -> R.
Variables (qr : mat R -> res (mat R * mat R)) (svd : mat R -> res (mat R * list R * mat R)).
Variables (rsvd : mat R -> nat -> res (mat R * list R * mat R)) (exceeds_eps : R -> bool).
Variables (argsort : list R -> list nat) (normal : nat -> nat -> mat R) (le : R -> R -> bool).
Hypotheses (QR : qr_ok qr) (SV : svd_ok svd) (TR : truncated_ok rsvd) (AS : argsort_ok le argsort) (NO : randn_ok normal).
Variable cfg : psi_cfg.
Notation num_updater := (num_updater (0 : R) 1 +%R *%R (fun x y => x - y) qr svd rsvd exceeds_eps argsort normal cfg).
Notation da_array := (da_array (0 : R) +%R of_rel).

Definition Orc r (e : exn) : Prop := routine_raises qr svd rsvd r e.

Lemma min_le r m c : (r <= m)%N -> minn (m + c) r = r.
Proof. by move=> H; apply/minn_idPr; exact: leq_trans H (leq_addr _ _). Qed.

(** Incremental SVD: shapes. *)
Lemma vectors_shape m r q c u s vt nv : shape m r u -> sshape r r s -> shape r q vt -> shape m c nv ->
  (0 < r <= m)%N ->
  match update_svd_new_vectors 0 1 +%R *%R (fun x y => x - y) qr rsvd exceeds_eps u s vt nv with
  | Ok (u2, s2, v2t) => (c <= m)%N /\ [/\ shape m r u2, size s2 = r & shape r (q + c) v2t]
  | Err e => Orc r e \/ (m < c)%N /\ e = ValueError
  end.
Proof.
  move=> Hu Hs Hv Hn /andP [R0 Rm]. have RS := truncated_rsvd_ok TR.
  case: (leqP c m) => Hc; last first.
    have [e -> [He|[[x He]|[x He]]]] := update_too_many_main exceeds_eps QR RS Hu Hs Hv Hn Hc.
    - by right.
    - by left; left; exists x.
    - by left; right; right; exists x.
  have := update_main exceeds_eps QR RS Hu Hs Hv Hn Hc (ltn_addr c R0).
  case: (update_svd_new_vectors _ _ _ _ _ _ _ _ _ _ _ _) => [[[u2 s2] v2t]|e]; last first.
    by case=> -[x He]; left; [left|right; right]; exists x.
  move=> [p [dq [u1 [vt1 [L [W [l [[E Hdq Hp] _ [H1 H2 H3 _ _] _ _]]]]]]]]. split=> //.
  have [_ H4 _ _ _] := TR E. rewrite (proj1 Hdq) (proj2 Hdq) /= H2 in H4.
  have El : l = r.
    rewrite H4. apply/minn_idPl. rewrite leq_min leq_addr andbT. case/andP: Hp => Hp _.
    apply: leq_trans Hp. by rewrite leq_min Rm leq_addr.
  by rewrite El in H1 H2 H3.
Qed.

(** Block: shapes. *)
Lemma block_shape m r n a b u s vt nm : shape m r u -> sshape r r s -> shape r n vt -> shape a b nm ->
  match update_svd_new_submatrix 0 +%R *%R svd rsvd argsort u s vt nm with
  | Ok (u2, s2, v2t) => [/\ shape (m + a) r u2, size s2 = r & shape r (n + b) v2t]
  | Err e => Orc r e
  end.
Proof.
  move=> Hu; case: s => [s|s] Hs Hv Hn.
  - have := update_vec_main rsvd SV AS Hu (proj1 Hs) Hv Hn.
    case: (update_svd_new_submatrix _ _ _ _ _ _ _ _ _ _) => [[[u2 s2] v2t]|e].
      by move=> [u1 [s1 [v1t [_ [idx [rest [H _ _ _ _]]]]]]].
    by move=> H; right; left; exists nm.
  - have := update_mat_main argsort SV (truncated_rsvd_ok TR) Hu Hs Hv Hn.
    case: (update_svd_new_submatrix _ _ _ _ _ _ _ _ _ _) => [[[u2 s2] v2t]|e].
      move=> [d [u1 [v1t [L [W [c [[E [Hd1 Hd2]] [H1 H2 H3] _ _ _]]]]]]].
      have [_ H4 _ _ _] := TR E. rewrite Hd1 Hd2 /= H2 minnn in H4.
      have Ec : c = r by rewrite H4; apply/minn_idPl; exact: leq_addr.
      by rewrite Ec in H1 H2 H3.
    by case=> [H|[x H]]; right; [left; exists nm|right; exists x].
Qed.

Lemma da_shape da : shape (Z.to_nat (da_rows da)) (Z.to_nat (da_cols da)) (da_array da).
Proof. by []. Qed.

Lemma add_of_nat m (c : Z) : Z.le Z0 c -> Z.add (Z.of_nat m) c = Z.of_nat (m + Z.to_nat c)%N.
Proof. move=> H. rewrite -plusE. lia. Qed.

Lemma upd_main r m n md da f : factors_ok r m n f -> dims md da (Z.of_nat m) (Z.of_nat n) ->
  match num_updater md (da_array da) f with
  | Ok f' => exists m' n', updater cfg md da (Z.of_nat m) (Z.of_nat n) = Ok (Z.of_nat m', Z.of_nat n') /\ factors_ok r m' n' f'
  | Err e => Orc r e \/ updater cfg md da (Z.of_nat m) (Z.of_nat n) = Err e
  end.
Proof.
  case: f => [[u s] vt] [/= Hu Hs Hv /andP [R0]]; rewrite leq_min => /andP [Rm Rn] [D [Dr [Dc _]]].
  have Hd := da_shape da. have [Hut _] := transpose_ok Hu. have [Hvt _] := transpose_ok Hv.
  set c := Z.to_nat (da_cols da) in Hd. set d := Z.to_nat (da_rows da) in Hd.
  case: md D => D.
  - rewrite /= !add_of_nat //. rewrite -/c -/d. case: (cf_integrator cfg) => /=.
    + have [u2 [v2 [-> [H1 H2 _]]]] := add_zero_main EUsers d Hu Hs Hv. subst v2. rewrite /=.
      have [u3 [v3 [-> [H3 H4 _]]]] := add_zero_main EItems c H1 Hs Hv. subst u3.
      exists (m + d)%N, (n + c)%N. split=> //. split=> //=. by rewrite R0 leq_min !(leq_trans _ (leq_addr _ _)).
    + have := block_shape Hu Hs Hv Hd. case: (update_svd_new_submatrix _ _ _ _ _ _ _ _ _ _) => [[[u2 s2] v2]|e] /=; last by left.
      move=> [H1 H2 H3]. exists (m + d)%N, (n + c)%N. split=> //. split=> //=.
      by rewrite R0 leq_min !(leq_trans _ (leq_addr _ _)).
  - rewrite /= add_of_nat // -/c. have Ed : d = n by rewrite /d D Nat2Z.id.
    case: (cf_init cfg) => /=.
    + have := @vectors_shape n r m c (transpose 0 vt) s (transpose 0 u) (da_array da) Hvt Hs Hut.
      rewrite Ed in Hd. move=> /(_ Hd). rewrite R0 Rn => /(_ isT).
      case: (update_svd_new_vectors _ _ _ _ _ _ _ _ _ _ _ _) => [[[u2 s2] v2]|e] /=.
        move=> [Hc [H1 H2 H3]]. have [H1t _] := transpose_ok H1. have [H3t _] := transpose_ok H3.
        exists (m + c)%N, n. split; last by split=> //=; rewrite R0 leq_min Rn (leq_trans Rm (leq_addr _ _)).
        rewrite /brand_fits D. case: Z.leb_spec => //. move/leP: Hc. rewrite /c. lia.
      case=> [H|[Hc ->]]; first by left. right. rewrite /brand_fits D. case: Z.leb_spec => //. move/ltP: Hc. rewrite /c. lia.
    + have [u2 [v2 [-> [H1 H2 _]]]] := add_zero_main EUsers c Hu Hs Hv. subst v2.
      exists (m + c)%N, n. split=> //. by split=> //=; rewrite R0 leq_min Rn (leq_trans Rm (leq_addr _ _)).
    + have := add_random_users_main QR NO c Hu Hs Hv.
      rewrite /psi_add_random. case: (random_rows _ _ _ _ _) => [[t rr]|e] /=; last by move=> H; left; left.
      case: (dot _ _ _ _ _) => [s2|e] /=; last by move=> H; left; left.
      rewrite (min_le _ Rm) => -[H1 H2 _ _ _]. exists (m + c)%N, n. split=> //.
      by split=> //=; rewrite R0 leq_min Rn (leq_trans Rm (leq_addr _ _)).
  - rewrite /= add_of_nat // -/c. have Ed : d = m by rewrite /d D Nat2Z.id. rewrite Ed in Hd.
    case: (cf_init cfg) => /=.
    + have := vectors_shape Hu Hs Hv Hd. rewrite R0 Rm => /(_ isT).
      case: (update_svd_new_vectors _ _ _ _ _ _ _ _ _ _ _ _) => [[[u2 s2] v2]|e] /=.
        move=> [Hc [H1 H2 H3]].
        exists m, (n + c)%N. split; last by split=> //=; rewrite R0 leq_min Rm (leq_trans Rn (leq_addr _ _)).
        rewrite /brand_fits D. case: Z.leb_spec => //. move/leP: Hc. rewrite /c. lia.
      case=> [H|[Hc ->]]; first by left. right. rewrite /brand_fits D. case: Z.leb_spec => //. move/ltP: Hc. rewrite /c. lia.
    + have [u2 [v2 [-> [H1 H2 _]]]] := add_zero_main EItems c Hu Hs Hv. subst u2.
      exists m, (n + c)%N. split=> //. by split=> //=; rewrite R0 leq_min Rm (leq_trans Rn (leq_addr _ _)).
    + have := add_random_items_main QR NO c Hu Hs Hv.
      case: (psi_add_random _ _ _ _ _ _ _ _ _ _) => [[[u2 s2] v2]|e] /=.
        rewrite (min_le _ Rn) => -[rr [-> H1 H2 _ _]]. exists m, (n + c)%N. split=> //.
        by split=> //=; rewrite R0 leq_min Rm (leq_trans Rn (leq_addr _ _)).
      case=> [H|H]; first by left; left. by move: (leq_trans H Rn); rewrite ltnNge leq_addr.
  - case: D => D1 D2. have Ed : d = m by rewrite /d D1 Nat2Z.id. have Ec : c = n by rewrite /c D2 Nat2Z.id.
    rewrite Ed Ec in Hd. have := psi_step_main QR Hu Hs Hv Hd. rewrite /=.
    case: (psi_step _ _ _ _ _ _ _ _ _) => [[[u2 s2] v2]|e] /=; last by move=> H; left; left.
    rewrite (minn_idPr Rm) (minn_idPr Rn) => -[H1 H2 H3 _ _]. exists m, n. split=> //.
    by split=> //=; rewrite R0 leq_min Rm.
Qed.
End Upd.
