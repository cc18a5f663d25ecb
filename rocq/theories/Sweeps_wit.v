(** Two rational runs: equally good subspaces, and an inner SVD that is not optimal. *)
From Verif Require Import Prelude Tensor_model Tensor_spec Matrix_model Attention_model LinAlg_model Hooi_model Relerr_model.
Set Warnings "-notation-overridden".
From mathcomp Require Import all_ssreflect all_algebra.
From Verif Require Import LinAlg_spec LinAlg_tables Tucker_spec Hooi_spec Hooi_final Relerr_spec Relerr_main Hooi_wit.
Set Implicit Arguments.
Unset Strict Implicit.
Unset Printing Implicit Defensive.
Import GRing.Theory Order.Theory Num.Theory.
Local Open Scope ring_scope.

Definition s_inds : list cell := [:: (0, 0, 0); (1, 1, 1)]%N.
Definition s_ties : list rat := [:: hx 1; hx 1].
Definition s_vals : list rat := [:: hx 2; hx 1].
Definition eye22 : mat rat := mkMat 2 2 [:: hx 1; hx 0; hx 0; hx 1].
Definition s_rand (mode n r : nat) : mat rat := build n r (fun i j => if i == j then hx 1 else hx 0).
Definition s_qr_table : list (mat rat * (mat rat * mat rat)) := [:: (col (hx 1) (hx 0), (col (hx 1) (hx 0), one11)); (eye22, (eye22, eye22))].
Definition s_qr : mat rat -> res (mat rat * mat rat) := lookup s_qr_table.

(** The unfoldings of the data along the first mode, before and after the first sweep. *)
Definition s_first : mat rat := mkMat 2 4 [:: hx 1; hx 0; hx 0; hx 0; hx 0; hx 0; hx 0; hx 1].
Definition s_second : mat rat := mkMat 2 4 [:: hx 0; hx 0; hx 0; hx 1; hx 1; hx 0; hx 0; hx 0].

(** The inner SVD: [c t] at call [t] for the first mode if [ok] accepts the matrix, unit
    vectors for the others. *)
Definition s_rsvd (ok : mat rat -> bool) (c : nat -> mat rat) (t : nat) (x : mat rat) (r : nat) : res (mat rat * list rat * mat rat) :=
  if [&& r == 2%N, mr x == 2%N & mc x == 2%N] then Ok (eye22, [::], eye22)
  else if [&& r == 1%N, mr x == 2%N, mc x == 4%N & ok x] then Ok (c t, [::], mkMat 1 4 [::])
  else Err LinAlgError.
Definition tie_col (t : nat) : mat rat := if t == 0%N then col (frac 3 5) (frac 4 5) else col (hx 1) (hx 0).
Definition tie_ok (x : mat rat) : bool := same x s_first || same x s_second.
Definition tie_rsvd := s_rsvd tie_ok tie_col.
Definition bad_col (t : nat) : mat rat := if t == 0%N then col (hx 1) (hx 0) else col (hx 0) (hx 1).
Definition bad_rsvd := s_rsvd (fun _ => true) bad_col.

Lemma s_qr_ok : qr_ok s_qr.
Proof. apply: qr_table_ok. by vm_compute. Qed.
Lemma s_rand_ok mode : randn_ok (s_rand mode).
Proof. by []. Qed.
Lemma s_range : List.Forall (in_range (2, 2, 2)%N) s_inds.
Proof. rewrite /s_inds. by repeat (apply: List.Forall_cons; first by split; [|split]; apply/ssrnat.ltP). Qed.
Lemma s_args vals : length vals = 2%N -> hooi_args 2 1 2 2 2 2 s_inds (vals : list rat).
Proof. move=> E. split=> //; split=> //; split=> //. exact: s_range. Qed.
Lemma s_nodup : List.NoDup s_inds.
Proof. rewrite /s_inds. repeat (apply: List.NoDup_cons; first (rewrite /=; intuition discriminate)). exact: List.NoDup_nil. Qed.

Lemma s_eye : (mx 2 2 eye22)^T *m mx 2 2 eye22 = 1%:M.
Proof.
  apply: mx_eqP => i j. rewrite !mxE !big_ord_recl big_ord0 !mxE /=.
  by case: i => -[|[|]] //= ?; case: j => -[|[|]] //= ?; vm_compute.
Qed.

Lemma s_inner ok c : (forall t, shape 2 1 (c t) /\ (mx 2 1 (c t))^T *m mx 2 1 (c t) = 1%:M) -> inner_ok (s_rsvd ok c).
Proof.
  move=> H t x r u s vt. rewrite /s_rsvd. case: ifP => [/and3P [/eqP -> /eqP E1 /eqP E2] [<- _ _]|_].
    rewrite /= E1 E2. split=> //. exact: s_eye.
  case: ifP => // /and4P [/eqP -> /eqP E1 /eqP E2 _] [<- _ _]. rewrite /= E1 E2. exact: H.
Qed.

Lemma tie_unit t : shape 2 1 (tie_col t) /\ (mx 2 1 (tie_col t))^T *m mx 2 1 (tie_col t) = 1%:M.
Proof.
  rewrite /tie_col. case: ifP => _; (split; first by []); apply: mx_eqP => i j;
    rewrite !ord1 mxE !big_ord_recl big_ord0 !mxE /=; by vm_compute.
Qed.
Lemma bad_unit t : shape 2 1 (bad_col t) /\ (mx 2 1 (bad_col t))^T *m mx 2 1 (bad_col t) = 1%:M.
Proof.
  rewrite /bad_col. case: ifP => _; (split; first by []); apply: mx_eqP => i j;
    rewrite !ord1 mxE !big_ord_recl big_ord0 !mxE /=; by vm_compute.
Qed.

Lemma tie_square x : mr x = 2%N -> mc x = 4%N -> tie_ok x -> mx 2 4 x *m (mx 2 4 x)^T = 1%:M.
Proof.
  move=> _ _ /orP [] /(@same_mx _ _ 2 4) H; (have [_ ->] := H (conj erefl erefl)); apply: mx_eqP => i j;
    rewrite !mxE !big_ord_recl big_ord0 !mxE /=; by case: i => -[|[|]] //= ?; case: j => -[|[|]] //= ?; vm_compute.
Qed.

Lemma tie_optimal : optimal tie_rsvd.
Proof.
  move=> t x r u s vt. rewrite /tie_rsvd /s_rsvd. case: ifP => [/and3P [/eqP -> /eqP E1 /eqP E2] [<- _ _]|_].
    rewrite /= E1 E2 => V OV. have VV : V *m V^T = 1%:M := mulmx1C OV. have WW : mx 2 2 eye22 *m (mx 2 2 eye22)^T = 1%:M := mulmx1C s_eye.
    rewrite [X in X <= _]mxtrace_mulC [X in _ <= X]mxtrace_mulC !trmx_mul !trmxK.
    rewrite -[X in \tr X <= _]mulmxA [X in \tr (_ *m X) <= _]mulmxA VV mul1mx.
    rewrite -[X in _ <= \tr X]mulmxA [X in _ <= \tr (_ *m X)]mulmxA WW mul1mx. exact: lexx.
  case: ifP => // /and4P [/eqP -> /eqP E1 /eqP E2 OK] [<- _ _]. rewrite /= E1 E2 => V OV.
  have [_ OU] := tie_unit t. have SQ := tie_square E1 E2 OK.
  change (V^T *m V = 1%:M) in OV.
  have T (W : 'M[rat]_(2, 1)) : W^T *m W = 1%:M -> \tr ((W^T *m mx 2 4 x) *m (W^T *m mx 2 4 x)^T) = \tr (1%:M : 'M[rat]_1).
    move=> OW. by rewrite trmx_mul trmxK mulmxA -(mulmxA W^T) SQ mulmx1 OW.
  rewrite (T V OV) (T _ OU). exact: lexx.
Qed.

Notation s_rp rsvd vals n := (rp_hooi (0 : rat) +%R *%R s_qr s_rand rsvd h_norm 0 h_grew s_inds vals (2, 2, 2)%N (1, 2, 2)%N n).
Definition listed (fs : @factors rat) (g : ten rat) : rat :=
  (hx 1 - rep (factor fs 0) (factor fs 1) (factor fs 2) g (0, 0, 0)%N) ^+ 2
  + (hx 1 - rep (factor fs 0) (factor fs 1) (factor fs 2) g (1, 1, 1)%N) ^+ 2.
Definition four (g : ten rat) : rat :=
  tget 0 g (0, 0, 0)%N ^+ 2 + tget 0 g (0, 0, 1)%N ^+ 2 + (tget 0 g (0, 1, 0)%N ^+ 2 + tget 0 g (0, 1, 1)%N ^+ 2).
Definition seen (f : @factors rat -> ten rat -> rat) (q : rat) (r : res (@factors rat * option (ten rat))) : bool :=
  match r with Ok (fs, Some g) => f fs g == q | _ => false end.

Lemma tie_runs : seen listed (frac 337 625) (s_rp tie_rsvd s_ties 1%N) && seen listed (hx 1) (s_rp tie_rsvd s_ties 2%N).
Proof. by vm_compute. Qed.
Lemma bad_runs : seen (fun _ => four) (hx 4) (s_rp bad_rsvd s_vals 1%N) && seen (fun _ => four) (hx 1) (s_rp bad_rsvd s_vals 2%N).
Proof. by vm_compute. Qed.

Lemma seen_ok f q r : seen f q r -> exists fs g, r = Ok (fs, Some g) /\ f fs g = q.
Proof. case: r => [[fs [g|]]|] //= /eqP <-. by exists fs, g. Qed.

Lemma listed_main : exists (qr : mat rat -> res (mat rat * mat rat)) rand rsvd inds vals,
  [/\ qr_ok qr /\ forall m, randn_ok (rand m), inner_ok rsvd /\ optimal rsvd,
      hooi_args 2 1 2 2 2 2 inds vals /\ List.NoDup inds
    & forall (sqrt : rat -> rat) eps, root_ok sqrt -> 0 < eps ->
      let rp n := rp_hooi (0 : rat) +%R *%R qr rand rsvd h_norm 0 h_grew inds vals (2, 2, 2)%N (1, 2, 2)%N n in
      exists fs g e fs' g' e',
      [/\ rp 1%N = Ok (fs, Some g), rp 2%N = Ok (fs', Some g'),
          tensor_error sqrt eps inds vals (factor fs 0) (factor fs 1) (factor fs 2) g = Ok e,
          tensor_error sqrt eps inds vals (factor fs' 0) (factor fs' 1) (factor fs' 2) g' = Ok e'
        & e < e']].
Proof.
  exists s_qr, s_rand, tie_rsvd, s_inds, s_ties.
  have ARGS : hooi_args 2 1 2 2 2 2 s_inds s_ties by apply: s_args.
  have INNER : inner_ok tie_rsvd := s_inner (ok := tie_ok) tie_unit.
  split; first by split; [exact: s_qr_ok|exact: s_rand_ok].
  - split; [exact: INNER|exact: tie_optimal].
  - split; [exact: ARGS|exact: s_nodup].
  - move=> sqrt eps ROOT EPS rp. have [/seen_ok [fs [g [E1 L1]]] /seen_ok [fs' [g' [E2 L2]]]] := andP tie_runs.
    have [ga [e [[Ega] Te _ _ _]]] := rp_error_main ROOT EPS s_qr_ok s_rand_ok INNER ARGS s_nodup E1 isT.
    have [gb [e' [[Egb] Te' _ _ _]]] := rp_error_main ROOT EPS s_qr_ok s_rand_ok INNER ARGS s_nodup E2 isT.
    subst ga gb. exists fs, g, e, fs', g', e'. split; [exact: E1|exact: E2|exact: Te|exact: Te'|].
    have [_ /(_ _ Te) [-> _ _]] := error_main ROOT EPS s_inds s_ties (factor fs 0) (factor fs 1) (factor fs 2) g.
    have [_ /(_ _ Te') [-> _ _]] := error_main ROOT EPS s_inds s_ties (factor fs' 0) (factor fs' 1) (factor fs' 2) g'.
    have L f h : \sum_(x <- List.combine s_inds s_ties) (x.2 - rep (factor f 0) (factor f 1) (factor f 2) h x.1) ^+ 2 = listed f h.
      rewrite /s_inds /s_ties. cbn [List.combine]. rewrite !big_cons big_nil addr0. reflexivity.
    rewrite !L L1 L2. rewrite ltr_pmul2r.
      case: ROOT => _; apply; by vm_compute.
    rewrite invr_gt0. apply: (den_gt0 ROOT EPS). exact: squares_ge0.
Qed.

Lemma worse_main : exists (qr : mat rat -> res (mat rat * mat rat)) rand rsvd inds vals,
  [/\ qr_ok qr /\ forall m, randn_ok (rand m), inner_ok rsvd,
      hooi_args 2 1 2 2 2 2 inds vals /\ List.NoDup inds
    & let rp n := rp_hooi (0 : rat) +%R *%R qr rand rsvd h_norm 0 h_grew inds vals (2, 2, 2)%N (1, 2, 2)%N n in
      let residual fs g := sumsq 2 2 2 (fun c => dense (List.combine inds vals) c - rep (factor fs 0) (factor fs 1) (factor fs 2) g c) in
      exists fs g fs' g',
      [/\ rp 1%N = Ok (fs, Some g), rp 2%N = Ok (fs', Some g'), sumsq 1 2 2 (tget 0 g') < sumsq 1 2 2 (tget 0 g)
        & residual fs g < residual fs' g']].
Proof.
  exists s_qr, s_rand, bad_rsvd, s_inds, s_vals.
  have ARGS : hooi_args 2 1 2 2 2 2 s_inds s_vals by apply: s_args.
  have INNER : inner_ok bad_rsvd := s_inner (ok := fun _ => true) bad_unit.
  split; first by split; [exact: s_qr_ok|exact: s_rand_ok].
  - exact: INNER.
  - split; [exact: ARGS|exact: s_nodup].
  - move=> rp residual. have [/seen_ok [fs [g [E1 L1]]] /seen_ok [fs' [g' [E2 L2]]]] := andP bad_runs.
    exists fs, g, fs', g'.
    have L h : sumsq 1 2 2 (tget 0 h) = four h.
      rewrite /sumsq !big_ord_recl !big_ord0 !addr0. reflexivity.
    have LT : sumsq 1 2 2 (tget 0 g') < sumsq 1 2 2 (tget 0 g) by rewrite !L L1 L2; vm_compute.
    split; [exact: E1|exact: E2|exact: LT|].
    have [g1 [Eg1] [_ _ _ PY]] := rp_projects_main s_qr_ok s_rand_ok INNER ARGS E1 isT.
    have [g2 [Eg2] [_ _ _ PY']] := rp_projects_main s_qr_ok s_rand_ok INNER ARGS E2 isT.
    subst g1 g2. rewrite -/(residual fs g) in PY. rewrite -/(residual fs' g') PY in PY'.
    rewrite -(ltr_add2l (sumsq 1 2 2 (tget 0 g))) PY' ltr_add2r. exact: LT.
Qed.
