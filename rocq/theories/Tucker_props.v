(** Property theorems for source/tucker_integrator.py (tucker_intergrator) and for the
    embedding initialisation of source/models/tirec_accelerated.py: C42, C43, C55. *)
From Verif Require Import Prelude Tensor_model Tensor_spec Matrix_model Attention_model LinAlg_model.
Set Warnings "-notation-overridden".
From mathcomp Require Import all_ssreflect all_algebra.
From Verif Require Import LinAlg_spec LinAlg_tables Tucker_model Tucker_spec.
From Verif Require Tucker_integ Tucker_emb Tucker_wit.
Set Implicit Arguments.
Unset Strict Implicit.
Unset Printing Implicit Defensive.
Import GRing.Theory.
Local Open Scope ring_scope.

(** C42.  Zero embeddings for new users or items in TIRecA: known cells keep their value,
    new cells are zero. *)
Theorem tucker_zero_embeddings_keep_scores :
  forall (R : comRingType) n0 r0 n1 r1 n2 r2 c (u v w : mat R) core,
  shape n0 r0 u -> shape n1 r1 v -> shape n2 r2 w ->
  forall mode,
  exists u2 v2, tucker_add_zero (0 : R) mode c u v = Ok (u2, v2) /\
  match mode with
  | EUsers => [/\ shape (n0 + c) r0 u2, v2 = v
      & forall i j k, (i < n0 + c)%N ->
          rep u2 v w core (i, j, k) = if (i < n0)%N then rep u v w core (i, j, k) else 0]
  | EItems => [/\ u2 = u, shape (n1 + c) r1 v2
      & forall i j k, (j < n1 + c)%N ->
          rep u v2 w core (i, j, k) = if (j < n1)%N then rep u v w core (i, j, k) else 0]
  end.
Proof. exact: Tucker_emb.tucker_zero_main. Qed.
Print Assumptions tucker_zero_embeddings_keep_scores.

(** C42.  Random embeddings in TIRecA: known cells keep their value for new users and for
    new items; the cells of a new row are those of its random vector; the extended factor
    has orthonormal columns. *)
Theorem tucker_random_embeddings_keep_scores :
  forall (R : comRingType) (qr : mat R -> res (mat R * mat R)) normal,
  qr_ok qr -> randn_ok normal ->
  forall n0 r0 n1 r1 n2 r2 c (u v w : mat R) core,
  shape n0 r0 u -> shape n1 r1 v -> shape n2 r2 w ->
  twf core -> tshape core = (r0, r1, r2) ->
  forall mode, (r0 <= n0)%N -> (r1 <= n1)%N ->
  match tucker_add_random 0 +%R *%R qr normal mode c u v core with
  | Err e => exists x, qr x = Err e
  | Ok (u2, v2, core2) =>
    [/\ twf core2, tshape core2 = (r0, r1, r2) &
    match mode with
    | EUsers => [/\ shape (n0 + c) r0 u2, v2 = v, orthonormal (n0 + c) r0 u2
        & forall i j k, (i < n0 + c)%N -> (j < n1)%N -> (k < n2)%N ->
            rep u2 v w core2 (i, j, k)
            = if (i < n0)%N then rep u v w core (i, j, k) else rep (normal (n0 + c)%N r0) v w core (i, j, k)]
    | EItems => [/\ u2 = u, shape (n1 + c) r1 v2, orthonormal (n1 + c) r1 v2
        & forall i j k, (i < n0)%N -> (j < n1 + c)%N -> (k < n2)%N ->
            rep u v2 w core2 (i, j, k)
            = if (j < n1)%N then rep u v w core (i, j, k) else rep u (normal (n1 + c)%N r1) w core (i, j, k)]
    end]
  end.
Proof. exact: Tucker_emb.tucker_random_main. Qed.
Print Assumptions tucker_random_embeddings_keep_scores.

(** C43.  The integrator, step by step: on well-formed arguments it returns unless QR
    raises; attention enters the first contraction as A W, the second as A A W, the third
    as A^T, and the final core as A W. *)
Theorem integrator_formula :
  forall (R : comRingType) (qr : mat R -> res (mat R * mat R)) (is_one : R -> bool),
  qr_ok qr -> (forall v, is_one v = true -> v = 1) ->
  forall n0 r0 n1 r1 n2 r2 u v w core inds vals att,
  tucker_args n0 r0 n1 r1 n2 r2 u v w core inds vals att ->
  match tucker_integrator (0 : R) +%R *%R (fun x y => x - y) qr is_one u v w core inds vals (n0, n1, n2) att with
  | Err e => exists x, qr x = Err e
  | Ok (un, vn, wn, cn) =>
    exists c1 c2 c3, integrator_outcome n0 r0 n1 r1 n2 r2 u v w core inds vals att un vn wn c1 c2 c3 cn
  end.
Proof. exact: Tucker_integ.integrator_formula_main. Qed.
Print Assumptions integrator_formula.

(** C43.  Entries with the value zero leave the represented tensor unchanged. *)
Theorem integrator_zero_data :
  forall (R : comRingType) (qr : mat R -> res (mat R * mat R)) (is_one : R -> bool),
  qr_ok qr -> (forall v, is_one v = true -> v = 1) ->
  forall n0 r0 n1 r1 n2 r2 u v w core inds vals att un vn wn cn,
  tucker_args n0 r0 n1 r1 n2 r2 u v w core inds vals att -> List.Forall (fun x => x = 0) vals ->
  tucker_integrator (0 : R) +%R *%R (fun x y => x - y) qr is_one u v w core inds vals (n0, n1, n2) att = Ok (un, vn, wn, cn) ->
  forall c, in_range (n0, n1, n2) c -> rep un vn wn cn c = rep u v w core c.
Proof. exact: Tucker_integ.integrator_zero_main. Qed.
Print Assumptions integrator_zero_data.

(** C43.  Applying the attention twice does no harm when A A W = A W: the integrator
    reproduces the tensor with the attended data. *)
Theorem integrator_attention_exact :
  forall (R : comRingType) (qr : mat R -> res (mat R * mat R)) (is_one : R -> bool),
  qr_ok qr -> (forall v, is_one v = true -> v = 1) ->
  forall n0 r0 n1 r1 n2 r2 u v w core inds vals att t un vn wn cn,
  tucker_args n0 r0 n1 r1 n2 r2 u v w core inds vals att ->
  processed max_points (length inds) = length inds ->
  orthonormal n1 r1 v -> orthonormal n2 r2 w ->
  attm n2 att *m (attm n2 att *m mx n2 r2 w) = attm n2 att *m mx n2 r2 w ->
  is_target n0 n1 n2 u v w core (List.combine inds vals) att t ->
  keeps_columns n0 r0 n1 r1 n2 r2 u v w core t ->
  tucker_integrator (0 : R) +%R *%R (fun x y => x - y) qr is_one u v w core inds vals (n0, n1, n2) att = Ok (un, vn, wn, cn) ->
  forall c, in_range (n0, n1, n2) c -> rep un vn wn cn c = t c.
Proof. exact: Tucker_integ.integrator_exact_main. Qed.
Print Assumptions integrator_attention_exact.

(** C43.  Without that condition exactness fails. *)
Theorem integrator_attention_refuted :
  exists (qr : mat rat -> res (mat rat * mat rat)) is_one u v w core inds vals att t un vn wn cn,
  qr_ok qr /\ (forall x, is_one x = true -> x = 1) /\
  tucker_args 1 1 2 1 2 1 u v w core inds vals (Some att) /\
  processed max_points (length inds) = length inds /\
  orthonormal 1 1 u /\ orthonormal 2 1 v /\ orthonormal 2 1 w /\
  is_target 1 2 2 u v w core (List.combine inds vals) (Some att) t /\
  keeps_columns 1 1 2 1 2 1 u v w core t /\
  tucker_integrator 0 +%R *%R (fun x y => x - y) qr is_one u v w core inds vals (1%N, 2%N, 2%N) (Some att) = Ok (un, vn, wn, cn) /\
  t (0%N, 0%N, 0%N) = 9%:Q / 5%:Q /\ rep un vn wn cn (0%N, 0%N, 0%N) = 189%:Q / 125%:Q.
Proof. exact: Tucker_wit.attention_witness. Qed.
Print Assumptions integrator_attention_refuted.

(** C55.  Without attention the integrator reproduces the new tensor exactly whenever its
    unfoldings keep their column spaces under projection on the old row spaces. *)
Theorem integrator_exact :
  forall (R : comRingType) (qr : mat R -> res (mat R * mat R)) (is_one : R -> bool),
  qr_ok qr -> (forall v, is_one v = true -> v = 1) ->
  forall n0 r0 n1 r1 n2 r2 u v w core inds vals t un vn wn cn,
  tucker_args n0 r0 n1 r1 n2 r2 u v w core inds vals None ->
  processed max_points (length inds) = length inds ->
  orthonormal n1 r1 v -> orthonormal n2 r2 w ->
  (forall i j k, (i < n0)%N -> (j < n1)%N -> (k < n2)%N ->
     t (i, j, k) = rep u v w core (i, j, k) + dense (List.combine inds vals) (i, j, k)) ->
  keeps_columns n0 r0 n1 r1 n2 r2 u v w core t ->
  tucker_integrator (0 : R) +%R *%R (fun x y => x - y) qr is_one u v w core inds vals (n0, n1, n2) None = Ok (un, vn, wn, cn) ->
  forall c, in_range (n0, n1, n2) c -> rep un vn wn cn c = t c.
Proof. exact: Tucker_integ.integrator_exact_plain_main. Qed.
Print Assumptions integrator_exact.

(** A run meeting the hypotheses of the exactness theorem: the item factor turns from
    (1, 0) to (3/5, 4/5). *)
Example integrator_demo :
  exists vn wn cn, qr_ok Tucker_wit.wit_tqr /\
  tucker_args 1 1 2 1 2 1 Tucker_wit.wit_u Tucker_wit.wit_v Tucker_wit.wit_w Tucker_wit.wit_core
    Tucker_wit.wit_inds Tucker_wit.demo_vals None /\
  processed max_points (length Tucker_wit.wit_inds) = length Tucker_wit.wit_inds /\
  orthonormal 2 1 Tucker_wit.wit_v /\ orthonormal 2 1 Tucker_wit.wit_w /\
  (forall i j k, (i < 1)%N -> (j < 2)%N -> (k < 2)%N ->
     Tucker_wit.wit_t 3%:Q 4%:Q (i, j, k)
     = rep Tucker_wit.wit_u Tucker_wit.wit_v Tucker_wit.wit_w Tucker_wit.wit_core (i, j, k)
       + dense (List.combine Tucker_wit.wit_inds Tucker_wit.demo_vals) (i, j, k)) /\
  keeps_columns 1 1 2 1 2 1 Tucker_wit.wit_u Tucker_wit.wit_v Tucker_wit.wit_w Tucker_wit.wit_core (Tucker_wit.wit_t 3%:Q 4%:Q) /\
  Tucker_wit.wit_run None Tucker_wit.demo_vals = Ok (Tucker_wit.wit_u, vn, wn, cn) /\
  [&& same vn (mkMat 2 1 [:: frac 3 5; frac 4 5]), same wn (mkMat 2 1 [:: frac 3 5; frac 4 5]) & tdat cn == [:: 5%:Q]].
Proof. exact: Tucker_wit.plain_witness. Qed.

(** Zero data: a run that returns. *)
Example integrator_zero_demo :
  match Tucker_wit.wit_run None [:: 0; 0] with
  | Ok (un, vn, wn, cn) => (rep un vn wn cn (0%N, 0%N, 1%N) == 12%:Q / 5%:Q) && (rep un vn wn cn (0%N, 1%N, 1%N) == 0)
  | Err _ => false
  end.
Proof. by vm_compute. Qed.

(** Embeddings: a zero row for a new user; the random value 3/4 for a new user. *)
Example tucker_embeddings_demo :
  match tucker_add_zero 0 EUsers 1 Tucker_wit.wit_u Tucker_wit.wit_v,
        tucker_add_random 0 +%R *%R Tucker_wit.emb_qr Tucker_wit.emb_normal EUsers 1 Tucker_wit.wit_u Tucker_wit.wit_v Tucker_wit.wit_core with
  | Ok (u1, _), Ok (u2, _, core2) =>
    [&& same u1 (mkMat 2 1 [:: 1; 0]), same u2 (mkMat 2 1 [:: frac 4 5; frac 3 5]), tdat core2 == [:: frac 15 4],
        rep u2 Tucker_wit.wit_v Tucker_wit.wit_w core2 (0%N, 0%N, 0%N) == 9%:Q / 5%:Q
      & rep u2 Tucker_wit.wit_v Tucker_wit.wit_w core2 (1%N, 0%N, 0%N) == 27%:Q / 20%:Q]
  | _, _ => false
  end.
Proof. by vm_compute. Qed.
