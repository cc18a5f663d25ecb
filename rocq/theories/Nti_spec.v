(** Specification vocabulary for the sequential models with their factors: well-formed
    models, the represented tensor, where the entries of an update land in it, and when an
    update can be lossless. *)
From Coq Require Import ZArith.
From Verif Require Import Prelude DataPrep_model DataPrep_spec History_model History_spec Psi_model Tirec_model Tirec_spec
  Tensor_model Tensor_spec Matrix_model Attention_model LinAlg_model Tucker_model Hooi_model Upd_model Nti_model.
Set Warnings "-notation-overridden".
From mathcomp Require Import all_ssreflect all_algebra.
From Verif Require Import LinAlg_spec Tucker_spec Hooi_spec Upd_spec Exact_spec.
Set Implicit Arguments.
Unset Strict Implicit.
Unset Printing Implicit Defensive.
Import GRing.Theory.
Local Open Scope ring_scope.

Section Spec.
Variable R : comRingType.

(** Contracts of the external routines, and one of them raising [e]. *)
Definition rt_ok (rt : routines R) : Prop :=
  [/\ qr_ok (rt_qr rt), svds_op_ok (rt_svds rt), truncated_ok (rt_rsvd1 rt) /\ truncated_ok (rt_rsvd2 rt),
      right_ok (rt_rsvd3 rt) /\ (forall t, truncated_ok (rt_rsvd4 rt t))
    & svd_full_ok (rt_full rt) /\ randn_ok (rt_normal rt)].
Definition rt_raises (rt : routines R) (e : exn) : Prop :=
  (exists x, rt_qr rt x = Err e) \/ (exists op k, rt_svds rt op k = Err e) \/
  (exists x r, rt_rsvd1 rt x r = Err e) \/ (exists x r, rt_rsvd2 rt x r = Err e) \/
  (exists t x r, rt_rsvd3 rt t x r = Err e) \/ (exists t x r, rt_rsvd4 rt t x r = Err e) \/ (exists x, rt_full rt x = Err e).
(** The truncated SVDs are exact on matrices that fit in the rank. *)
Definition rt_lossless (rt : routines R) : Prop :=
  [/\ lossless (rt_rsvd1 rt), lossless (rt_rsvd2 rt) & forall t, lossless (rt_rsvd4 rt t)].

(** Ranks a Tucker model of an [n0] x [n1] x [n2] tensor can have. *)
Definition valid_ranks (r0 r1 r2 n0 n1 n2 : nat) : Prop :=
  [/\ (r0 <= r1 * r2)%N, (r1 <= r0 * r2)%N, (r2 <= r0 * r1)%N, [/\ (0 < r0)%N, (0 < r1)%N & (0 < r2)%N]
    & [/\ (r0 <= n0)%N, (r1 <= n1)%N & (r2 <= n2)%N]].

(** Orthonormal factors and a core of matching shapes. *)
Definition tucker_ok (r0 r1 r2 n0 n1 n2 : nat) (fs : @factors R) (core : ten R) : Prop :=
  [/\ [/\ shape n0 r0 (factor fs 0), shape n1 r1 (factor fs 1) & shape n2 r2 (factor fs 2)],
      [/\ orthonormal n0 r0 (factor fs 0), orthonormal n1 r1 (factor fs 1) & orthonormal n2 r2 (factor fs 2)],
      twf core, tshape core = (r0, r1, r2)
    & valid_ranks r0 r1 r2 n0 n1 n2].
Definition model_ok (r0 r1 r2 L : nat) (x : @nti_state R) : Prop :=
  tucker_ok r0 r1 r2 (n_rows x 0) (n_rows x 1) L (nt_fs x) (nt_core x).

(** The object has the mappings and histories of [st] and one row of [u] and [v] per owner. *)
Definition follows (x : @nti_state R) (st : ti_state) : Prop :=
  [/\ nt_maps x = ti_maps st, nt_history x = ti_history st, nt_seq x = ti_seq st
    & n_rows x 0 = length (ti_urows st) /\ n_rows x 1 = length (ti_irows st)].

(** The represented tensor, 0 outside the factors. *)
Definition inside (n0 n1 n2 : nat) (c : cell) : bool := [&& (c0 c < n0)%N, (c1 c < n1)%N & (c2 c < n2)%N].
Definition value (L : nat) (x : @nti_state R) (c : cell) : R :=
  if inside (n_rows x 0) (n_rows x 1) L c then rep3 (nt_fs x) (nt_core x) c else 0.

(** The cells and values of the entries of a step, in rows and columns of the factors. *)
Variable of_val : Z -> R.
Definition landed (s : ti_step) : list (cell * R) :=
  [seq ((Z.to_nat (fst (target s e)), Z.to_nat (snd (target s e)), Z.to_nat (e_pos e)), of_val (snd e)) | e <- ts_local s].

(** The entries an update with log [l] adds to the tensor; those added before its last step. *)
Definition added (v : variant) (l : list ti_step) : list (cell * R) :=
  flatten [seq landed s | s <- l & ti_uses_values v (ts_mode s)].
Definition is_old (md : mode) : bool := match md with MOld => true | _ => false end.
Definition added_early (v : variant) (l : list ti_step) : list (cell * R) :=
  added v [seq s <- l | ~~ is_old (ts_mode s)].
End Spec.

Section Loss.
Variable R : realFieldType.

(** The ranks of the three unfoldings. *)
Definition ranks_are (r0 r1 r2 n0 n1 n2 : nat) (t : cell -> R) : Prop :=
  [/\ \rank (unf 0 1 n0 n1 n2 t) = r0, \rank (unf 1 0 n1 n0 n2 t) = r1 & \rank (unf 2 0 n2 n0 n1 t) = r2].
Definition ranks_at_most (r0 r1 r2 n0 n1 n2 : nat) (t : cell -> R) : Prop :=
  [/\ (\rank (unf 0 1 n0 n1 n2 t) <= r0)%N, (\rank (unf 1 0 n1 n0 n2 t) <= r1)%N & (\rank (unf 2 0 n2 n0 n1 t) <= r2)%N].

(** No unfolding of [t'] loses rank when multiplied by that of [t]: the exactness condition
    of the integrator. *)
Definition recoverable (n0 n1 n2 : nat) (t' t : cell -> R) : Prop :=
  [/\ \rank (unf 0 1 n0 n1 n2 t' *m (unf 0 1 n0 n1 n2 t)^T) = \rank (unf 0 1 n0 n1 n2 t'),
      \rank (unf 1 0 n1 n0 n2 t' *m (unf 1 0 n1 n0 n2 t)^T) = \rank (unf 1 0 n1 n0 n2 t')
    & \rank (unf 2 0 n2 n0 n1 t' *m (unf 2 0 n2 n0 n1 t)^T) = \rank (unf 2 0 n2 n0 n1 t')].

Variable of_val : Z -> R.

(** The position factor of [x] spans the third mode of [t]. *)
Definition spans_positions (r2 L n0 n1 : nat) (x : @nti_state R) (t : cell -> R) : Prop :=
  proj L r2 (factor (nt_fs x) 2) *m unf 2 0 L n0 n1 t = unf 2 0 L n0 n1 t.
Definition is_new (md : mode) : bool := match md with MNew => true | _ => false end.

(** When an update of [x] with the steps [l] loses nothing: if values enter before the last
    step, the tensor with these values fits in the ranks of the model, and either the old
    tensor has exactly these ranks, or all these values are those of new users and new items
    and the position factor spans them; the last step meets the exactness condition; the
    integrator reads all its entries; new rows are not random. *)
Definition lossless_update (cfg : nti_cfg) (r0 r1 r2 L : nat) (x x' : @nti_state R) (l : list ti_step) : Prop :=
  let v := nc_variant cfg in
  let n0 := n_rows x' 0 in let n1 := n_rows x' 1 in
  let early c := value L x c + dense (added_early of_val v l) c in
  let all c := value L x c + dense (added of_val v l) c in
  [/\ added_early of_val v l <> [::] -> ranks_at_most r0 r1 r2 n0 n1 L early /\
        (ranks_are r0 r1 r2 (n_rows x 0) (n_rows x 1) L (value L x) \/
         (forall s, List.In s l -> ti_uses_values v (ts_mode s) -> is_new (ts_mode s) || is_old (ts_mode s)) /\
         spans_positions r2 L n0 n1 x early),
      recoverable n0 n1 L all early,
      forall s, List.In s l -> is_old (ts_mode s) -> processed max_points (length (ts_local s)) = length (ts_local s)
    & v = VTIRec \/ nc_random cfg = false].

(** A stream of updates without attention, each of them lossless and leaving the rows of the
    factors in index order (with integrator processing the rows always are). *)
Variables exceeds_eps is_one : R -> bool.
Fixpoint lossless_stream (cfg : nti_cfg) (r0 r1 r2 L : nat) (a ainv : mat R) (rt : nat -> mode -> routines R)
    (s : bool) (x : @nti_state R) (st : ti_state) (chunks : list (list DataPrep_model.row)) : Prop :=
  match chunks with
  | nil => True
  | cons c cs =>
    forall x1 st1 l,
      nti_update 0 1 +%R *%R (fun y z => y - z) of_val exceeds_eps is_one cfg L a ainv None (rt 0%N) x c s = Ok x1 ->
      ti_update (nc_variant cfg) L st c s = Ok st1 -> ti_log st1 = (ti_log st ++ l)%list ->
      [/\ lossless_update cfg r0 r1 r2 L x x1 l,
          nc_variant cfg = VTIRecAInt \/ rows_aligned st1
        & lossless_stream cfg r0 r1 r2 L a ainv (fun t => rt t.+1) s x1 st1 cs]
  end.
End Loss.

(** The position tensor of the sequential histories: the value of position [k] of user [i] in
    item [j]'s column. *)
Definition history_value (R : comRingType) (of_val : Z -> R) (q : seq_history) (c : cell) : R :=
  of_val (hist_cell (Z.of_nat (c0 c), Z.of_nat (c1 c), Z.of_nat (c2 c)) (hist_lists q)).
