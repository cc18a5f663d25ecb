(** Specification vocabulary for the sequential models. *)
From Coq Require Import ZArith List Bool Lia Permutation.
From Verif Require Import Prelude DataPrep_model DataPrep_spec History_model History_spec
  Recommend_model Psi_model Tirec_model.
Import ListNotations.
Open Scope Z_scope.

Definition tu (st : ti_state) : Z -> option Z := f_of (m_users (ti_maps st)).
Definition tit (st : ti_state) : Z -> option Z := f_of (m_items (ti_maps st)).
Definition nusers (st : ti_state) : Z := Z.of_nat (length (ti_urows st)).
Definition nitems (st : ti_state) : Z := Z.of_nat (length (ti_irows st)).

(** Every known user and item owns exactly one row of the factors (in some order),
    and the histories mention only known ids. *)
Definition ti_wf (L : nat) (st : ti_state) : Prop :=
  bij (m_users (ti_maps st)) 0 /\ bij (m_items (ti_maps st)) 0
  /\ nusers st = n_indices (m_users (ti_maps st))
  /\ nitems st = n_indices (m_items (ti_maps st))
  /\ Permutation (ti_urows st) (zrange (length (ti_urows st)))
  /\ Permutation (ti_irows st) (zrange (length (ti_irows st)))
  /\ (forall u j, In (u, j) (ti_history st) -> 0 <= u < nusers st /\ 0 <= j < nitems st)
  /\ NoDup (dkeys (ti_seq st))
  /\ (forall u, In u (dkeys (ti_seq st)) <-> 0 <= u < nusers st)
  /\ (forall u d, dget u (ti_seq st) = Some d ->
        dq_maxlen d = L /\ length (dq_items d) = L
        /\ (forall j, In j (dq_items d) -> j = PAD_VALUE \/ 0 <= j < nitems st)
        /\ exists j, In j (dq_items d) /\ j <> PAD_VALUE).

(** Row [i] of each factor belongs to the entity with internal index [i]. *)
Definition rows_aligned (st : ti_state) : Prop :=
  ti_urows st = zrange (length (ti_urows st)) /\ ti_irows st = zrange (length (ti_irows st)).

(** ** How a list of entries is split, for a model with [nu] users and [ni] items *)
Definition new_u (nu : Z) (e : entry) : bool := nu <=? e_user e.
Definition new_i (ni : Z) (e : entry) : bool := ni <=? e_item e.
(** Entries of a new user with a new item. *)
Definition q_new (nu ni : Z) (D : list entry) : list entry :=
  filter (fun e => new_u nu e && new_i ni e) D.
(** Entries of new users without such an entry. *)
Definition q_new_users (nu ni : Z) (D : list entry) : list entry :=
  filter (fun e => new_u nu e && negb (memZ (e_user e) (map e_user (q_new nu ni D)))) D.
(** Entries of new items without such an entry. *)
Definition q_new_items (nu ni : Z) (D : list entry) : list entry :=
  filter (fun e => new_i ni e && negb (memZ (e_item e) (map e_item (q_new nu ni D)))) D.
(** All other entries. *)
Definition q_old (nu ni : Z) (D : list entry) : list entry :=
  filter (fun e => negb (new_u nu e && new_i ni e)
                   && negb (new_u nu e && negb (memZ (e_user e) (map e_user (q_new nu ni D))))
                   && negb (new_i ni e && negb (memZ (e_item e) (map e_item (q_new nu ni D))))) D.

Definition nonempty_step (s : mode * list entry) : bool := match snd s with [] => false | _ => true end.

(** The (mode, entries) pairs of the non-empty steps of an update with delta [D]. *)
Definition ti_expected (v : variant) (nu ni : Z) (D : list entry) : list (mode * list entry) :=
  filter nonempty_step
    match v with
    | VTIRec => [ (MNew, q_new nu ni D); (MNewUsers, q_new_users nu ni D);
                  (MNewItems, q_new_items nu ni D); (MOld, q_old nu ni D) ]
    | VTIRecA => [ (MNew, q_new nu ni D); (MNewUsers, q_new_users nu ni D);
                   (MNewItems, q_new_items nu ni D); (MOld, D) ]
    | VTIRecAInt => [ (MOld, D) ]
    end.

(** Steps whose values reach the factors: TIRecA only adds rows for 'new_users'
    and 'new_items'. *)
Definition ti_uses_values (v : variant) (md : mode) : bool :=
  match v, md with
  | VTIRec, _ => true
  | _, MOld => true
  | _, MNew => true
  | _, _ => false
  end.

(** Entries whose values an update applies. *)
Definition applied (v : variant) (l : list ti_step) : list entry :=
  concat (map ts_entries (filter (fun s => ti_uses_values v (ts_mode s)) l)).

(** Rows of [u] and [v] that an entry with (processed) coordinates is applied to. *)
Definition target (s : ti_step) (loc : entry) : Z * Z :=
  match ts_mode s with
  | MNew => (ts_nu s + e_user loc, ts_ni s + e_item loc)
  | MNewUsers => (ts_nu s + e_user loc, e_item loc)
  | MNewItems => (e_user loc, ts_ni s + e_item loc)
  | MOld => (e_user loc, e_item loc)
  end.

(** An entry is applied to the rows owned by its own user and item. *)
Definition own_rows (st : ti_state) (s : ti_step) (e loc : entry) : Prop :=
  0 <= fst (target s loc) /\ 0 <= snd (target s loc)
  /\ nth_error (ti_urows st) (Z.to_nat (fst (target s loc))) = Some (e_user e)
  /\ nth_error (ti_irows st) (Z.to_nat (snd (target s loc))) = Some (e_item e).

(** Size condition of TIRec's incremental SVD. *)
Definition ti_fits (v : variant) (L : nat) (nu ni : Z) (D : list entry) : Prop :=
  v = VTIRec ->
  Z.of_nat (ndistinct (map e_user (q_new_users nu ni D)))
    <= (ni + Z.of_nat (ndistinct (map e_item (q_new nu ni D)))) * Z.of_nat L
  /\ Z.of_nat (ndistinct (map e_item (q_new_items nu ni D)))
     <= (nu + Z.of_nat (ndistinct (map e_user (q_new nu ni D)))
            + Z.of_nat (ndistinct (map e_user (q_new_users nu ni D)))) * Z.of_nat L.

(** The delta of an update: new minus old sequential history. *)
Definition ti_delta (st st' : ti_state) : list entry :=
  calculate_delta (hist_lists (ti_seq st')) (hist_lists (ti_seq st)).

(** New entities of the first kind come before those of the second kind. *)
Definition first_kind_first (lo : Z) (first all : list Z) : Prop :=
  forall a b, In a first -> In b all -> lo <= b -> ~ In b first -> a < b.

(** Rows of user [u] that cropping a table keeps: the [L] latest (by timestamp when
    the table is sorted first, by table order otherwise). *)
Definition kept_rows (L : nat) (sort_bool : bool) (df : list row) (u : Z) (rows : list row) : Prop :=
  exists x, (if sort_bool then StableSorted r_ts (rows_of u df) x else x = rows_of u df)
            /\ rows = lastn L x.
