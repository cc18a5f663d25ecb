(** Vocabulary of C102: renaming users and items in tables, mappings and objects. *)
From Coq Require Import ZArith List.
From Verif Require Import Prelude DataPrep_model History_model Psi_model Matrix_model LinAlg_model Num_model Nti_model Tables_model Dynamic_model.
Import ListNotations.
Open Scope Z_scope.

Definition one_to_one (f : Z -> Z) : Prop := forall x y, f x = f y -> x = y.
Definition keeps_order (f : Z -> Z) : Prop := forall x y, x < y -> f x < f y.

(** A result with its value changed; exceptions stay. *)
Definition mapR {X Y} (h : X -> Y) (r : res X) : res Y :=
  match r with Ok a => Ok (h a) | Err e => Err e end.

(** Rows under new names: user [u] is called [f u], item [i] is called [g i]. *)
Definition rn (f g : Z -> Z) (r : row) : row := mkRow (f (r_user r)) (g (r_item r)) (r_ts r) (r_rel r).
Definition rn_p (f g : Z -> Z) (p : prow) : prow := (rn f g (fst p), snd p).
Definition rn_t (f g : Z -> Z) (r : trow) : trow :=
  mkT (tb_index r) (f (tb_user r)) (g (tb_item r)) (tb_time r) (tb_day r) (tb_rel r).

(** A mapping struct under new names: the same indices. *)
Definition rk {V} (f : Z -> Z) (d : dict V) : dict V := map (fun kv => (f (fst kv), snd kv)) d.
Definition rv (f : Z -> Z) (d : dict Z) : dict Z := map (fun kv => (fst kv, f (snd kv))) d.
Definition rn_map (f : Z -> Z) (m : mapping) : mapping :=
  mkMapping (rk f (old2new m)) (rv f (new2old m)) (n_indices m).
Definition rn_maps (f g : Z -> Z) (ms : mappings) : mappings :=
  mkMappings (rn_map f (m_users ms)) (rn_map g (m_items ms)).

(** Objects under new names: the mappings (and the ghost log) change, the factors, histories
    and numbers of rows do not. *)
Definition rn_step (f g : Z -> Z) (s : step_log) : step_log :=
  mkStep (sl_mode s) (sl_users s) (sl_items s) (map (rn f g) (sl_data s)) (sl_da s).
Definition rn_psi (f g : Z -> Z) (s : psi_state) : psi_state :=
  mkPsi (rn_maps f g (ps_maps s)) (ps_n_users s) (ps_n_items s) (ps_history s) (map (rn_step f g) (ps_log s)).
Definition rn_num {A} (f g : Z -> Z) (x : @num_state A) : @num_state A :=
  mkNum (rn_psi f g (nm_book x)) (nm_f x).
Definition with_maps {A} (x : @nti_state A) (ms : mappings) : @nti_state A :=
  mkNti ms (nt_history x) (nt_seq x) (nt_fs x) (nt_core x) (nt_aw x) (nt_last x).
Definition rn_nti {A} (f g : Z -> Z) (x : @nti_state A) : @nti_state A :=
  with_maps x (rn_maps f g (nt_maps x)).

(** A chunk or a concatenated table. *)
Definition rn_sum {D} (f g : Z -> Z) (rD : D -> D) (c : list row + D) : list row + D :=
  match c with inl c => inl (map (rn f g) c) | inr d => inr (rD d) end.

(** Everything the experiment reports but the stability series. *)
Definition same_but_wji {T V} (d d' : Dynamic_model.dynamics T V) : Prop :=
  Dynamic_model.calculation_time d = Dynamic_model.calculation_time d' /\
  Dynamic_model.d_hr d = Dynamic_model.d_hr d' /\ Dynamic_model.d_mrr d = Dynamic_model.d_mrr d' /\
  Dynamic_model.rnd_users d = Dynamic_model.rnd_users d' /\ Dynamic_model.rnd_items d = Dynamic_model.rnd_items d' /\
  Dynamic_model.nd_users d = Dynamic_model.nd_users d' /\ Dynamic_model.nd_items d = Dynamic_model.nd_items d'.

(** Sorting the counts or the rows looks at the sort key only, not at the names. *)
Definition by_key_only (h : Z -> Z) (sort : list (Z * Z) -> list (Z * Z)) : Prop :=
  forall l, sort (map (fun c => (h (fst c), snd c)) l) = map (fun c => (h (fst c), snd c)) (sort l).
