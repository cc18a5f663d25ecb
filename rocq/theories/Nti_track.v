(** The represented tensor of a sequential model and the position tensor of its histories. *)
From Coq Require Import ZArith Permutation.
From Verif Require Import Prelude Prelude_proofs DataPrep_model DataPrep_spec History_model History_spec Psi_model Tirec_model Tirec_spec
  Tensor_model Tensor_spec Tensor_main Matrix_model Attention_model LinAlg_model Tucker_model Hooi_model Upd_model Nti_model Nti_book Nti_land.
From Verif Require Tirec_proofs Tirec_main Tirec_assembly History_proofs.
Set Warnings "-notation-overridden".
From mathcomp Require Import all_ssreflect all_algebra.
From Verif Require Import LinAlg_spec LinAlg_bridge LinAlg_emb Tucker_spec Tucker_bridge Tucker_main Tucker_emb Tucker_integ Hooi_spec Hooi_bridge
  Upd_spec Upd_block Upd_new Exact_spec Exact_main Exact_final Nti_spec Nti_steps Nti_rank Nti_sim Nti_exact Nti_main.
Set Implicit Arguments.
Unset Strict Implicit.
Unset Printing Implicit Defensive.
Import GRing.Theory.
Local Open Scope ring_scope.

Section Track.
Variable R : realFieldType.
Variable of_val : Z -> R.
Hypothesis V0 : of_val Z0 = 0.
Hypothesis VD : forall y z, of_val (Z.add y z) = of_val y + of_val z.
Notation zcell i j k := (Z.of_nat i, Z.of_nat j, Z.of_nat k).

Lemma VB y z : of_val (Z.sub y z) = of_val y - of_val z.
Proof. by rewrite -[in RHS](Z.sub_add z y) VD addrK. Qed.

Lemma dense_cons e (es : list (cell * R)) c : dense (e :: es) c = (if e.1 == c then e.2 else 0) + dense es c.
Proof. rewrite /dense big_cons. case: eqP => // _. by rewrite add0r. Qed.

Lemma landed_cell x i j k : List.Forall2 (lands x) (ts_entries x) (ts_local x) ->
  (forall e, List.In e (ts_entries x) -> Z.le 0 (e_pos e)) ->
  dense (landed of_val x) (i, j, k) = of_val (History_spec.cell (zcell i j k) (ts_entries x)).
Proof.
  rewrite /landed. elim=> [|e lc es ls H F IH] HP; first by rewrite /= dense_nil V0.
  rewrite [map _ _]/= dense_cons IH; last by move=> e' He'; apply: HP; right.
  have PE := HP e (or_introl erefl).
  case: e H PE {HP} => ce ve H PE.
  cbn [History_spec.cell]. rewrite VD. congr (_ + _).
  have IFF := lands_eq x _ lc i j k H PE. cbn [fst snd] in IFF.
  rewrite [t_user (_, _, _)]/= [t_item (_, _, _)]/= [t_pos (_, _, _)]/=.
  case: (Bool.bool_dec ((Z.eqb (Z.of_nat i) (t_user ce)) && (Z.eqb (Z.of_nat j) (t_item ce)) && (Z.eqb (Z.of_nat k) (t_pos ce))) true) => B.
  - have [A1 [A2 A3]] := proj2 IFF B. rewrite /= A1 A2 A3 eqxx B. by case: H => _ [_ [-> _]].
  - case: eqP => [[A1 A2 A3]|_]; first by case: B; exact: (proj1 IFF (conj A1 (conj A2 A3))).
    by move/negP: B => /negbTE ->; rewrite V0.
Qed.

Lemma added_cells v l i j k :
  (forall x, List.In x l -> List.Forall2 (lands x) (ts_entries x) (ts_local x) /\ forall e, List.In e (ts_entries x) -> Z.le 0 (e_pos e)) ->
  dense (added of_val v l) (i, j, k) = of_val (History_spec.cell (zcell i j k) (applied v l)).
Proof.
  elim: l => [|x l IH] H; first by rewrite /= dense_nil V0.
  rewrite added_cons dense_cat IH; last by move=> y Hy; apply: H; right.
  have -> : applied v (x :: l) = if ti_uses_values v (ts_mode x) then (ts_entries x ++ applied v l)%list else applied v l.
    by rewrite /applied /=; case: ti_uses_values.
  rewrite /gain. case: ti_uses_values; last by rewrite dense_nil add0r.
  have [H1 H2] := H x (or_introl erefl).
  by rewrite (landed_cell _ _ _ H1 H2) History_proofs.cell_app VD.
Qed.

(** An update of a model whose rows agree with the indices. *)
Lemma added_history v L st data s st' l i j k :
  ti_wf L st -> ti_update v L st data s = Ok st' -> ti_log st' = (ti_log st ++ l)%list -> rows_aligned st' ->
  dense (added of_val v l) (i, j, k)
  = of_val (hist_cell (zcell i j k) (hist_lists (ti_seq st'))) - of_val (hist_cell (zcell i j k) (hist_lists (ti_seq st)))
    + (if v is VTIRecA then of_val (History_spec.cell (zcell i j k) (q_new (nusers st) (nitems st) (ti_delta st st'))) else 0).
Proof.
  move=> W E EL A. rewrite added_cells; last exact: (log_lands _ _ _ _ _ _ _ W E EL A).
  rewrite -VB -(delta_cells _ _ _ _ _ _ W E).
  have NA : v <> VTIRecA -> History_spec.cell (zcell i j k) (applied v l) = History_spec.cell (zcell i j k) (ti_delta st st').
    move=> NV. have [_ [l' [EL' [_ P]]]] := Tirec_assembly.tirec_partition_main _ _ _ _ _ _ W E.
    have -> : l = l' by rewrite EL in EL'; exact: List.app_inv_head EL'.
    exact: cell_perm (P NV).
  case: v E NA => E NA; try by rewrite NA // addr0.
  have [l' [EL' [_ [P _]]]] := Tirec_assembly.tireca_twice_main _ _ _ _ _ W E.
  have -> : l = l' by rewrite EL in EL'; exact: List.app_inv_head EL'.
  by rewrite P VD.
Qed.

Variables exceeds_eps is_one : R -> bool.
Hypothesis IS1 : forall y, is_one y = true -> y = 1.
Variables (cfg : nti_cfg) (L : nat) (a ainv : mat R) (r0 r1 r2 : nat).
Hypotheses (Sa : shape L L a) (Si : shape L L ainv).
Notation v := (nc_variant cfg).
Notation nti_update := (nti_update 0 1 +%R *%R (fun x y => x - y) of_val exceeds_eps is_one cfg L a ainv None).
Notation nti_stream := (nti_stream 0 1 +%R *%R (fun x y => x - y) of_val exceeds_eps is_one cfg L a ainv None).

Lemma update_tracks rt x st data s x' st' l :
  (forall md, rt_ok (rt md)) -> (forall md, rt_lossless (rt md)) ->
  ti_wf L st -> follows x st -> model_ok r0 r1 r2 L x ->
  nti_update rt x data s = Ok x' -> ti_update v L st data s = Ok st' -> ti_log st' = (ti_log st ++ l)%list ->
  rows_aligned st' -> lossless_update of_val cfg r0 r1 r2 L x x' l ->
  forall c, value L x' c = value L x c + (history_value of_val (nt_seq x') c - history_value of_val (nt_seq x) c)
    + (if v is VTIRecA then of_val (History_spec.cell (Z.of_nat (c0 c), Z.of_nat (c1 c), Z.of_nat (c2 c))
                                      (q_new (nusers st) (nitems st) (ti_delta st st'))) else 0).
Proof.
  move=> RT LL W F MO E ET EL AL LU [[i j] k].
  rewrite (update_exact IS1 RT LL W F MO E ET EL LU) (added_history _ _ _ W ET EL AL).
  have H := update_sim of_val exceeds_eps IS1 cfg (att := None) I Sa Si RT data s W F MO.
  rewrite E in H. case: H => st2. rewrite ET => -[<-] [[_ _ -> _] _ _]. case: F => _ _ -> _.
  rewrite -[RHS]addrA. by [].
Qed.

Lemma stream_tracks s chunks : v <> VTIRecA -> forall rt x st x' st',
  (forall t md, rt_ok (rt t md)) -> (forall t md, rt_lossless (rt t md)) ->
  ti_wf L st -> rows_aligned st -> follows x st -> model_ok r0 r1 r2 L x ->
  nti_stream rt s x chunks = Ok x' -> ti_stream v L s st chunks = Ok st' ->
  lossless_stream of_val exceeds_eps is_one cfg r0 r1 r2 L a ainv rt s x st chunks ->
  forall c, value L x' c = value L x c + (history_value of_val (nt_seq x') c - history_value of_val (nt_seq x) c).
Proof.
  move=> NV. rewrite /ti_stream. elim: chunks => [|c chunks IH] rt x st x' st' RT LL W AL F MO.
    by move=> [<-] _ _ c; rewrite subrr addr0.
  cbn [Nti_model.nti_stream List.fold_left bind lossless_stream].
  have H := update_sim of_val exceeds_eps IS1 cfg (att := None) I Sa Si (RT 0%N) c s W F MO.
  case E : Nti_model.nti_update H => [x1|e] //; cbn [bind]. move=> [st1 ET [F1 M1 _]].
  rewrite ET => EX ES LS d.
  have [W1 [l [EL _]]] := Tirec_assembly.tirec_partition_main _ _ _ _ _ _ W ET.
  have [LU AS LS1] := LS x1 st1 l erefl erefl EL.
  have AL1 : rows_aligned st1.
    case: AS => // VI. apply: (proj2 (Tirec_assembly.tireca_int_stream_aligned_main L s [:: c] st st1 W AL _)).
    by rewrite /ti_stream /= -VI ET.
  rewrite (IH _ _ _ _ _ (fun t => RT t.+1) (fun t => LL t.+1) W1 AL1 F1 M1 EX ES LS1 d).
  rewrite (update_tracks (RT 0%N) (LL 0%N) W F MO E ET EL AL1 LU d).
  have -> : (if v is VTIRecA then of_val (History_spec.cell (Z.of_nat (c0 d), Z.of_nat (c1 d), Z.of_nat (c2 d))
                                      (q_new (nusers st) (nitems st) (ti_delta st st1))) else 0) = 0 :> R by case: v NV.
  by rewrite addr0 -addrA; congr (_ + _); rewrite addrC subrKA.
Qed.

(** It is enough to compare a model with its histories inside the factors. *)
Lemma history_inside x st : ti_wf L st -> follows x st ->
  (forall c, inside (n_rows x 0) (n_rows x 1) L c -> value L x c = history_value of_val (nt_seq x) c) ->
  forall c, value L x c = history_value of_val (nt_seq x) c.
Proof.
  move=> W [_ _ FS [F0 F1]] H [[i j] k]. case B : (inside (n_rows x 0) (n_rows x 1) L (i, j, k)); first exact: H.
  rewrite /value B /history_value FS. case: (Z.eq_dec (hist_cell (zcell i j k) (hist_lists (ti_seq st))) Z0) => [E|NE].
    by rewrite /c0 /c1 /c2 /= E V0.
  have [A0 [A1 A2]] := history_outside _ _ _ _ _ W NE.
  by move: B; rewrite /inside /= F0 F1; move/ltP: A0 => ->; move/ltP: A1 => ->; move/ltP: A2 => ->.
Qed.
End Track.
