(** Newcomers under integrator processing keep zero rows. *)
From Coq Require Import ZArith Lia.
From Verif Require Import Prelude Prelude_proofs DataPrep_model DataPrep_spec History_model History_spec Psi_model Tirec_model Tirec_spec
  Tensor_model Tensor_spec Tensor_main Matrix_model Attention_model Attention_spec LinAlg_model Tucker_model Hooi_model Upd_model Nti_model Nti_book Nti_land.
From Verif Require Tirec_proofs Tirec_assembly History_proofs Attention_main.
Set Warnings "-notation-overridden".
From mathcomp Require Import all_ssreflect all_algebra.
From Verif Require Import LinAlg_spec LinAlg_bridge Tucker_spec Tucker_bridge Tucker_modes Tucker_main Tucker_emb Tucker_integ Hooi_spec Hooi_bridge
  Upd_spec Exact_spec Exact_main Nti_spec Nti_steps Nti_rank Nti_sim Nti_exact Nti_main Nti_track Nti_scores Cold_spec.
Set Implicit Arguments.
Unset Strict Implicit.
Unset Printing Implicit Defensive.
Import GRing.Theory.
Local Open Scope ring_scope.

Section Cold.
Variable R : realFieldType.

Lemma rank_factor n r p (M : 'M[R]_(n, p)) (k : 'M[R]_(n, r)) X : \rank M = r -> M = k *m X -> \rank k = r.
Proof.
  move=> RM E. apply/eqP. rewrite eqn_leq rank_leq_col /=. move: RM. rewrite E => RM.
  have H := mxrankM_maxl k X. by rewrite RM in H.
Qed.

(** A full-rank step keeps zero rows. *)
Lemma step_zero_row nn rn N K (f f' : 'M[R]_(nn, rn)) (c c' : 'M[R]_(rn, K)) l (d : 'M[R]_(nn, N)) g (i : 'I_nn) :
  step_ok f f' c c' l d g -> row i f = 0 -> row i (l *m d *m g) = 0 ->
  \rank ((f *m c + l *m d *m g) *m c^T) = rn -> row i f' = 0.
Proof.
  move=> [q []] Oq Cq Of. rewrite /= => Kk _ Rf Rd RK. set k := _ + _ in Kk.
  have Ek : k = (f *m c + l *m d *m g) *m q by rewrite mulmxDl.
  have RKk : \rank k = rn.
    apply: (rank_factor (X := q^T *m c^T) RK). by rewrite Ek -{2}Cq !trmx_mul trmxK !mulmxA.
  have [X EX] : exists X, f' = k *m X.
    have S : (k^T <= f'^T)%MS by rewrite -Kk !trmx_mul trmxK mulmxA; exact: submxMl.
    have E : (k^T :=: f'^T)%MS.
      apply/eqmxP. rewrite S /=. rewrite -(geq_leqif (mxrank_leqif_sup S)) !mxrank_tr RKk. exact: rank_leq_col.
    have : (f'^T <= k^T)%MS by rewrite E. case/submxP => X EX. exists X^T. by rewrite -[f']trmxK EX trmx_mul trmxK.
  by rewrite EX row_mul Ek row_mul !linearD /= row_mul Rf mul0mx Rd addr0 !mul0mx.
Qed.

Lemma step_core nn rn N K (f f' : 'M[R]_(nn, rn)) (c c' : 'M[R]_(rn, K)) l (d : 'M[R]_(nn, N)) g :
  step_ok f f' c c' l d g -> c' = f'^T *m f *m c.
Proof.
  move=> [q []] Oq Cq Of. rewrite /= => _ Ec.
  have : f'^T *m (f' *m c') = f'^T *m f *m c.
    have Z : f'^T *m (1%:M - f' *m f'^T) = 0 by rewrite mulmxBr mulmx1 mulmxA Of mul1mx subrr.
    by rewrite Ec mulmxDr [X in _ + X]mulmxA Z mul0mx addr0 mulmxA.
  by rewrite mulmxA Of mul1mx.
Qed.

(** Rows of the new data seen through the other factors. *)
Lemma data_row n a nn na ra nb rb (t : cell -> R) (A : 'M[R]_(na, ra)) (B : 'M[R]_(nb, rb)) (i : 'I_nn) :
  (forall (y : 'I_na) (z : 'I_nb), t (place n a i y z) = 0 \/ row y A = 0) -> row i (1%:M *m unf n a nn na nb t *m krn A B) = 0.
Proof.
  move=> H. apply/rowP => x. rewrite mul1mx !mxE. apply: big1 => y _. rewrite !mxE.
  case: (H (lo y) (hi y)) => [->|E]; first by rewrite mul0r.
  have -> : A (lo y) (lo x) = 0 by move/rowP: E => /(_ (lo x)); rewrite !mxE.
  by rewrite mul0r mulr0.
Qed.

Section Integrator.
Variables (qr : mat R -> res (mat R * mat R)) (is_one : R -> bool).
Hypotheses (QR : qr_ok qr) (IS1 : forall y, is_one y = true -> y = 1).
Variables (n0 r0 n1 r1 n2 r2 : nat) (u v w : mat R) (core : ten R) (inds : list cell) (vals : list R) (att : option (mat R)).
Variables (un vn wn : mat R) (cn : ten R).
Hypothesis TA : tucker_args n0 r0 n1 r1 n2 r2 u v w core inds vals att.
Hypotheses (Ov : orthonormal n1 r1 v) (Ow : orthonormal n2 r2 w).
Hypothesis E : tucker_integrator (0 : R) +%R *%R (fun x y => x - y) qr is_one u v w core inds vals (n0, n1, n2) att = Ok (un, vn, wn, cn).
Let data := dense (List.combine inds vals).
Hypothesis PR : processed max_points (length inds) = length inds.
Let A := attm n2 att.

Lemma integrator_cold :
  let old0 := unf 0 1 n0 n1 n2 (rep u v w core) in let old1 := unf 1 0 n1 n0 n2 (rep u v w core) in
  [/\ shape n0 r0 un, shape n1 r1 vn,
      \rank ((old0 + unf 0 1 n0 n1 n2 data *m krn 1%:M A) *m old0^T) = r0 -> forall i : 'I_n0,
        row i (mx n0 r0 u) = 0 ->
        (forall (j : 'I_n1) (k : 'I_n2), data (i : nat, j : nat, k : nat) = 0 \/ row j (mx n1 r1 v) = 0) -> row i (mx n0 r0 un) = 0
    & \rank ((old1 + unf 1 0 n1 n0 n2 data *m krn 1%:M (A *m A)) *m krn (proj n0 r0 un) 1%:M *m old1^T) = r1 -> forall j : 'I_n1,
        row j (mx n1 r1 v) = 0 ->
        (forall (i : 'I_n0) (k : 'I_n2), data (i : nat, j : nat, k : nat) = 0 \/ row i (mx n0 r0 un) = 0) -> row j (mx n1 r1 vn) = 0].
Proof.
  move=> old0 old1.
  have [[Hu Hv Hw HA] [[W SH] [[V0 V1 V2] [[L0 L1 L2] [NE LV FR]]]]] := TA.
  have := integrator_formula_main QR IS1 TA. rewrite E => -[c1 [c2 [c3 [[Hun Hvn Hwn] [[Wn Sn P0 P1 P2] Ecn]]]]].
  have SD : dense (done_entries inds vals) = data.
    rewrite /data /done_entries PR List.firstn_all2 // List.combine_length LV PeanoNat.Nat.min_id. exact: le_n.
  rewrite SD -/A in P0 P1. have C1 := step_core P0. have C11 := swap01 C1. rewrite krn_tr trmx_mul trmxK trmx1 in C11.
  split=> //.
  - move=> RK i Ri Hi. apply: (step_zero_row P0 Ri); first by apply: data_row => j k; exact: (Hi j k).
    apply: (rank_factor (X := (mx n0 r0 u)^T) RK). rewrite /old0 (rep_unf0 _ Hu Hv Hw) !trmx_mul trmxK.
    rewrite !mulmxA. congr (_ *m _). congr (_ *m _). rewrite mulmxDl mul1mx -!mulmxA krn_tr !krnM !mul1mx. congr (_ + _).
    by rewrite Ov Ow krn1 mulmx1.
  - move=> RK j Rj Hj. apply: (step_zero_row P1 Rj); first by apply: data_row => i k; exact: (Hj i k).
    apply: (rank_factor (X := (mx n1 r1 v)^T) RK). rewrite /old1 (rep_unf1 _ Hu Hv Hw) !trmx_mul trmxK.
    have C11t : (unf 1 0 r1 r0 r2 (tget 0 c1))^T = krn ((mx n0 r0 un)^T *m mx n0 r0 u) 1%:M *m (unf 1 0 r1 r0 r2 (tget 0 core))^T.
      by rewrite C11 trmx_mul krn_tr trmx_mul trmxK trmx1.
    rewrite C11t C11 /proj !mulmxA. congr (_ *m _). congr (_ *m _).
    rewrite !mulmxDl mul1mx -!mulmxA. rewrite krn_tr !krnM !mul1mx !mulmx1 Ow !mulmxA. done.
Qed.
End Integrator.

(** ** An update *)
Lemma zero_row_get n r (f : mat R) (i : 'I_n) : (forall b, (b < r)%N -> mget 0 f i b = 0) -> row i (mx n r f) = 0.
Proof. move=> H. apply/rowP => b. by rewrite !mxE H. Qed.
Lemma row_get_zero n r (f : mat R) (i : 'I_n) b : row i (mx n r f) = 0 -> (b < r)%N -> mget 0 f i b = 0.
Proof. move=> /rowP H Hb. by have := H (Ordinal Hb); rewrite !mxE. Qed.

Variable of_val : Z -> R.
Hypothesis V0 : of_val Z0 = 0.
Hypothesis VD : forall b z, of_val (Z.add b z) = of_val b + of_val z.
Notation zcell i j k := (Z.of_nat i, Z.of_nat j, Z.of_nat k).

Lemma ents_cell (D : list entry) i j k : (forall e, List.In e D -> [/\ Z.le 0 (e_user e), Z.le 0 (e_item e) & Z.le 0 (e_pos e)]) ->
  dense (ents of_val D) (i, j, k) = of_val (History_spec.cell (zcell i j k) D).
Proof.
  move=> H. set x := mkTiStep MOld 0 0 D D.
  have G l : (forall e, List.In e l -> [/\ Z.le 0 (e_user e), Z.le 0 (e_item e) & Z.le 0 (e_pos e)]) -> List.Forall2 (lands x) l l.
    elim: l => [|e l IH] K; constructor; last by apply: IH => e' He'; apply: K; right.
    by have [H1 H2 H3] := K e (or_introl erefl).
  have := landed_cell (x := x) V0 VD i j k (G D H). rewrite -/(ts_entries x) => <-; first by [].
  by move=> e He; case: (H e He).
Qed.

Variables exceeds_eps is_one : R -> bool.
Hypothesis IS1 : forall b, is_one b = true -> b = 1.
Variables (cfg : nti_cfg) (L : nat) (a ainv : mat R) (att : option (mat R)) (r0 r1 r2 : nat).
Hypotheses (Ha : att_shape L att) (Sa : shape L L a) (Si : shape L L ainv).
Hypotheses (EV : nc_variant cfg = VTIRecAInt) (NR : nc_random cfg = false).
Notation nti_update := (nti_update 0 1 +%R *%R (fun x y => x - y) of_val exceeds_eps is_one cfg L a ainv att).
Variable rt : mode -> routines R.
Hypothesis RT : forall md, rt_ok (rt md).

Lemma add_all_rows (x y : @nti_state R) n m : model_ok r0 r1 r2 L x ->
  add_all (0 : R) 1 +%R *%R (fun x y => x - y) exceeds_eps cfg rt x n m = Ok y ->
  [/\ forall i b, (n_rows x 0 <= i < n_rows x 0 + n)%N -> (b < r0)%N -> mget 0 (factor (nt_fs y) 0) i b = 0
    & forall j b, (n_rows x 1 <= j < n_rows x 1 + m)%N -> (b < r1)%N -> mget 0 (factor (nt_fs y) 1) j b = 0].
Proof.
  move=> [[H0 H1 H2] _ _ _ _]. rewrite /add_all /Nti_model.add_vectors EV NR.
  case Efs : (nt_fs x) H0 H1 H2 => [[u w0] w]; rewrite /factor /n_rows Efs /factor /= => H0 H1 H2.
  have [u2 -> [Hu2 S2]] := zero_rows_ok n H0. cbn [bind]. have [v2 -> [Hv2 T2]] := zero_rows_ok m H1. cbn [bind].
  move=> [<-]. cbn [nt_fs set_factors]. split=> i b /andP [K1 K2] Hb.
  - by rewrite S2 // ltnNge K1 /= zeros_get.
  - by rewrite T2 // ltnNge K1 /= zeros_get.
Qed.

Lemma update_int x st data s x' :
  ti_wf L st -> follows x st -> model_ok r0 r1 r2 L x -> nti_update rt x data s = Ok x' ->
  exists st' y D core, [/\ ti_update VTIRecAInt L st data s = Ok st' /\ D = ti_delta st st',
    [/\ follows x' st', model_ok r0 r1 r2 L x' & position_embeddings 0 +%R *%R a ainv (factor (nt_fs x') 2) = Ok (nt_aw x', nt_last x')],
    [/\ n_rows y 0 = n_rows x' 0, n_rows y 1 = n_rows x' 1, model_ok r0 r1 r2 L y & forall c, value L y c = value L x c],
    (forall i b, (n_rows x 0 <= i < n_rows y 0)%N -> (b < r0)%N -> mget 0 (factor (nt_fs y) 0) i b = 0) /\
    (forall j b, (n_rows x 1 <= j < n_rows y 1)%N -> (b < r1)%N -> mget 0 (factor (nt_fs y) 1) j b = 0)
    & [/\ tucker_integrator 0 +%R *%R (fun y z => y - z) (rt_qr (rt MOld)) is_one (factor (nt_fs y) 0) (factor (nt_fs y) 1) (factor (nt_fs y) 2)
            (nt_core y) (map zc D) (values of_val D) (n_rows y 0, n_rows y 1, L) att
            = Ok (factor (nt_fs x') 0, factor (nt_fs x') 1, factor (nt_fs x') 2, core),
          map zc D <> nil, length (values of_val D) = length (map zc D), List.Forall (cell_range (n_rows y 0, n_rows y 1, L)) (map zc D)
        & forall e, List.In e D -> [/\ Z.le 0 (e_user e), Z.le 0 (e_item e) & Z.le 0 (e_pos e)]]].
Proof.
  move=> W F MO EN. have [F1 F2 F3 [F4 F5]] := F.
  have := update_sim of_val exceeds_eps IS1 cfg Ha Sa Si RT data s W F MO. rewrite EN => -[st' ET [F' M' PE]]. rewrite EV in ET.
  have L1 : (0 < L)%N by case: MO => _ _ _ _ [_ _ _ [_ _ P2] [_ _ N2]]; exact: leq_trans P2 N2.
  have NE : data <> nil.
    move=> Ed. move: ET. by rewrite Ed /ti_update /preprocess_raw_input_data; case: (s).
  have [chunk0 [chunk [ms' [ku [ki [P [ED [ND [_ _]]]]]]]]] := Tirec_assembly.ti_update_ok _ _ _ _ _ _ W ET.
  move: EN.
  rewrite (nti_update_plan _ _ _ _ _ _ _ _ cfg L a ainv att rt st data s W _ _ _ _ _ P x F1 F3).
  have PG := plan_good cfg L st data s W _ _ _ _ _ P. rewrite -ED in PG *.
  set D := ti_delta st st' in ND PG *.
  have [e0 [D0 E0]] : exists e0 D0, D = e0 :: D0 by case: (D) ND => // e0 D0; exists e0, D0.
  rewrite {1}E0. rewrite /plan EV /nti_start /ti_start EV in PG *.
  have MO' : model_ok r0 r1 r2 L (mkNti ms' (nt_history x) (fst (get_train_tensor L (ti_seq st) (List.map triple_of chunk)))
                 (nt_fs x) (nt_core x) (nt_aw x) (nt_last x)) := MO.
  have NV : nc_variant cfg <> VTIRec by rewrite EV.
  have := add_all_ok exceeds_eps RT ku ki NV MO'.
  case EA : (add_all _ _ _ _ _ _ _ _ _ _ _) => [y|e] //. have VA := add_all_value RT NV NR MO' EA. have [ZU ZI] := add_all_rows MO' EA.
  move=> [OF N0 N1 MY].
  have Q0 : n_rows y 0 = (n_rows x 0 + ku)%N := N0. have Q1 : n_rows y 1 = (n_rows x 1 + ki)%N := N1.
  cbn [bind Nti_book.run]. rewrite bind_id.
  case: PG => HR _. 
  have HR' : forall e, List.In e D -> Tirec_proofs.in_range MOld L (Z.of_nat (n_rows y 0)) (Z.of_nat (n_rows y 1)) e.
    move=> e He. have := HR e He. rewrite /nusers /nitems. cbn [ti_urows ti_irows].
    by rewrite !List.app_length !Tirec_proofs.seqZ_length Q0 Q1 F4 F5.
  have [EB NI LV FR] := step_old of_val exceeds_eps is_one cfg att (rt MOld) ND erefl erefl HR'. rewrite /Nti_book.nstep EB.
  case EP : (put _ _) => [x1|//]. have [p EI Ex] := put_ok EP. cbn [bind] => EF.
  case EI' : (tucker_integrator _ _ _ _ _ _ _ _ _ _ _ _ _ _) EI => [[[[un vn] wn] core]|//] [Ep].
  have [X1 X2] : nt_fs x' = nt_fs x1 /\ nt_core x' = nt_core x1.
    move: EF. rewrite /nti_finish. case: position_embeddings => [[aw last]|//]. cbn [bind] => -[<-]. by [].
  have X3 : nt_fs x' = (un, vn, wn) by rewrite X1 Ex -Ep.
  have [R0 R1] : n_rows x' 0 = n_rows y 0 /\ n_rows x' 1 = n_rows y 1.
    have := by_mode_result of_val exceeds_eps IS1 cfg (RT MOld) Ha MY HR'. rewrite EB EP => -[_ _ [K0 K1] _].
    rewrite /= !addn0 in K0 K1. by rewrite -K0 -K1 /n_rows X1.
  exists st', y, D, core. split=> //.
  - by split=> i b; [rewrite Q0|rewrite Q1]; [exact: ZU|exact: ZI].
  - split=> //; first by rewrite EI' X3.
    move=> e He. by have [[? ?] [[? ?] [? ?]]] := HR' e He.
Qed.

Theorem cold_main x st data s x' st' :
  ti_wf L st -> follows x st -> model_ok r0 r1 r2 L x -> nti_update rt x data s = Ok x' -> ti_update VTIRecAInt L st data s = Ok st' ->
  processed max_points (length (ti_delta st st')) = length (ti_delta st st') ->
  sees_users of_val r0 L att x x' ->
  (forall i b, cold_user x x' i -> (i < n_rows x' 0)%N -> (b < r0)%N -> mget 0 (factor (nt_fs x') 0) i b = 0) /\
  (sees_items of_val r0 r1 L att x x' ->
   forall j b, cold_item x x' j -> (j < n_rows x' 1)%N -> (b < r1)%N -> mget 0 (factor (nt_fs x') 1) j b = 0).
Proof.
  move=> W F MO EN ET' PR SU.
  have [st0 [y [D [core [[ET ED] [F' M' _] [R0 R1 MY VY] [ZU ZI] [EI NI LV FR PO]]]]]] := update_int W F MO EN.
  have Est : st0 = st' by move: ET; rewrite ET' => -[]. subst st0.
  have [[H0 H1 H2] [O0 O1 O2] WC SC [V0' V1' V2' [P0 P1 P2] [M0 M1 M2]]] := MY.
  have TA : tucker_args (n_rows y 0) r0 (n_rows y 1) r1 L r2 (factor (nt_fs y) 0) (factor (nt_fs y) 1) (factor (nt_fs y) 2) (nt_core y)
              (map zc D) (values of_val D) att by [].
  have [QR _ _ _ _] := RT MOld.
  have PR' : processed max_points (length (map zc D)) = length (map zc D) by rewrite List.map_length ED.
  have := integrator_cold QR IS1 TA O1 O2 EI PR'. rewrite combine_ents.
  have [_ _ FS [F4 F5]] := F. have [_ _ FS' _] := F'.
  set change := fun c => history_value of_val (nt_seq x') c - history_value of_val (nt_seq x) c.
  have DC i j k : dense (ents of_val D) (i, j, k) = change (i, j, k).
    rewrite (ents_cell _ _ _ PO) ED (delta_cells _ _ _ _ _ _ W ET) (VB VD) /change /history_value FS FS'. by [].
  have UD n p nn na nb : unf n p nn na nb (dense (ents of_val D)) = unf n p nn na nb change.
    by apply/matrixP => i j; rewrite !mxE; case: (place _ _ _ _ _) => [[? ?] ?]; exact: DC.
  rewrite !UD. move=> [_ _ IU II].
  have OLD0 : unf 0 1 (n_rows y 0) (n_rows y 1) L (rep (factor (nt_fs y) 0) (factor (nt_fs y) 1) (factor (nt_fs y) 2) (nt_core y))
    = unf 0 1 (n_rows y 0) (n_rows y 1) L (value L x).
    by apply: unf_eq => i j k Hi Hj Hk; rewrite -VY value_in // /inside /= Hi Hj Hk.
  have OLD1 : unf 1 0 (n_rows y 1) (n_rows y 0) L (rep (factor (nt_fs y) 0) (factor (nt_fs y) 1) (factor (nt_fs y) 2) (nt_core y))
    = unf 1 0 (n_rows y 1) (n_rows y 0) L (value L x).
    by apply: unf_eq => i j k Hi Hj Hk; rewrite -VY value_in // /inside /= Hi Hj Hk.
  rewrite OLD0 in IU. rewrite OLD1 in II.
  have {}SU : \rank ((unf 0 1 (n_rows y 0) (n_rows y 1) L (value L x)
      + unf 0 1 (n_rows y 0) (n_rows y 1) L change *m krn 1%:M (attm L att)) *m (unf 0 1 (n_rows y 0) (n_rows y 1) L (value L x))^T) = r0.
    by move: SU; rewrite /sees_users R0 R1.
  have {}IU := IU SU.
  have OUT i j k : ~~ inside (n_rows x 0) (n_rows x 1) L (i, j, k) -> hist_cell (zcell i j k) (hist_lists (nt_seq x)) = Z0.
    move=> NIN. rewrite FS. case: (Z.eq_dec (hist_cell (zcell i j k) (hist_lists (ti_seq st))) Z0) => // NZ.
    have [B0 [B1 B2]] := history_outside _ _ _ _ _ W NZ. case/negP: NIN. rewrite /inside F4 F5. by apply/and3P; split; apply/ltP.
  have CU i b : cold_user x x' i -> (i < n_rows x' 0)%N -> (b < r0)%N -> mget 0 (factor (nt_fs x') 0) i b = 0.
    rewrite -R0 => -[Ki Ci] Hi Hb. apply: (@row_get_zero _ _ _ (Ordinal Hi)) Hb. apply: IU.
      by apply: zero_row_get => b' Hb'; apply: ZU => //=; rewrite Ki.
    move=> j k. case: (ltnP j (n_rows x 1)) => Hj.
    - left. rewrite /= DC /change /history_value /= (OUT i j k) ?V0 ?subr0; last by rewrite /inside /c0 /= ltnNge Ki.
      case: (Z.eq_dec (hist_cell (zcell i j k) (hist_lists (nt_seq x'))) Z0) => [->|NZ] //.
      by have := Ci j (ex_intro _ (k : nat) NZ); rewrite leqNgt Hj.
    - right. apply: zero_row_get => b' Hb'. apply: ZI => //. by rewrite Hj /=.
  split=> // SI j b. rewrite -R1 => -[Kj Cj] Hj Hb. apply: (@row_get_zero _ _ _ (Ordinal Hj)) Hb. apply: II.
  - by move: SI; rewrite /sees_items R0 R1.
  - by apply: zero_row_get => b' Hb'; apply: ZI => //=; rewrite Kj.
  move=> i k. case: (Z.eq_dec (hist_cell (zcell i j k) (hist_lists (nt_seq x'))) Z0) => [E|NZ].
  - left. rewrite /= DC /change /history_value /= E (OUT i j k) ?subrr //. by rewrite /inside /c1 /= [(j < _)%N]ltnNge Kj andbF.
  - right. apply: zero_row_get => b' Hb'. apply: CU => //; last by rewrite -R0.
    exact: (Cj _ (ex_intro _ (k : nat) NZ)).
Qed.

(** The value of a cell in a zero row. *)
Lemma value_row0 (x : @nti_state R) i j k : model_ok r0 r1 r2 L x ->
  (forall b, (i < n_rows x 0)%N -> (b < r0)%N -> mget 0 (factor (nt_fs x) 0) i b = 0) -> value L x (i, j, k) = 0.
Proof.
  move=> [[H0 H1 H2] _ _ _ _] Z. rewrite /value. case: ifP => // /and3P [K0 _ _]. rewrite /rep3 (repE _ _ _ _ H0 H1 H2).
  apply: big1 => b _. apply: big1 => d _. apply: big1 => e _. by rewrite Z // ?mulr0 ?mul0r.
Qed.
Lemma value_row1 (x : @nti_state R) i j k : model_ok r0 r1 r2 L x ->
  (forall b, (j < n_rows x 1)%N -> (b < r1)%N -> mget 0 (factor (nt_fs x) 1) j b = 0) -> value L x (i, j, k) = 0.
Proof.
  move=> [[H0 H1 H2] _ _ _ _] Z. rewrite /value. case: ifP => // /and3P [_ K1 _]. rewrite /rep3 (repE _ _ _ _ H0 H1 H2).
  apply: big1 => b _. apply: big1 => d _. apply: big1 => e _. by rewrite [mget 0 (factor (nt_fs x) 1) _ _]Z // ?mulr0 ?mul0r.
Qed.

(** Scores of items with a zero row, and of users all of whose items have one. *)
Lemma zero_scores (x : @nti_state R) st u q : ti_wf L st -> follows x st -> model_ok r0 r1 r2 L x ->
  position_embeddings 0 +%R *%R a ainv (factor (nt_fs x) 2) = Ok (nt_aw x, nt_last x) ->
  nti_scores 0 +%R *%R x u = Ok q ->
  (forall j, (forall b, (j < n_rows x 1)%N -> (b < r1)%N -> mget 0 (factor (nt_fs x) 1) j b = 0) -> List.nth j q 0 = 0) /\
  ((forall d j, dget u (nt_seq x) = Some d -> List.In j (latest_first d) ->
      forall b, (Z.to_nat j < n_rows x 1)%N -> (b < r1)%N -> mget 0 (factor (nt_fs x) 1) (Z.to_nat j) b = 0) -> List.Forall (fun z => z = 0) q).
Proof.
  move=> W F MO PE EQ.
  have [[U1 V1 W1] [_ _ OW] _ _ [_ _ _ [_ _ P2] [_ _ L2]]] := MO. have L1 : (0 < L)%N := leq_trans P2 L2.
  have EW : mr (factor (nt_fs x) 2) = L by case: W1.
  have Hp : (L.-1 < L)%N by rewrite prednK.
  have [e Ee] : exists e : 'I_L, (e : nat) = L.-1 by exists (Ordinal Hp).
  have [A1 A2 WT] := weight Sa Si W1 Ee PE.
  move: EQ. rewrite /nti_scores.
  have K := Attention_main.user_scores_main _ _ _ _ _ _ (LinAlg_bridge.RT [comRingType of R]) (nt_seq x) (factor (nt_fs x) 1) (factor (nt_fs x) 2) (nt_aw x) (nt_last x) u.
  rewrite EW in K. case: (K A1 A2) => K0 {}K.
  case D : (dget u (nt_seq x)) => [d|]; last by rewrite K0.
  case: (K d D) => H0 [_ H1]. rewrite (proj1 V1) in H1. set h := Nat.min _ _ in H0 H1.
  case: (Nat.eq_dec h 0) => Hh; first by rewrite H0.
  have HI t : (t < h)%coq_nat -> List.In (List.nth t (latest_first d) Z0) (latest_first d).
    move=> Ht. apply: List.nth_In. by move: (Nat.le_min_l (length (latest_first d)) (L - 1)%coq_nat); rewrite -/h; lia.
  have RG t : (t < h)%coq_nat -> Z.le 0 (List.nth t (latest_first d) Z0) /\ Z.lt (List.nth t (latest_first d) Z0) (Z.of_nat (n_rows x 1)).
    move=> Ht. apply: (items_inside W F D). by move: (Nat.le_min_l (length (latest_first d)) (L - 1)%coq_nat); rewrite -/h; lia.
  case: (H1 ltac:(lia) RG) => q' [-> [LQ Q]] [<-]. split.
  - move=> j Zj. case: (PeanoNat.Nat.lt_ge_cases j (n_rows x 1)) => Hj; last by rewrite List.nth_overflow // LQ.
    rewrite Q // sumn_big big1 // => t _. rewrite /inner sumn_big big1 ?mul0r // => b _.
    by rewrite Zj ?mul0r // -?(proj2 V1) //; apply/ltP.
  - move=> ZR. apply/List.Forall_forall => z /(List.In_nth _ _ 0) [j [Hj <-]].
    rewrite Q; last by rewrite -LQ. rewrite sumn_big big1 // => t _. rewrite /inner sumn_big big1 ?mul0r // => b _.
    have HT : (t < h)%coq_nat by apply/ltP; exact: ltn_ord.
    have [G0 G1] := RG t HT. rewrite (ZR d _ erefl (HI t HT)) ?mulr0 // -?(proj2 V1) //. by apply/ltP; lia.
Qed.

(** A user of [x'] all of whose items are cold. *)
Theorem newcomers_main x st data s x' st' :
  ti_wf L st -> follows x st -> model_ok r0 r1 r2 L x -> nti_update rt x data s = Ok x' -> ti_update VTIRecAInt L st data s = Ok st' ->
  processed max_points (length (ti_delta st st')) = length (ti_delta st st') ->
  sees_users of_val r0 L att x x' ->
  (forall i j k, cold_user x x' i -> value L x' (i, j, k) = 0) /\
  (sees_items of_val r0 r1 L att x x' ->
   [/\ forall i j k, cold_item x x' j -> value L x' (i, j, k) = 0,
       forall u q j, nti_scores 0 +%R *%R x' u = Ok q -> cold_item x x' j -> List.nth j q 0 = 0
     & forall u q d, nti_scores 0 +%R *%R x' u = Ok q -> dget u (nt_seq x') = Some d ->
         (forall j, List.In j (latest_first d) -> cold_item x x' (Z.to_nat j)) -> List.Forall (fun z => z = 0) q]).
Proof.
  move=> W F MO EN ET PR SU. have [CU CI] := cold_main W F MO EN ET PR SU.
  have [st0 [_ [_ [_ [[ET0 _] [F' M' PE] _ _ _]]]]] := update_int W F MO EN.
  have Est : st0 = st' by move: ET0; rewrite ET => -[]. subst st0.
  have [W' _] := Tirec_assembly.tirec_partition_main _ _ _ _ _ _ W ET.
  split; first by move=> i j k Hi; apply: (value_row0 _ _ M') => b Hi' Hb; exact: CU.
  move=> /CI {}CI. 
  split.
  - by move=> i j k Hj; apply: (value_row1 _ _ M') => b Hj' Hb; exact: CI.
  - move=> u q j EQ Hj. have [ZS _] := zero_scores W' F' M' PE EQ. by apply: ZS => b Hj' Hb; exact: CI.
  - move=> u q d EQ Ed Hd. have [_ ZS] := zero_scores W' F' M' PE EQ. apply: ZS => d' j. rewrite Ed => -[<-] HIn b Hj' Hb. by apply: CI => //; exact: Hd.
Qed.
End Cold.
