(** One step of an update with factors, without attention: when the represented tensor gains
    exactly the entries of the step. *)
From Coq Require Import ZArith.
From Verif Require Import Prelude Prelude_proofs DataPrep_model DataPrep_spec History_model History_spec Psi_model Tirec_model Tirec_spec
  Tensor_model Tensor_spec Tensor_main Matrix_model Attention_model LinAlg_model Tucker_model Hooi_model Upd_model Nti_model Nti_book.
From Verif Require Tirec_proofs Tirec_main Tirec_assembly History_proofs.
Set Warnings "-notation-overridden".
From mathcomp Require Import all_ssreflect all_algebra.
From Verif Require Import LinAlg_spec LinAlg_bridge LinAlg_emb Tucker_spec Tucker_bridge Tucker_main Tucker_emb Tucker_integ Hooi_spec Hooi_bridge
  Upd_spec Upd_block Upd_new Exact_spec Exact_main Exact_final Nti_spec Nti_steps Nti_rank.
From Verif Require Num_steps.
Set Implicit Arguments.
Unset Strict Implicit.
Unset Printing Implicit Defensive.
Import GRing.Theory.
Local Open Scope ring_scope.

Section Dense.
Variable R : comRingType.

Lemma dense_cat (a b : list (cell * R)) c : dense (a ++ b)%list c = dense a c + dense b c.
Proof. rewrite /dense. change (a ++ b)%list with (a ++ b). by rewrite big_cat. Qed.
Lemma dense_nil c : dense (R := R) [::] c = 0.
Proof. by rewrite /dense big_nil. Qed.

Definition shift (a b : nat) (e : cell * R) : cell * R := (((a + c0 e.1)%N, (b + c1 e.1)%N, c2 e.1), e.2).
Lemma dense_shift a b es i j k : dense (map (shift a b) es) (i, j, k)
  = if (a <= i)%N && (b <= j)%N then dense es ((i - a)%N, (j - b)%N, k) else 0.
Proof.
  rewrite /dense big_map /=. case: ifP => H.
  - apply: eq_bigl => -[[[x y] z] q] /=. rewrite /c0 /c1 /c2 /=. move/andP: H => [H1 H2].
    by rewrite !xpair_eqE -(eqn_add2l a x) -(eqn_add2l b y) !subnKC.
  - rewrite big1 // => -[[[x y] z] q] /= /eqP [E1 E2 E3]. move: H. by rewrite -E1 -E2 /c0 /c1 /= !leq_addr.
Qed.

Lemma dense_out n0 n1 n2 (es : list (cell * R)) c : List.Forall (cell_range (n0, n1, n2)) (map fst es) ->
  ~~ inside n0 n1 n2 c -> dense es c = 0.
Proof.
  move=> H NI. rewrite /dense. elim: es H => [|e es IH] H; first by rewrite big_nil.
  rewrite big_cons. case: eqP => E; last by apply: IH; inversion H.
  exfalso. move/negP: NI; apply. have [K1 [K2 K3]] := List.Forall_inv H. rewrite -E.
  by apply/and3P; split; apply/ltP.
Qed.
End Dense.

Section Step.
Variable R : realFieldType.
Variable of_val : Z -> R.
Variables exceeds_eps is_one : R -> bool.
Hypothesis IS1 : forall y, is_one y = true -> y = 1.
Notation nti_by_mode := (nti_by_mode (0 : R) 1 +%R *%R (fun x y => x - y) of_val exceeds_eps is_one).
Notation add_vectors := (add_vectors (0 : R) 1 +%R *%R (fun x y => x - y) exceeds_eps).

Definition gain (v : variant) (s : ti_step) : list (cell * R) := if ti_uses_values v (ts_mode s) then landed of_val s else [::].
Lemma added_cons v s l : added of_val v (s :: l) = (gain v s ++ added of_val v l)%list.
Proof. rewrite /added /gain /=. by case: ti_uses_values. Qed.
Lemma added_app v l1 l2 : added of_val v (l1 ++ l2)%list = (added of_val v l1 ++ added of_val v l2)%list.
Proof. elim: l1 => [|s l1 IH] //. by rewrite [(_ ++ _)%list]/= !added_cons IH List.app_assoc. Qed.

Lemma landed_shift md n0 n1 d loc : (forall e, List.In e loc -> (Z.le 0 (e_user e) /\ Z.le 0 (e_item e))) ->
  landed of_val (mkTiStep md (Z.of_nat n0) (Z.of_nat n1) d loc) = map (shift (offu md n0) (offi md n1)) (ents of_val loc).
Proof.
  move=> H. rewrite /landed /ents -map_comp. set s := mkTiStep _ _ _ _ _.
  have G : forall l : list entry, (forall e, List.In e l -> (Z.le 0 (e_user e) /\ Z.le 0 (e_item e))) ->
    [seq ((Z.to_nat (fst (target s e)), Z.to_nat (snd (target s e)), Z.to_nat (e_pos e)), of_val e.2) | e <- l]
    = map (shift (offu md n0) (offi md n1) \o (fun e => (zc e, of_val e.2))) l.
    elim=> [|e l IH] K //=. rewrite IH; last by move=> e' He'; apply: K; right.
    congr (_ :: _). have [H1 H2] := K e (or_introl erefl).
    have [-> ->] := target_nat md n0 n1 d loc e H1 H2. by [].
  exact: G.
Qed.

Lemma span_sum n a nn na nb (P : 'M[R]_nn) (T : cell -> R) : P *m unf n a nn na nb T = unf n a nn na nb T -> P^T = P ->
  forall (i : 'I_nn) y z, (y < na)%N -> (z < nb)%N ->
  \sum_(i' < nn) T (place n a i' y z) * P i' i = T (place n a i y z).
Proof.
  move=> E S i y z Hy Hz. have := congr1 (fun M : 'M[R]_(nn, na * nb) => M i (lohi (Ordinal Hy) (Ordinal Hz))) E.
  rewrite /= [in RHS]mxE lo_lohi hi_lohi /= => <-. rewrite mxE. apply: eq_bigr => i' _.
  by rewrite [unf _ _ _ _ _ _ _ _]mxE lo_lohi hi_lohi /= mulrC -{1}S mxE.
Qed.
Lemma proj_sym n r (f : mat R) : (proj n r f)^T = proj n r f.
Proof. by rewrite /proj trmx_mul trmxK. Qed.

(** New vectors of a mode [n] with the other large mode [a]. *)
Lemma vectors_step rt explicit mode n a nn rn na ra L rb c (fs : @factors R) core nv fs' core' (es : list (cell * R)) (T : cell -> R) :
  rt_ok rt -> rt_lossless rt ->
  modes mode n a 2 -> factors_at n a 2 nn rn na ra L rb fs core -> shape c (na * L) nv ->
  mx c (na * L) nv = unf n a c na L (dense es) ->
  (0 < rn)%N -> (rn <= na * L)%N -> (c <= na * L)%N ->
  orthonormal nn rn (factor fs n) -> orthonormal na ra (factor fs a) -> orthonormal L rb (factor fs 2) ->
  update_tucker_new_vectors (0 : R) 1 +%R *%R (fun x y => x - y) (rt_qr rt) (rt_svds rt) (rt_rsvd1 rt) (rt_rsvd2 rt) exceeds_eps
    explicit fs core nv n = Ok (fs', core') ->
  (forall i y z, (i < nn)%N -> (y < na)%N -> (z < L)%N -> T (place n a i y z) = rep3 fs core (place n a i y z)) ->
  (forall i y z, (i < c)%N -> (y < na)%N -> (z < L)%N -> T (place n a (nn + i)%N y z) = dense es (place n a i y z)) ->
  (\rank (unf n a (nn + c) na L T) <= rn)%N ->
  (forall i (y : 'I_na) z, (i < nn + c)%N -> (z < L)%N ->
     \sum_(y' < na) T (place n a i y' z) * proj na ra (factor fs a) y' y = T (place n a i y z)) ->
  (forall i y (z : 'I_L), (i < nn + c)%N -> (y < na)%N ->
     \sum_(z' < L) T (place n a i y z') * proj L rb (factor fs 2) z' z = T (place n a i y z)) ->
  forall i y z, (i < nn + c)%N -> (y < na)%N -> (z < L)%N -> rep3 fs' core' (place n a i y z) = T (place n a i y z).
Proof.
  move=> [QR SV [T1 T2] _ _] [L1 L2 _] M FA Hnv Env Hp Hr Hc On Oa Ob E T_old T_new RK SA SW.
  have LR : low_rank rn (col_mx (unf n a nn na L (rep3 fs core)) (mx c (na * L) nv)).
    apply: Num_steps.rank_low. move: RK. congr (is_true (leq (\rank _) _)). apply/matrixP => i j. rewrite !mxE.
    case: splitP => i' Ei; rewrite Ei.
    - by rewrite [RHS]mxE T_old.
    - by rewrite Env [RHS]mxE T_new.
  have [OLD NEW] := new_vectors_low QR SV T1 T2 L1 L2 M FA Hnv Hp Hr Hc On Oa Ob E LR.
  move=> i y z Hi Hy Hz. case: (ltnP i nn) => H; first by rewrite OLD // T_old.
  have Ei : i = (nn + (i - nn))%N by rewrite subnKC.
  have Hi' : (i - nn < c)%N by rewrite ltn_subLR.
  rewrite {1}Ei (NEW _ (Ordinal Hy) (Ordinal Hz) Hi') /=.
  rewrite -[RHS](SW i y (Ordinal Hz) Hi Hy) exchange_big /=. apply: eq_bigr => z' _.
  rewrite -[in RHS](SA i (Ordinal Hy) z' Hi (ltn_ord z')) big_distrl /=. apply: eq_bigr => y' _. congr (_ * _ * _).
  rewrite {2}Ei T_new //. have := congr1 (fun M : 'M[R]_(c, na * L) => M (Ordinal Hi') (lohi y' z')) Env.
  by rewrite /= mxE [in RHS]mxE lo_lohi hi_lohi.
Qed.

(** ** One step of the model *)
Lemma value_in L (x : @nti_state R) c : inside (n_rows x 0) (n_rows x 1) L c -> value L x c = rep3 (nt_fs x) (nt_core x) c.
Proof. by rewrite /value => ->. Qed.
Lemma value_out L (x : @nti_state R) c : ~~ inside (n_rows x 0) (n_rows x 1) L c -> value L x c = 0.
Proof. by rewrite /value => /negbTE ->. Qed.

Lemma landed_dense0 md L n0 n1 d loc i j k :
  (forall e, List.In e d -> Tirec_proofs.in_range md L (Z.of_nat n0) (Z.of_nat n1) e) -> List.Forall2 (is_local md d) d loc ->
  dense (landed of_val (mkTiStep md (Z.of_nat n0) (Z.of_nat n1) d loc)) (i, j, k)
  = if (offu md n0 <= i)%N && (offi md n1 <= j)%N then dense (ents of_val loc) ((i - offu md n0)%N, (j - offi md n1)%N, k) else 0.
Proof.
  move=> HR FL. have B := localize_range _ _ _ _ _ _ HR FL.
  rewrite landed_shift; first exact: dense_shift. by move=> e /B [[H1 _] [[H2 _] _]].
Qed.
Lemma landed_early0 md L n0 n1 d loc c :
  (forall e, List.In e d -> Tirec_proofs.in_range md L (Z.of_nat n0) (Z.of_nat n1) e) -> List.Forall2 (is_local md d) d loc ->
  md <> MOld -> inside n0 n1 L c -> dense (landed of_val (mkTiStep md (Z.of_nat n0) (Z.of_nat n1) d loc)) c = 0.
Proof.
  case: c => [[i j] k] HR FL NM /and3P [K1 K2 K3]. rewrite (landed_dense0 _ _ _ HR FL). rewrite /c0 /c1 /= in K1 K2.
  case: ifP => // /andP [H1 H2]. case: md NM H1 H2 {HR FL} => //= _ H1 H2; move: K1 K2; rewrite !ltnNge; [by rewrite H1|by rewrite H1|by rewrite H2].
Qed.

Section One.
Variables (cfg : nti_cfg) (L : nat) (rt : routines R) (r0 r1 r2 : nat) (x x' : @nti_state R).
Variables (d loc : list entry) (md : mode).
Notation n0 := (n_rows x 0). Notation n1 := (n_rows x 1). Notation n0' := (n_rows x' 0). Notation n1' := (n_rows x' 1).
Notation v := (nc_variant cfg).
Hypotheses (RT : rt_ok rt) (LL : rt_lossless rt) (MO : model_ok r0 r1 r2 L x).
Hypothesis HR : forall e, List.In e d -> Tirec_proofs.in_range md L (Z.of_nat n0) (Z.of_nat n1) e.
Hypotheses (EL : localize md d = Ok loc) (FL : List.Forall2 (is_local md d) d loc).
Hypotheses (N0 : n0' = (n0 + length (Tirec_proofs.up_u md d))%N) (N1 : n1' = (n1 + length (Tirec_proofs.up_i md d))%N).
Let s := mkTiStep md (Z.of_nat n0) (Z.of_nat n1) d loc.
Definition extended (c : cell) : R := value L x c + dense (gain v s) c.

Let B := localize_range _ _ _ _ _ _ HR FL.
Lemma box_u : n0' = (offu md n0 + su md n0 d)%N.
Proof. rewrite N0. by case: md; rewrite /= ?addn0. Qed.
Lemma box_i : n1' = (offi md n1 + si md n1 d)%N.
Proof. rewrite N1. by case: md; rewrite /= ?addn0. Qed.

Lemma landed_dense i j k : dense (landed of_val s) (i, j, k)
  = if (offu md n0 <= i)%N && (offi md n1 <= j)%N then dense (ents of_val loc) ((i - offu md n0)%N, (j - offi md n1)%N, k) else 0.
Proof. exact: landed_dense0 HR FL. Qed.

Lemma landed_out c : ~~ inside n0' n1' L c -> dense (landed of_val s) c = 0.
Proof.
  case: c => [[i j] k] NI. rewrite landed_dense. case: ifP => // /andP [H1 H2].
  have [_ FR _] := nat_coords_ok of_val B.
  apply: (@dense_out _ (su md n0 d) (si md n1 d) L).
    by rewrite /ents -map_comp; exact: FR.
  apply: contra NI. rewrite /inside /c0 /c1 /c2 /= => /and3P [K1 K2 K3].
  rewrite box_u box_i K3 andbT. by rewrite -!ltn_subLR // K1.
Qed.
Lemma landed_early c : md <> MOld -> inside n0 n1 L c -> dense (landed of_val s) c = 0.
Proof. exact: landed_early0 HR FL. Qed.

Lemma extended_out c : ~~ inside n0' n1' L c -> extended c = 0.
Proof.
  move=> NI. rewrite /extended /gain value_out; last first.
    apply: contra NI => /and3P [K1 K2 K3]. apply/and3P; split=> //.
    - by rewrite N0; apply: leq_trans K1 (leq_addr _ _).
    - by rewrite N1; apply: leq_trans K2 (leq_addr _ _).
  rewrite add0r. case: ti_uses_values; [exact: landed_out|exact: dense_nil].
Qed.

(** Conditions on the extended tensor. *)
Definition lossless_step : Prop :=
  match md with
  | MNew => [/\ (\rank (unf 0 1 n0' n1' L extended) <= r0)%N, (\rank (unf 1 0 n1' n0' L extended) <= r1)%N
              & spans_positions r2 L n0' n1' x extended]
  | MNewUsers => if v is VTIRec then
      [/\ (\rank (unf 0 1 n0' n1' L extended) <= r0)%N,
          proj n1 r1 (factor (nt_fs x) 1) *m unf 1 0 n1 n0' L extended = unf 1 0 n1 n0' L extended
        & spans_positions r2 L n0' n1' x extended]
      else nc_random cfg = false
  | MNewItems => if v is VTIRec then
      [/\ (\rank (unf 1 0 n1' n0' L extended) <= r1)%N,
          proj n0 r0 (factor (nt_fs x) 0) *m unf 0 1 n0 n1' L extended = unf 0 1 n0 n1' L extended
        & spans_positions r2 L n0' n1' x extended]
      else nc_random cfg = false
  | MOld => recoverable n0 n1 L extended (value L x) /\ processed max_points (length d) = length d
  end.

End One.

Lemma uses_new v : ti_uses_values v MNew = true.
Proof. by case: v. Qed.
Lemma uses_old v : ti_uses_values v MOld = true.
Proof. by case: v. Qed.

Section Exact.
Variables (cfg : nti_cfg) (L : nat) (rt : routines R) (r0 r1 r2 : nat) (x x' : @nti_state R) (d loc : list entry).
Notation n0 := (n_rows x 0). Notation n1 := (n_rows x 1). Notation n0' := (n_rows x' 0). Notation n1' := (n_rows x' 1).
Notation v := (nc_variant cfg).
Hypotheses (RT : rt_ok rt) (LL : rt_lossless rt) (MO : model_ok r0 r1 r2 L x) (NE : d <> nil).

Definition exact_step (md : mode) : Prop :=
  (forall e, List.In e d -> Tirec_proofs.in_range md L (Z.of_nat n0) (Z.of_nat n1) e) ->
  localize md d = Ok loc -> List.Forall2 (is_local md d) d loc ->
  n0' = (n0 + length (Tirec_proofs.up_u md d))%N -> n1' = (n1 + length (Tirec_proofs.up_i md d))%N ->
  nti_by_mode cfg L None rt x d md = Ok x' -> lossless_step cfg L r0 r1 r2 x x' d loc md ->
  forall c, value L x' c = extended cfg L x d loc md c.

Lemma exact_inside md : 
  ((forall e, List.In e d -> Tirec_proofs.in_range md L (Z.of_nat n0) (Z.of_nat n1) e) ->
  localize md d = Ok loc -> List.Forall2 (is_local md d) d loc ->
  n0' = (n0 + length (Tirec_proofs.up_u md d))%N -> n1' = (n1 + length (Tirec_proofs.up_i md d))%N ->
  nti_by_mode cfg L None rt x d md = Ok x' -> lossless_step cfg L r0 r1 r2 x x' d loc md ->
  forall i j k, (i < n0')%N -> (j < n1')%N -> (k < L)%N ->
    rep3 (nt_fs x') (nt_core x') (i, j, k) = extended cfg L x d loc md (i, j, k)) -> exact_step md.
Proof.
  move=> H HR EL FL N0 N1 E LS c. case I : (inside n0' n1' L c).
  - rewrite value_in //. case: c I => [[i j] k] /and3P [K0 K1 K2]. exact: H.
  - by rewrite value_out ?I // (extended_out _ HR FL N0 N1) ?I.
Qed.

Lemma place_in mode n a b (m0 m1 : nat) i y z : modes mode n a b ->
  inside m0 m1 L (place n a i y z) = [&& (i < axis (m0, m1, L) n)%N, (y < axis (m0, m1, L) a)%N & (z < axis (m0, m1, L) b)%N].
Proof.
  case; rewrite /inside /c0 /c1 /c2 /=; first by [].
  - by rewrite andbCA.
  - by rewrite andbA andbC.
Qed.

Lemma unf_value n a b mode : modes mode n a b ->
  unf n a (axis (n0, n1, L) n) (axis (n0, n1, L) a) (axis (n0, n1, L) b) (value L x)
  = unf n a (axis (n0, n1, L) n) (axis (n0, n1, L) a) (axis (n0, n1, L) b) (rep3 (nt_fs x) (nt_core x)).
Proof. move=> M. apply: unf_eq => i y z Hi Hy Hz. by rewrite value_in // (place_in _ _ _ _ _ M) Hi Hy. Qed.

Lemma keeps_rank m n k p (T : 'M[R]_(m, n)) (U : 'M_(m, k)) (C : 'M_(k, p)) (K : 'M_(n, p)) :
  \rank (T *m (U *m C *m K^T)^T) = \rank T -> exists X, T = T *m K *m C^T *m X.
Proof.
  rewrite !trmx_mul trmxK => H. have H' : \rank (T *m (K *m C^T *m U^T)) = \rank T by rewrite -[RHS]H !mulmxA.
  have [X EX] := Num_steps.rank_factor H'. exists X. by rewrite mulmxA in EX.
Qed.

Lemma exact_old : exact_step MOld.
Proof.
  apply: exact_inside => HR EL FL N0 N1 E [[R0 R1 R2] PR]. case: EL => EL. subst loc.
  rewrite /= !addn0 in N0 N1. rewrite N0 N1.
  have [EB NI LV FR] := step_old of_val exceeds_eps is_one cfg None rt NE erefl erefl HR. rewrite EB in E.
  have [p EI Ex] := put_ok E. 
  case EI' : (tucker_integrator _ _ _ _ _ _ _ _ _ _ _ _ _ _) EI => [[[[u w0] w] core]|//] [Ep].
  rewrite Ex -Ep. move=> {Ex Ep E EB p}.
  have [[H0 H1 H2] [O0 O1 O2] W S [V0 V1 V2 [P0 P1 P2] [M0 M1 M2]]] := MO.
  have [QR _ _ _ _] := RT.
  have TA : tucker_args n0 r0 n1 r1 L r2 (factor (nt_fs x) 0) (factor (nt_fs x) 1) (factor (nt_fs x) 2) (nt_core x)
              (map zc d) (values of_val d) None by [].
  have [FA0 FA1] := tucker_at MO.
  have FA2 : factors_at 2 0 1 L r2 n0 r0 n1 r1 (nt_fs x) (nt_core x) by split=> //; rewrite S.
  move=> i j k Hi Hj Hk.
  have := integrator_exact_plain_main QR IS1 (t := extended cfg L x d d MOld) TA _ O1 O2 _ _ EI'.
  rewrite List.map_length PR => /(_ erefl) H.
  apply: H => //.
  - move=> i' j' k' Hi' Hj' Hk'. rewrite /extended value_in; last by rewrite /inside Hi' Hj'.
    congr (_ + _). rewrite /gain uses_old (landed_dense HR FL) /= !subn0. by rewrite combine_ents.
  - rewrite (unf_value mode_0) (rep3_unf mode_0 FA0) in R0. rewrite (unf_value mode_1) (rep3_unf mode_1 FA1) in R1.
    rewrite (unf_value mode_2) (rep3_unf mode_2 FA2) in R2.
    split.
    + exact: keeps_rank R0.
    + exact: keeps_rank R1.
    + exact: keeps_rank R2.
  - by split; [apply/ltP|split; apply/ltP].
Qed.

Lemma exact_new : exact_step MNew.
Proof.
  apply: exact_inside => HR EL FL N0 N1 E [R0 R1 SW].
  have [EB LV FR] := step_new of_val exceeds_eps is_one cfg None rt x NE HR EL FL. rewrite EB in E.
  have [[fs' core'] EI Ex] := put_ok E. have [-> ->] : nt_fs x' = fs' /\ nt_core x' = core' by rewrite Ex. move=> {Ex E EB}.
  have [[H0 H1 H2] [O0 O1 O2] W S _] := MO. have [_ _ _ [R3 T4] [FULL _]] := RT. have [_ _ L4] := LL.
  move: EI. rewrite [X in update_tucker_new_matrix _ _ _ _ _ _ _ _ _ _ X]surjective_pairing.
  rewrite [X in update_tucker_new_matrix _ _ _ _ _ _ _ _ _ _ (X, _)]surjective_pairing => EI.
  have [_ IFF] := new_matrix_iff R3 T4 L4 FULL H0 H1 H2 W S (I : att_shape L None) LV FR O0 O1 O2 EI.
  rewrite /= in N0 N1. set c := length _ in N0. set m := length _ in N1.
  set T := block_tensor _ _ _ _ _ _ _ _ in IFF.
  have TE : forall i j k, (i < n0 + c)%N -> (j < n1 + m)%N -> (k < L)%N -> T (i, j, k) = extended cfg L x d loc MNew (i, j, k).
    move=> i j k Hi Hj Hk. rewrite /T /block_tensor combine_ents.
    have EXT : extended cfg L x d loc MNew (i, j, k) = value L x (i, j, k)
      + (if (n0 <= i)%N && (n1 <= j)%N then dense (ents of_val loc) ((i - n0)%N, (j - n1)%N, k) else 0).
      by rewrite /extended /gain uses_new (landed_dense HR FL).
    case: ifP => [/andP [K0 K1]|K].
      rewrite EXT value_in; last by rewrite /inside /c0 /c1 /c2 K0 K1.
      by rewrite leqNgt K0 addr0.
    case: ifP => [/andP [K0 K1]|K']; last first.
      rewrite EXT K' addr0 value_out //. by rewrite /inside /c0 /c1 /= andbA K.
    rewrite N0 N1 in SW.
    have := span_sum SW (proj_sym _ _ _) (Ordinal Hk) Hi Hj. rewrite /place /= => <-. apply: eq_bigr => l _.
    rewrite /extended /gain uses_new (landed_dense HR FL) /= K0 K1 /= value_out; last first.
      by rewrite /inside /c0 /= ltnNge K0.
    rewrite add0r mul1mx /proj mxE. congr (_ * _). apply: eq_bigr => y _. by rewrite !mxE.
  move=> i j k. rewrite N0 N1 => Hi Hj Hk. rewrite -TE //. apply: IFF; last by split; [apply/ltP|split; apply/ltP].
  rewrite N0 N1 in R0 R1.
  split; apply: Num_steps.rank_low.
  - rewrite (_ : unf _ _ _ _ _ _ = unf 0 1 (n0 + c) (n1 + m) L (extended cfg L x d loc MNew)) //.
    by apply: unf_eq => a b e Ha Hb He; exact: TE.
  - rewrite (_ : unf _ _ _ _ _ _ = unf 1 0 (n1 + m) (n0 + c) L (extended cfg L x d loc MNew)) //.
    by apply: unf_eq => a b e Ha Hb He; exact: TE.
Qed.

(** Rows of zeros. *)
Lemma zero_rows_value em (da : mat R) r : v <> VTIRec -> nc_random cfg = false ->
  add_vectors cfg rt em da (nt_fs x) (nt_core x) = Ok r -> forall c, value L (set_factors x r.1 r.2) c = value L x c.
Proof.
  move=> NV NR. have [[H0 H1 H2] _ _ _ _] := MO. rewrite /Nti_model.add_vectors NR.
  case Efs : (nt_fs x) H0 H1 H2 => [[u w0] w]; rewrite /factor /= => H0 H1 H2.
  have TZ := tucker_zero_main (mr da) (nt_core x) H0 H1 H2 em.
  move=> E. have {E} : bind (tucker_add_zero 0 em (mr da) u w0) (fun '(u', v') => Ok (u', v', w, nt_core x)) = Ok r by case: v NV E.
  have [u2 [v2 [-> H]]] := TZ. cbn [bind]. case=> <- [[i j] k]. rewrite /value /n_rows /rep3 Efs. cbn [fst snd set_factors nt_fs nt_core].
  rewrite /inside /c0 /c1 /c2 /factor /=. rewrite (proj1 H0) (proj1 H1).
  case: em {TZ} H => [] [K1 K2 K3].
  - rewrite (proj1 K1) K2 (proj1 H1). case: (ltnP i (n0 + mr da)) => Hi /=.
    + rewrite K3 //. by case: (i < n0)%N; case: ((j < n1)%N && (k < L)%N).
    + by rewrite ltnNge (leq_trans (leq_addr _ _) Hi).
  - rewrite K1 (proj1 K2) (proj1 H0). case: (ltnP i n0) => //= _. case: (ltnP j (n1 + mr da)) => Hj /=.
    + rewrite K3 //. by case: (j < n1)%N; case: (k < L)%N.
    + by rewrite ltnNge (leq_trans (leq_addr _ _) Hj).
Qed.

Lemma no_gain md : ti_uses_values v md = false -> forall c, extended cfg L x d loc md c = value L x c.
Proof. move=> H c. by rewrite /extended /gain H dense_nil addr0. Qed.

Lemma exact_users : exact_step MNewUsers.
Proof.
  move=> HR EL FL N0 N1 E LS.
  have [da EB [Sda Mda]] := step_new_users of_val exceeds_eps is_one cfg rt NE erefl (I : att_shape L None) HR EL FL.
  have [p EI Ex] : exists2 p, add_vectors cfg rt EUsers da (nt_fs x) (nt_core x) = Ok p & x' = set_factors x p.1 p.2.
    by apply: put_ok; rewrite -EB; exact: E.
  have NT : v <> VTIRec -> nc_random cfg = false -> forall c, value L x' c = extended cfg L x d loc MNewUsers c.
    move=> NV NR c. rewrite Ex (zero_rows_value NV NR EI). rewrite no_gain //. by case: v NV.
  case Ev : v; [|by apply: NT; [rewrite Ev|move: LS; rewrite /lossless_step Ev]..].
  move: HR EL FL N0 N1 E LS. apply: exact_inside => HR EL FL N0 N1 E. rewrite /lossless_step Ev => -[R0 SA SW].
  rewrite /Nti_model.add_vectors Ev in EI. case: p EI Ex => fs' core' EI Ex.
  have [-> ->] : nt_fs x' = fs' /\ nt_core x' = core' by rewrite Ex.
  have [FA0 _] := tucker_at MO. have [_ [O0 O1 O2] _ _ [V0 V1 V2 [P0 P1 P2] [M0 M1 M2]]] := MO.
  rewrite /= ?addn0 in N0 N1. set c := length _ in N0 Sda Mda.
  have HC : (c <= n1 * L)%N.
    have := by_mode_result of_val exceeds_eps IS1 cfg RT (I : att_shape L None) MO HR.
    rewrite E. case=> SZ _ _ _. move: Ev. by move/size_users: SZ => H /H /leP.
  have L0 : (r0 <= n1 * L)%N by apply: leq_trans V0 _; apply: leq_mul.
  set T := extended cfg L x d loc MNewUsers in R0 SA SW *.
  have TE i j k : T (i, j, k) = value L x (i, j, k)
      + (if (n0 <= i)%N then dense (ents of_val loc) ((i - n0)%N, j, k) else 0).
    by rewrite /T /extended /gain Ev (landed_dense HR FL) /= andbT subn0.
  rewrite /spans_positions N0 N1 in R0 SA SW. rewrite N0 N1 => i j k Hi Hj Hk.
  have := vectors_step RT LL mode_0 FA0 Sda Mda P0 L0 HC O0 O1 O2 EI (T := T) _ _ R0 _ _ Hi Hj Hk. apply.
  - move=> i' y z Hi' Hy Hz. rewrite TE leqNgt Hi' addr0 value_in //. by rewrite /inside /c0 /c1 /c2 Hi' Hy.
  - move=> i' y z Hi' Hy Hz. rewrite TE leq_addr addKn value_out ?add0r //. by rewrite /inside /c0 /= ltnNge leq_addr.
  - move=> i' y z Hi' Hz. exact: (span_sum SA (proj_sym _ _ _) y Hi' Hz).
  - move=> i' y z Hi' Hy. exact: (span_sum SW (proj_sym _ _ _) z Hi' Hy).
Qed.

Lemma exact_items : exact_step MNewItems.
Proof.
  move=> HR EL FL N0 N1 E LS.
  have [da EB [Sda Mda]] := step_new_items of_val exceeds_eps is_one cfg rt NE erefl (I : att_shape L None) HR EL FL.
  have [p EI Ex] : exists2 p, add_vectors cfg rt EItems da (nt_fs x) (nt_core x) = Ok p & x' = set_factors x p.1 p.2.
    by apply: put_ok; rewrite -EB; exact: E.
  have NT : v <> VTIRec -> nc_random cfg = false -> forall c, value L x' c = extended cfg L x d loc MNewItems c.
    move=> NV NR c. rewrite Ex (zero_rows_value NV NR EI). rewrite no_gain //. by case: v NV.
  case Ev : v; [|by apply: NT; [rewrite Ev|move: LS; rewrite /lossless_step Ev]..].
  move: HR EL FL N0 N1 E LS. apply: exact_inside => HR EL FL N0 N1 E. rewrite /lossless_step Ev => -[R0 SA SW].
  rewrite /Nti_model.add_vectors Ev in EI. case: p EI Ex => fs' core' EI Ex.
  have [-> ->] : nt_fs x' = fs' /\ nt_core x' = core' by rewrite Ex.
  have [_ FA1] := tucker_at MO. have [_ [O0 O1 O2] _ _ [V0 V1 V2 [P0 P1 P2] [M0 M1 M2]]] := MO.
  rewrite /= ?addn0 in N0 N1. set c := length _ in N1 Sda Mda.
  have HC : (c <= n0 * L)%N.
    have := by_mode_result of_val exceeds_eps IS1 cfg RT (I : att_shape L None) MO HR.
    rewrite E. case=> SZ _ _ _. move: Ev. by move/size_items: SZ => H /H /leP.
  have L0 : (r1 <= n0 * L)%N by apply: leq_trans V1 _; apply: leq_mul.
  set T := extended cfg L x d loc MNewItems in R0 SA SW *.
  have TE i j k : T (i, j, k) = value L x (i, j, k)
      + (if (n1 <= j)%N then dense (ents of_val loc) (i, (j - n1)%N, k) else 0).
    by rewrite /T /extended /gain Ev (landed_dense HR FL) /= subn0.
  rewrite /spans_positions N0 N1 in R0 SA SW. rewrite N0 N1 => i j k Hi Hj Hk.
  have := vectors_step RT LL mode_1 FA1 Sda Mda P1 L0 HC O1 O0 O2 EI (T := T) _ _ R0 _ _ Hj Hi Hk. apply.
  - move=> i' y z Hi' Hy Hz. rewrite TE leqNgt Hi' addr0 value_in //. by rewrite /inside /c0 /c1 /c2 Hi' Hy.
  - move=> i' y z Hi' Hy Hz. rewrite TE leq_addr addKn value_out ?add0r //. by rewrite /inside /c0 /c1 /= (ltnNge (n1 + _)) leq_addr andbF.
  - move=> i' y z Hi' Hz. exact: (span_sum SA (proj_sym _ _ _) y Hi' Hz).
  - move=> i' y z Hi' Hy. exact: (span_sum SW (proj_sym _ _ _) z Hy Hi').
Qed.

Lemma exact_all md : exact_step md.
Proof. case: md; [exact: exact_new|exact: exact_users|exact: exact_items|exact: exact_old]. Qed.
End Exact.
End Step.
