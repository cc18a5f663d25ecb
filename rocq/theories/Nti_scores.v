(** The scores of a sequential model are determined by the tensor it represents. *)
From Coq Require Import ZArith Lia.
From Verif Require Import Prelude Prelude_proofs DataPrep_model DataPrep_spec History_model History_spec Psi_model Tirec_model Tirec_spec
  Tensor_model Tensor_spec Tensor_main Matrix_model Attention_model Attention_spec LinAlg_model Tucker_model Hooi_model Upd_model Nti_model Nti_book.
From Verif Require Attention_main Tirec_assembly.
Set Warnings "-notation-overridden".
From mathcomp Require Import all_ssreflect all_algebra.
From Verif Require Import LinAlg_spec LinAlg_bridge Tucker_spec Tucker_bridge Tucker_main Hooi_spec Hooi_bridge
  Upd_spec Exact_spec Exact_main Nti_spec Nti_steps Nti_rank Nti_sim Nti_exact Nti_track.
Set Implicit Arguments.
Unset Strict Implicit.
Unset Printing Implicit Defensive.
Import GRing.Theory.
Local Open Scope ring_scope.

Section Scores.
Variable R : realFieldType.

Lemma projector_unique n r p (f g : mat R) (M : 'M[R]_(n, p)) X Y :
  orthonormal n r f -> orthonormal n r g -> M = mx n r f *m X -> M = mx n r g *m Y -> \rank M = r ->
  proj n r f = proj n r g.
Proof.
  move=> Of Og EX EY RM.
  have E1 : proj n r f *m mx n r g = mx n r g by apply: (full_span Of EX EY RM); exact: rank_leq_col.
  have E2 : proj n r g *m mx n r f = mx n r f by apply: (full_span Og EY EX RM); exact: rank_leq_col.
  have F1 : proj n r f *m proj n r g = proj n r g by rewrite {2}/proj mulmxA E1.
  have F2 : proj n r g *m proj n r f = proj n r f by rewrite {2}/proj mulmxA E2.
  have F3 := congr1 trmx F1. rewrite trmx_mul !proj_sym in F3. by rewrite -F2 F3.
Qed.

Lemma weight a ainv L r (w : mat R) l aw (e : 'I_L) : shape L L a -> shape L L ainv -> shape L r w -> (e : nat) = L.-1 ->
  position_embeddings 0 +%R *%R a ainv w = Ok (aw, l) ->
  [/\ mr aw = L, mc aw = length l
    & forall p : 'I_L, inner 0 +%R *%R (mc aw) (mget 0 aw p) (fun c => List.nth c l 0)
      = (mx L L a *m proj L r w *m mx L L ainv) p e].
Proof.
  move=> SA SI SW Ee. rewrite /position_embeddings.
  have [aw0 -> [[A1 A2] EA]] := dot_ok SA SW. cbn [bind]. have [ST ET] := transpose_ok SI.
  have [x -> [[X1 X2] EX]] := dot_ok ST SW. cbn [bind]. rewrite /last_row X1.
  case EL : (Nat.eqb L 0) => //=; cbn [bind]. move=> [<- <-]. rewrite A2 X2. split=> //; first by rewrite List.map_length List.seq_length.
  move=> p. rewrite /inner sumn_big.
  transitivity ((mx L r aw0 *m (mx L r x)^T) p e); last by rewrite EA EX ET trmx_mul trmxK /proj !mulmxA.
  rewrite !mxE. apply: eq_bigr => c _. rewrite !mxE Ee. congr (_ * _).
  rewrite Attention_main.nth_map_seq ?subn1 //; first by rewrite Nat.sub_1_r.
  by apply/ltP; exact: ltn_ord.
Qed.

(** The items of a known user are rows of the item factor. *)
Lemma items_inside L (x : @nti_state R) st u d : ti_wf L st -> follows x st -> dget u (nt_seq x) = Some d ->
  forall t, (t < length (latest_first d))%coq_nat ->
  Z.le 0 (List.nth t (latest_first d) Z0) /\ Z.lt (List.nth t (latest_first d) Z0) (Z.of_nat (n_rows x 1)).
Proof.
  move=> W F D t Ht. have HI : List.In (List.nth t (latest_first d) Z0) (latest_first d) by exact: List.nth_In.
  move: HI. move: (List.nth t (latest_first d) Z0) => j. rewrite /latest_first -List.in_rev => /List.filter_In [HI NP].
  case: W => _ [_ [_ [_ [_ [_ [_ [_ [_ WS]]]]]]]]. case: F => _ _ FS [_ ->]. rewrite FS in D.
  case: (WS u d D) => _ [_ [WJ _]]. case: (WJ j HI) => // EP. move: NP. by rewrite EP Z.eqb_refl.
Qed.

(** With as many position columns as positions every score is 0. *)
Lemma full_positions r0 r1 L (a ainv : mat R) (x : @nti_state R) st :
  shape L L a -> shape L L ainv -> mx L L a *m mx L L ainv = 1%:M ->
  ti_wf L st -> follows x st -> model_ok r0 r1 L L x ->
  position_embeddings 0 +%R *%R a ainv (factor (nt_fs x) 2) = Ok (nt_aw x, nt_last x) ->
  forall u q, nti_scores 0 +%R *%R x u = Ok q -> List.Forall (fun z => z = 0) q.
Proof.
  move=> SA SI AI W F MO PE u q EQ.
  have [[U1 V1 W1] [_ _ OW] _ _ [_ _ _ [_ _ L1] _]] := MO.
  have EW : mr (factor (nt_fs x) 2) = L by case: W1.
  have Hp : (L.-1 < L)%N by rewrite prednK.
  have [e Ee] : exists e : 'I_L, (e : nat) = L.-1 by exists (Ordinal Hp).
  have [A1 A2 WT] := weight SA SI W1 Ee PE.
  have PI : proj L L (factor (nt_fs x) 2) = 1%:M by rewrite /proj; exact: mulmx1C OW.
  move: EQ. rewrite /nti_scores.
  have K := Attention_main.user_scores_main _ _ _ _ _ _ (RT [comRingType of R]) (nt_seq x) (factor (nt_fs x) 1) (factor (nt_fs x) 2) (nt_aw x) (nt_last x) u.
  rewrite EW in K. case: (K A1 A2) => K0 {}K.
  case D : (dget u (nt_seq x)) => [d|]; last by rewrite K0.
  case: (K d D) => H0 [_ H1]. rewrite (proj1 V1) in H1. set h := Nat.min _ _ in H0 H1.
  case: (Nat.eq_dec h 0) => Hh; first by rewrite H0.
  have RG t : (t < h)%coq_nat -> Z.le 0 (List.nth t (latest_first d) Z0) /\ Z.lt (List.nth t (latest_first d) Z0) (Z.of_nat (n_rows x 1)).
    move=> Ht. apply: (items_inside W F D). by move: (Nat.le_min_l (length (latest_first d)) (L - 1)%coq_nat); rewrite -/h; lia.
  case: (H1 ltac:(lia) RG) => q' [-> [LQ Q]] [<-]. apply/List.Forall_forall => z /(List.In_nth _ _ 0) [j [Hj <-]].
  rewrite Q; last by rewrite -LQ. rewrite sumn_big big1 // => t _.
  have HP : (((L - 2)%coq_nat - t)%coq_nat < L)%N by apply/ltP; move/ltP: L1; lia.
  have HT : (t < h)%coq_nat by apply/ltP; exact: ltn_ord.
  have HL : (h <= L - 1)%coq_nat by exact: Nat.le_min_r.
  rewrite (WT (Ordinal HP)) PI mulmx1 AI !mxE. case: eqP => [E|_]; last by rewrite mulr0.
  exfalso. move: (congr1 val E). rewrite /= Ee => {}E. move: E. rewrite -subn1 minusE. move/ltP: L1. rewrite -!minusE. lia.
Qed.

(** Two models with the same histories, the same attention matrices and the same tensor of
    full second and third rank give the same scores. *)
Lemma scores_by_tensor r0 r0' r1 r2 L (a ainv : mat R) (x y : @nti_state R) st :
  shape L L a -> shape L L ainv ->
  ti_wf L st -> follows x st -> nt_seq x = nt_seq y ->
  model_ok r0 r1 r2 L x -> model_ok r0' r1 r2 L y ->
  position_embeddings 0 +%R *%R a ainv (factor (nt_fs x) 2) = Ok (nt_aw x, nt_last x) ->
  position_embeddings 0 +%R *%R a ainv (factor (nt_fs y) 2) = Ok (nt_aw y, nt_last y) ->
  n_rows y 0 = n_rows x 0 -> n_rows y 1 = n_rows x 1 -> (forall c, value L x c = value L y c) ->
  \rank (unf 1 0 (n_rows x 1) (n_rows x 0) L (value L x)) = r1 ->
  \rank (unf 2 0 L (n_rows x 0) (n_rows x 1) (value L x)) = r2 ->
  forall u, nti_scores 0 +%R *%R x u = nti_scores 0 +%R *%R y u.
Proof.
  move=> SA SI W F ES MO MO' PE PE' N0 N1 V R1 R2 u.
  have [[U1 V1 W1] [OU1 OV1 OW1] TW1 TS1 [_ _ _ [_ _ P2] [_ _ L2]]] := MO.
  have := MO'. rewrite /model_ok N0 N1 => -[[U2 V2 W2] [OU2 OV2 OW2] TW2 TS2 _].
  have L1 : (0 < L)%N := leq_trans P2 L2.
  have EW : mr (factor (nt_fs x) 2) = L by case: W1.
  have EW' : mr (factor (nt_fs y) 2) = L by case: W2.
  have Hp : (L.-1 < L)%N by rewrite prednK.
  have [e Ee] : exists e : 'I_L, (e : nat) = L.-1 by exists (Ordinal Hp).
  have [A1 A2 WT] := weight SA SI W1 Ee PE. have [B1 B2 WT'] := weight SA SI W2 Ee PE'.
  have T1 : unf 1 0 (n_rows x 1) (n_rows x 0) L (value L x) = unf 1 0 (n_rows x 1) (n_rows x 0) L (rep3 (nt_fs x) (nt_core x)).
    by apply: unf_eq => i j k Hi Hj Hk; rewrite value_in // /inside /= Hi Hj Hk.
  have T1' : unf 1 0 (n_rows x 1) (n_rows x 0) L (value L x) = unf 1 0 (n_rows x 1) (n_rows x 0) L (rep3 (nt_fs y) (nt_core y)).
    by apply: unf_eq => i j k Hi Hj Hk; rewrite V value_in // /inside /= N0 N1 Hi Hj Hk.
  have T2 : unf 2 0 L (n_rows x 0) (n_rows x 1) (value L x) = unf 2 0 L (n_rows x 0) (n_rows x 1) (rep3 (nt_fs x) (nt_core x)).
    by apply: unf_eq => i j k Hi Hj Hk; rewrite value_in // /inside /= Hi Hj Hk.
  have T2' : unf 2 0 L (n_rows x 0) (n_rows x 1) (value L x) = unf 2 0 L (n_rows x 0) (n_rows x 1) (rep3 (nt_fs y) (nt_core y)).
    by apply: unf_eq => i j k Hi Hj Hk; rewrite V value_in // /inside /= N0 N1 Hi Hj Hk.
  have PV : proj (n_rows x 1) r1 (factor (nt_fs x) 1) = proj (n_rows x 1) r1 (factor (nt_fs y) 1).
    have EX := T1. rewrite /rep3 (rep_unf1 _ U1 V1 W1) -mulmxA in EX.
    have EY := T1'. rewrite /rep3 (rep_unf1 _ U2 V2 W2) -mulmxA in EY.
    exact: (projector_unique OV1 OV2 EX EY R1).
  have PW : proj L r2 (factor (nt_fs x) 2) = proj L r2 (factor (nt_fs y) 2).
    have EX := T2. rewrite /rep3 (rep_unf2 _ U1 V1 W1) -mulmxA in EX.
    have EY := T2'. rewrite /rep3 (rep_unf2 _ U2 V2 W2) -mulmxA in EY.
    exact: (projector_unique OW1 OW2 EX EY R2).
  rewrite /nti_scores -ES.
  have K := Attention_main.user_scores_main _ _ _ _ _ _ (RT [comRingType of R]) (nt_seq x) (factor (nt_fs x) 1) (factor (nt_fs x) 2) (nt_aw x) (nt_last x) u.
  have K' := Attention_main.user_scores_main _ _ _ _ _ _ (RT [comRingType of R]) (nt_seq x) (factor (nt_fs y) 1) (factor (nt_fs y) 2) (nt_aw y) (nt_last y) u.
  rewrite EW in K. rewrite EW' in K'. case: (K A1 A2) => K0 {}K. case: (K' B1 B2) => K0' {}K'.
  case D : (dget u (nt_seq x)) => [d|]; last by rewrite K0 // K0'.
  case: (K d D) => H0 [_ H1]. case: (K' d D) => H0' [_ H1']. rewrite (proj1 V1) in H1. rewrite (proj1 V2) in H1'.
  set h := Nat.min _ _ in H0 H1 H0' H1'.
  case: (Nat.eq_dec h 0) => Hh; first by rewrite H0 // H0'.
  have RG : forall t, (t < h)%coq_nat -> Z.le 0 (List.nth t (latest_first d) Z0) /\ Z.lt (List.nth t (latest_first d) Z0) (Z.of_nat (n_rows x 1)).
    move=> t Ht. apply: (items_inside W F D). by move: (Nat.le_min_l (length (latest_first d)) (L - 1)%coq_nat); rewrite -/h; lia.
  case: (H1 ltac:(lia) RG) => q [-> [LQ Q]]. case: (H1' ltac:(lia) RG) => q' [-> [LQ' Q']]. congr Ok.
  apply: (List.nth_ext _ _ 0 0); first by rewrite LQ LQ'.
  rewrite LQ => j Hj. rewrite Q // Q' // !sumn_big. apply: eq_bigr => t _. congr (_ * _).
  - have [P0 P1] := RG t ltac:(apply/ltP; exact: ltn_ord).
    have Hj' : (j < n_rows x 1)%N by apply/ltP. have Hi : (Z.to_nat (List.nth t (latest_first d) Z0) < n_rows x 1)%N by apply/ltP; lia.
    have := congr1 (fun M : 'M_(n_rows x 1) => M (Ordinal Hj') (Ordinal Hi)) PV. rewrite /inner !sumn_big (proj2 V1) (proj2 V2) /proj !mxE.
    by under eq_bigr do rewrite !mxE; under [in X in _ = X -> _]eq_bigr do rewrite !mxE.
  - have HP : (((L - 2)%coq_nat - t)%coq_nat < L)%N by apply/ltP; move/ltP: L1; lia.
    by rewrite (WT (Ordinal HP)) (WT' (Ordinal HP)) PW.
Qed.

Variable of_val : Z -> R.
Hypothesis V0 : of_val Z0 = 0.
Hypothesis VD : forall b z, of_val (Z.add b z) = of_val b + of_val z.
Variables exceeds_eps is_one : R -> bool.
Hypothesis IS1 : forall b, is_one b = true -> b = 1.
Variables (cfg : nti_cfg) (L : nat) (a ainv : mat R) (r0 r1 r2 : nat).
Hypotheses (Sa : shape L L a) (Si : shape L L ainv).
Notation v := (nc_variant cfg).
Notation nti_stream := (nti_stream 0 1 +%R *%R (fun x y => x - y) of_val exceeds_eps is_one cfg L a ainv None).

Lemma stream_positions s chunks : forall rt (x : @nti_state R) st x', (forall t md, rt_ok (rt t md)) ->
  ti_wf L st -> follows x st -> model_ok r0 r1 r2 L x ->
  position_embeddings 0 +%R *%R a ainv (factor (nt_fs x) 2) = Ok (nt_aw x, nt_last x) ->
  nti_stream rt s x chunks = Ok x' ->
  position_embeddings 0 +%R *%R a ainv (factor (nt_fs x') 2) = Ok (nt_aw x', nt_last x').
Proof.
  elim: chunks => [|c chunks IH] rt x st x' RT W F MO PE; first by move=> [<-].
  cbn [Nti_model.nti_stream].
  have := update_sim of_val exceeds_eps IS1 cfg (att := None) I Sa Si (RT 0%N) c s W F MO.
  case E : Nti_model.nti_update => [x1|e] //; cbn [bind]. move=> [st1 ET [F1 M1 PE1]].
  have [W1 _] := Tirec_assembly.tirec_partition_main _ _ _ _ _ _ W ET.
  exact: (IH _ _ _ _ (fun t => RT t.+1) W1 F1 M1 PE1).
Qed.

Lemma stream_scores s chunks rt x st x' r0' y : v <> VTIRecA ->
  (forall t md, rt_ok (rt t md)) -> (forall t md, rt_lossless (rt t md)) ->
  ti_wf L st -> rows_aligned st -> follows x st -> model_ok r0 r1 r2 L x ->
  position_embeddings 0 +%R *%R a ainv (factor (nt_fs x) 2) = Ok (nt_aw x, nt_last x) ->
  (forall c, value L x c = history_value of_val (nt_seq x) c) ->
  nti_stream rt s x chunks = Ok x' ->
  lossless_stream of_val exceeds_eps is_one cfg r0 r1 r2 L a ainv rt s x st chunks ->
  model_ok r0' r1 r2 L y -> nt_seq y = nt_seq x' -> n_rows y 0 = n_rows x' 0 -> n_rows y 1 = n_rows x' 1 ->
  position_embeddings 0 +%R *%R a ainv (factor (nt_fs y) 2) = Ok (nt_aw y, nt_last y) ->
  (forall c, value L y c = history_value of_val (nt_seq y) c) ->
  \rank (unf 1 0 (n_rows y 1) (n_rows y 0) L (value L y)) = r1 ->
  \rank (unf 2 0 L (n_rows y 0) (n_rows y 1) (value L y)) = r2 ->
  forall u, nti_scores 0 +%R *%R x' u = nti_scores 0 +%R *%R y u.
Proof.
  move=> NV RT LL W AL F MO PE VX E LS MY ES N0 N1 PY VY R1 R2 u.
  have := stream_sim of_val exceeds_eps IS1 cfg (att := None) I Sa Si RT s chunks W F MO.
  rewrite E => -[st' ET [F' MO']].
  have PE' := stream_positions RT W F MO PE E.
  have VX' c : value L x' c = value L y c.
    by rewrite (stream_tracks V0 VD IS1 Sa Si NV RT LL W AL F MO E ET LS) VX VY ES addrC subrK.
  have W' : ti_wf L st'.
    move: ET. rewrite /ti_stream. clear -W. elim: chunks st W => [|c l IH] st W; first by move=> [<-].
    cbn [List.fold_left bind]. case E1 : ti_update => [st1|e]; last by elim: l {IH} => //.
    apply: IH. by case: (Tirec_assembly.tirec_partition_main _ _ _ _ _ _ W E1).
  rewrite N0 N1 in R1 R2.
  have UX n p nn na nb : unf n p nn na nb (value L y) = unf n p nn na nb (value L x').
    by apply/matrixP => i j; rewrite !mxE VX'.
  rewrite UX in R1. rewrite UX in R2.
  exact: (scores_by_tensor Sa Si W' F' (esym ES) MO' MY PE' PY N0 N1 VX' R1 R2).
Qed.
End Scores.
