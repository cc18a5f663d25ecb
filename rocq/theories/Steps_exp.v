(** The experiment with new rows or columns, from the matrix to the recorded errors. *)
From Coq Require Import ZArith QArith Lia.
From Verif Require Import Prelude Tensor_model Matrix_model Matrix_spec Attention_model LinAlg_model Steps_model Steps_ratio.
From Verif Require Matrix_main.
Set Warnings "-notation-overridden".
From mathcomp Require Import all_ssreflect all_algebra.
From Verif Require Import LinAlg_spec LinAlg_bridge LinAlg_psi LinAlg_vectors Upd_spec Exact_spec Exact_main Exact_final Steps_spec Steps_err Steps_vec.
Set Implicit Arguments.
Unset Strict Implicit.
Unset Printing Implicit Defensive.
Import Order.TTheory GRing.Theory Num.Theory.

Lemma floor_uniq (q : Q) (a b : nat) : floor_of q a -> floor_of q b -> a = b.
Proof.
  rewrite /floor_of => -[A1 A2] [B1 B2].
  have L1 : (Z.lt (Z.of_nat a) (Z.add (Z.of_nat b) 1)) by rewrite Zlt_Qlt; apply: Qle_lt_trans A1 B2.
  have L2 : (Z.lt (Z.of_nat b) (Z.add (Z.of_nat a) 1)) by rewrite Zlt_Qlt; apply: Qle_lt_trans B1 A2.
  lia.
Qed.

Local Open Scope ring_scope.

(** The ends of the blocks are the multiples of the step, cut at the size. *)
Lemma ends_repeat q w k rest n bs : (q + k * w + rest = n)%N -> (1 <= rest <= w)%N ->
  List.map (@length nat) bs = (List.repeat w k ++ [:: rest])%list ->
  ends q bs = [seq minn n (q + j.+1 * w)%N | j <- iota 0 k.+1].
Proof.
  move=> En /andP [R1 R2]. elim: k q bs En => [|k IH] q bs En.
    rewrite /=. case: bs => [|b [|b' bs]] //= [Eb]. rewrite -length_size Eb mul1n. congr (_ :: _). rewrite mul0n addn0 in En.
    by rewrite -En; symmetry; apply/minn_idPl; rewrite leq_add2l.
  case: bs => [|b bs]; first by []. case=> Eb E. rewrite [ends _ _]/= -length_size Eb.
  have En' : (q + w + k * w + rest = n)%N by rewrite -En mulSn !addnA.
  rewrite (IH _ _ En' E). 
  have -> : iota 0 k.+2 = 0%N :: [seq j.+1 | j <- iota 0 k.+1] by rewrite -(iotaDl 1 0).
  rewrite map_cons -map_comp mul1n. congr (_ :: _).
    symmetry; apply/minn_idPr. by rewrite -En' -!addnA leq_add2l leq_addr.
  by apply: eq_map => j /=; rewrite [in RHS]mulSn addnA.
Qed.

Section Exp.
Variable R : realFieldType.
Variables (qr : mat R -> res (mat R * mat R)) (rsvd : mat R -> nat -> res (mat R * list R * mat R)).
Variables (exceeds_eps : R -> bool) (sqrt : R -> R) (eps : R).
Hypothesis QR : qr_ok qr.
Hypothesis TR : truncated_ok rsvd.
Hypothesis LL : lossless rsvd.
Hypothesis SQ : sqrt_ok sqrt.
Hypothesis EP : 0 < eps.
Notation incr axis := (get_incremental_svd_triple (0 : R) 1 +%R *%R (fun x y => x - y) qr rsvd exceeds_eps axis).
Notation loop := (vec_loop (0 : R) +%R *%R (fun x y => x - y) (fun x y => x / y) (fun k => k%:R) sqrt eps).
Notation dynamics := (dynamics_vec (0 : R) +%R *%R (fun x y => x - y) (fun x y => x / y) (fun k => k%:R) sqrt eps).

Lemma rsvd_oriented axis m q (x : mat R) rank t : oshape axis m q x -> rsvd x rank = Ok t ->
  let r := minn rank (minn m q) in
  [/\ oriented axis m r q t, (\rank (omx axis m q x) <= rank)%N -> oproduct axis m r q t = omx axis m q x
    & \rank (omx axis m q x) = r -> tight r (orient axis t) (omx axis m q x)].
Proof.
  move=> Hx E r. have [F1 F2 F3 F4 F5] := TR E. have LX := LL E.
  have Er : r = minn rank (minn (mr x) (mc x)) by case: axis Hx => -[-> ->]; rewrite // (minnC q).
  rewrite -Er in F1 F2 F3 F4 F5.
  have EX : (\rank (omx axis m q x) <= rank)%N -> oproduct axis m r q t = omx axis m q x.
    rewrite F2 in LX. case: axis Hx => -[H1 H2]; rewrite H1 H2 in LX; rewrite /= => H.
      by rewrite LX //; apply/low_rankE; rewrite -mxrank_tr.
    by rewrite LX //; apply/low_rankE.
  have OR : oriented axis m r q t by case: axis Hx {EX} => -[H1 H2]; rewrite H1 H2 in F1 F3; split.
  split=> // ER. have [O1 O2 O3 O4] := oriented_shape OR.
  have X : product m r q (orient axis t) = omx axis m q x.
    rewrite O4 EX // ER. exact: geq_minl.
  split=> //; case: axis Hx {EX O1 O2 O3 O4 X ER} OR => -[H1 H2] [/= X1 X2 X3]; rewrite H1 H2 in F4 F5 => //.
  - have [_ _ _ -> _] := flip_ok X3 X1. by rewrite trmxK.
  - have [_ _ _ _ ->] := flip_ok X3 X1. by rewrite trmxK.
Qed.

Lemma base_loop axis m n rank (c : mat R) : oshape axis m n c -> (0 < m)%N ->
  forall bs q i prev t N, match prev with None => q = 0%N | Some target => oshape axis m q target /\ omx axis m q target = omx axis m q c end ->
  List.concat bs = List.seq q N -> (q + N = n)%N -> all (fun b => (0 < size b)%N) bs ->
  match loop (get_svd_triple rsvd) axis rank i prev t (List.map (slices 0 axis c) bs) with
  | Err e => exists x r, rsvd x r = Err e
  | Ok recs => List.Forall2 (says axis m rank c True) recs (ends q bs)
  end.
Proof.
  move=> Hc Hm. elim=> [|b bs IH] q i prev t N Hp EC EN /=; first by move=> _; constructor.
  move=> /andP [Hb0 Hbs].
  have [Eb [N' [EN' EC']]] := concat_seq EC.
  have Hqb : (q + size b <= n)%N by rewrite -EN EN' addnA leq_addr.
  have := slices_ok Hc Hqb. rewrite -Eb. move=> [Hsl Esl].
  have [target' -> [Ht' Et']] : exists2 target', (match prev with None => Ok (slices 0 axis c b) | Some m0 => concatenate 0 axis m0 (slices 0 axis c b) end) = Ok target'
     & oshape axis m (q + size b) target' /\ omx axis m (q + size b) target' = omx axis m (q + size b) c.
    case: prev Hp => [target [Ht Et]|Eq].
      have [target' -> [H1 H2]] := concatenate_ok Ht Hsl. exists target' => //. by rewrite H2 Et Esl.
    exists (slices 0 axis c b) => //. rewrite -Esl Eq. rewrite Eq in Esl *. split=> //.
    apply/matrixP => i' j. rewrite [RHS]mxE. by case: splitP => [[]//|k Ek]; congr (omx _ _ _ _ _ _); apply: val_inj.
  rewrite /= /get_svd_triple. case E : (rsvd target' rank) => [t'|e] /=; last by exists target', rank.
  have [O1 O2 _] := rsvd_oriented Ht' E.
  have Hq : (0 < q + size b)%N by rewrite addn_gt0 Hb0 orbT.
  have [x Ex [X0 X1]] := orecord SQ EP O1 Ht' Hm Hq. rewrite Ex /=.
  have := IH (q + size b)%N i.+1 (Some target') (Some t') N' (conj Ht' Et') EC'.
  rewrite -addnA -EN' EN. move=> /(_ erefl Hbs).
  rewrite /get_svd_triple. case: (loop _ _ _ _ _ _ _) => [xs|e] //= HX.
  constructor=> //. split=> //. exists x => //. rewrite -Et'. split=> // [/X1 <-|_ RK].
    apply: leq_trans (oproduct_rank _ _ _ _ _) _. exact: geq_minl.
  by apply/X1; exact: O2.
Qed.

Lemma blocks_sizes (bs : list (list nat)) w k rest m : (0 < w <= m)%N -> (1 <= rest <= w)%N ->
  List.map (@length nat) bs = (List.repeat w k ++ [:: rest])%list -> all (fun b => (0 < size b <= m)%N) bs.
Proof.
  move=> /andP [W0 Wm] /andP [R0 Rw]. elim: k bs => [|k IH] [|b bs] //= [Eb E].
    by case: bs E => //= _; rewrite -length_size Eb R0 (leq_trans Rw Wm).
  by rewrite -length_size Eb W0 Wm (IH _ E).
Qed.

Lemma floor_le n i0 (rf : Q) : Qle rf 1 -> floor_of (Qmult (inject_Z (Z.of_nat n)) rf) i0 -> (i0 <= n)%N.
Proof.
  move=> H [F _]. have : Qle (inject_Z (Z.of_nat i0)) (inject_Z (Z.of_nat n)).
    apply: Qle_trans F _. rewrite -{2}(Qmult_1_r (inject_Z (Z.of_nat n))) Qmult_comm (Qmult_comm _ 1).
    apply: Qmult_le_compat_r => //. rewrite /Qle /=. lia.
  rewrite -Zle_Qle. by move=> ?; apply/ssrnat.leP; lia.
Qed.

Lemma forall2_size A B (P : A -> B -> Prop) xs ys : List.Forall2 P xs ys -> size xs = size ys.
Proof. by elim=> //= x y xs' ys' _ _ ->. Qed.

(** Reading the list of ends by position. *)
Lemma forall2_ends A (P : A -> nat -> Prop) recs i0 n w k : (i0 <= n)%N ->
  List.Forall2 P recs (i0 :: [seq minn n (i0 + j.+1 * w)%N | j <- iota 0 k.+1]) ->
  size recs = k.+2 /\ forall j x, List.nth_error recs j = Some x -> P x (minn n (i0 + j * w)%N).
Proof.
  move=> Hi H. have EQ : i0 :: [seq minn n (i0 + j.+1 * w)%N | j <- iota 0 k.+1] = [seq minn n (i0 + j * w)%N | j <- iota 0 k.+2].
    have -> : iota 0 k.+2 = 0%N :: [seq j.+1 | j <- iota 0 k.+1] by rewrite -(iotaDl 1 0).
    rewrite map_cons -map_comp mul0n addn0. by move/minn_idPr: Hi => ->.
  rewrite EQ in H. split.
    by rewrite (forall2_size H) size_map size_iota.
  have G : forall s, List.Forall2 P recs [seq minn n (i0 + j * w)%N | j <- iota s k.+2] ->
     forall j x, List.nth_error recs j = Some x -> P x (minn n (i0 + (s + j) * w)%N).
    move: (k.+2) => K {H EQ}. elim: K recs => [|K IH] recs s H; first by inversion H; subst; case.
    inversion H as [|x y xs ys H1 H2 E1]; subst. case=> [|j] z /= E; first by case: E => <-; rewrite addn0.
    by rewrite addnS -addSn; apply: IH E.
  by move=> j x E; have := G 0%N H j x E.
Qed.

Section Main.
Variables (axis : ax) (n : nat) (c : mat R) (rank : nat) (rf rn : Q) (i0 w : nat).
Hypothesis Hc : shape n n c.
Hypothesis H01 : fraction rf.
Hypothesis HN : nonneg rn.
Hypothesis F0 : part_of n rf i0.
Hypothesis F1 : part_of (n - i0) rn w.
Hypothesis I0 : (0 < i0)%N.

Lemma split_facts :
  (w = 0%N -> split_along 0 axis c rf rn = Err ZeroDivisionError) /\
  ((0 < w)%N -> exists b bs k rest, [/\ split_along 0 axis c rf rn = Ok (List.map (slices 0 axis c) (b :: bs)),
      List.concat (b :: bs) = List.seq 0 n, size b = i0, List.map (@length nat) bs = (List.repeat w k ++ [:: rest])%list
    & (1 <= rest <= w)%N /\ (i0 + k * w + rest = n)%N]).
Proof.
  have [i0' [w' [E0 [E1 [Z S]]]]] := Matrix_main.split_matrix_main (List.seq 0 n) rf rn (proj1 H01) (proj2 H01) HN.
  rewrite List.seq_length in E0 E1. have Ei := floor_uniq E0 F0. subst i0'. rewrite minusE in E1. have Ew := floor_uniq E1 F1. subst w'.
  have ED : (match axis with Rows => mr c | Cols => mc c end) = n by case: Hc => -> ->; case: axis.
  rewrite /split_along ED. split=> [/Z ->|/ssrnat.ltP /S] //.
  move=> [bs0 [k [rest [-> [EC [EM [R1 R2]]]]]]] /=.
  case: bs0 EC EM => [|b bs] //= EC [Eb EM]. exists b, bs, k, rest. split=> //.
  split; first by apply/andP; split; apply/ssrnat.leP.
  have := congr1 (@length nat) EC. rewrite List.app_length List.seq_length Eb => <-.
  rewrite -addnA plusE. congr (_ + _)%N.
  have -> : forall l : list (list nat), length (List.concat l) = List.fold_right addn 0%N (List.map (@length nat) l).
    by elim=> //= x l IH; rewrite List.app_length IH.
  rewrite EM. elim: k {EM} => [|k IH] /=; first by rewrite addn0 mul0n add0n.
  by rewrite -IH mulSn addnA.
Qed.

Lemma square_axis : oshape axis n n c.
Proof. by case: axis. Qed.

Lemma rank_leading q : \rank (leading axis n q c) = \rank (omx axis n q c).
Proof. by rewrite /leading /omx; case: axis => //; rewrite mxrank_tr. Qed.

Lemma shape_leading q : oshape_of axis n q = (match axis with Rows => q | Cols => n end, match axis with Rows => n | Cols => q end).
Proof. by case: axis. Qed.

(** Number of steps and what each record says. *)
Definition described (r : nat) (good : Prop) (recs : list (option R * (nat * nat))) : Prop :=
  exists K, [/\ (n - i0 <= K * w < n - i0 + w)%N, size recs = K.+1
    & forall k x, List.nth_error recs k = Some x -> says axis n r c good x (minn n (i0 + k * w)%N)].

Lemma described_of r good recs b bs k rest : size b = i0 -> List.map (@length nat) bs = (List.repeat w k ++ [:: rest])%list ->
  (1 <= rest <= w)%N -> (i0 + k * w + rest = n)%N ->
  List.Forall2 (says axis n r c good) recs (ends 0 (b :: bs)) -> described r good recs.
Proof.
  move=> Eb EM HR En. rewrite /= add0n Eb (ends_repeat En HR EM) => H.
  have Hi : (i0 <= n)%N by rewrite -En -addnA leq_addr.
  have [S1 S2] := forall2_ends Hi H. exists k.+1. split=> //.
  have -> : (n - i0 = k * w + rest)%N by rewrite -En -addnA addKn.
  case/andP: HR => A1 A2. by rewrite mulSn [(w + k * w)%N]addnC leq_add2l A2 /= -addnA ltn_add2l -{1}(add0n w) ltn_add2r.
Qed.

Lemma baseline_main :
  match dynamics (get_svd_triple rsvd) axis c rank rf rn with
  | Err e => w = 0%N /\ e = ZeroDivisionError \/ exists x r, rsvd x r = Err e
  | Ok recs => (0 < w)%N /\ described rank True recs
  end.
Proof.
  have [Z S] := split_facts. rewrite /dynamics_vec. case: (posnP w) => [W|W]; first by rewrite (Z W) /=; left.
  have [b [bs [k [rest [-> EC Eb EM [HR En]]]]]] := S W. cbv beta iota delta [bind].
  have Hi : (i0 <= n)%N by rewrite -En -addnA leq_addr.
  have Hn : (0 < n)%N by apply: leq_trans I0 Hi.
  have Wn : (0 < w <= n)%N \/ (n < w)%N by case: (leqP w n) => ?; [left; rewrite W|right].
  have SZ : all (fun b => (0 < size b)%N) (b :: bs).
    rewrite /= Eb I0 /=. have := @blocks_sizes bs w k rest (maxn n w). rewrite W leq_maxr => /(_ isT HR EM).
    by apply: sub_all => y /= /andP [-> _].
  have := base_loop (axis := axis) rank square_axis Hn 0%N None (prev := None) (q := 0%N) (N := n) erefl EC erefl SZ.
  case: (loop _ _ _ _ _ _ _) => [recs|e] H; last by right.
  split=> //. exact: (described_of Eb EM HR En H).
Qed.

Lemma incremental_main :
  match dynamics (incr axis) axis c rank rf rn with
  | Err e => w = 0%N /\ e = ZeroDivisionError \/ (exists x, qr x = Err e) \/ exists x r, rsvd x r = Err e
  | Ok recs => (0 < w)%N /\ described (minn rank i0) (\rank (omx axis n i0 c) = minn rank i0) recs
  end.
Proof.
  have [Z S] := split_facts. rewrite /dynamics_vec. case: (posnP w) => [W|W]; first by rewrite (Z W) /=; left.
  have [b [bs [k [rest [-> EC Eb EM [HR En]]]]]] := S W. rewrite [bind _ _]/=.
  have Hi : (i0 <= n)%N by rewrite -En -addnA leq_addr.
  have Hn : (0 < n)%N by apply: leq_trans I0 Hi.
  have [Eb' [N' [EN' EC']]] := concat_seq EC. rewrite Eb add0n in Eb' EN' EC'.
  have [Hsl Esl] := slices_ok square_axis (q := 0) (nc := i0) Hi.
  have {}Esl : omx axis n i0 (slices 0 axis c (List.seq 0 i0)) = omx axis n i0 c.
    rewrite -Esl. apply/matrixP => i' j. rewrite [RHS]mxE.
    by case: splitP => [[]//|j' Ej]; congr (omx _ _ _ _ _ _); apply: val_inj.
  rewrite -Eb' in Hsl Esl.
  rewrite /get_incremental_svd_triple /=. rewrite -/(get_incremental_svd_triple _ _ _ _ _ _ _ _ _).
  case E : (rsvd (slices 0 axis c b) rank) => [t|e] /=; last by right; right; exists (slices 0 axis c b), rank.
  have := rsvd_oriented Hsl E. rewrite (minn_idPr Hi) Esl. move=> [O1 O2 O3].
  have [x Ex [X0 X1]] := orecord SQ EP O1 Hsl Hn I0. rewrite Ex /=.
  have Hr : (minn rank i0 <= n)%N by apply: leq_trans (geq_minr _ _) Hi.
  have SZ : all (fun b => (0 < size b <= n)%N) bs.
    case: (leqP w n) => Wn; first by apply: (@blocks_sizes bs w k rest n); rewrite ?W.
    have K0 : k = 0%N by case: (k) En => // k' En; move: Wn; rewrite ltnNge -En mulSn addnCA -!addnA leq_addr.
    have {}EM : List.map (@length nat) bs = (List.repeat rest 0 ++ [:: rest])%list by rewrite EM K0.
    case/andP: HR => R1 R2. apply: (@blocks_sizes bs rest 0 rest n) => //; last by rewrite R1 leqnn.
    by rewrite R1 /= -En leq_addl.
  have := @incr_loop _ qr rsvd exceeds_eps sqrt eps QR TR LL SQ EP axis n n (minn rank i0) rank c square_axis Hr bs i0 1%N _ t N' isT Hsl Esl O1 EC' (esym EN') SZ.
  case: (loop _ _ _ _ _ _ _) => [recs|e] H /=; last by right.
  split=> //. apply: (@described_of _ _ _ b bs k rest) => //. rewrite /= add0n Eb. constructor.
    split=> //. exists x => //. rewrite Esl in X1. split=> // [/X1 <-|_ RK]; first exact: oproduct_rank.
    apply/X1/O2. apply: leq_trans RK _. exact: geq_minl.
  apply: (forall2_mono H) => z y _ [Z1 [e Z2 [Z3 Z4 Z5]]]. split=> //. exists e => //. split=> // G. apply: Z5. exact: O3.
Qed.
End Main.
End Exp.
