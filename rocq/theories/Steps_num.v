(** The numerical experiment: matrices rotated by Euler steps. *)
From Coq Require Import ZArith Lia.
From Verif Require Import Prelude Tensor_model Matrix_model Attention_model LinAlg_model Steps_model.
Set Warnings "-notation-overridden".
From mathcomp Require Import all_ssreflect all_algebra.
From Verif Require Import LinAlg_spec LinAlg_bridge LinAlg_psi Upd_spec Exact_spec Exact_main Steps_spec Steps_err Steps_vec Steps_exp Steps_psi.
Set Implicit Arguments.
Unset Strict Implicit.
Unset Printing Implicit Defensive.
Import Order.TTheory GRing.Theory Num.Theory.
Local Open Scope ring_scope.

Section Num.
Variable R : realFieldType.
Variables (half : R) (exp : R -> R).
Notation skew_symmetric := (skew_symmetric (0 : R) *%R (fun x y => x - y) half).
Notation dyn_step := (dyn_step (0 : R) +%R *%R exp).
Notation solve_ivp := (solve_ivp (0 : R) 1 +%R *%R).
Notation dyn_loop := (dyn_loop (0 : R) 1 +%R *%R exp).
Notation dynamics_list := (get_dynamics_list (0 : R) 1 +%R *%R exp).

Lemma scale_ok m n x (a : mat R) : shape m n a -> shape m n (scale 0 *%R x a) /\ mx m n (scale 0 *%R x a) = x *: mx m n a.
Proof.
  move=> [H1 H2]. rewrite /scale H1 H2. split; first exact: shape_build.
  by apply/matrixP => i j; rewrite mx_build !mxE.
Qed.

Lemma skew_ok n (a : mat R) : shape n n a -> exists2 t, skew_symmetric a = Ok t &
  shape n n t /\ (mx n n t)^T = - mx n n t.
Proof.
  move=> Ha. have [Ht Et] := transpose_ok Ha. rewrite /skew_symmetric. have [d -> [Hd Ed]] := msub_ok Ha Ht.
  rewrite /=. eexists; first by reflexivity. have [D1 D2] := Hd. rewrite D1 D2. split; first exact: shape_build.
  apply/matrixP => i j. rewrite mx_build !mxE. move/matrixP: Ed => Ed.
  have := Ed i j. have := Ed j i. rewrite Et !mxE => -> ->. by rewrite -mulrN opprB.
Qed.

Lemma step_ok n a1 a2 q1 q2 t : shape n n a1 -> shape n n a2 -> shape n n q1 -> shape n n q2 ->
  exists2 a, dyn_step a1 a2 t q1 q2 = Ok a & shape n n a /\ mx n n a = mx n n q1 *m mixed n a1 a2 (exp t) *m (mx n n q2)^T.
Proof.
  move=> H1 H2 Q1 Q2. rewrite /dyn_step. have [Hs Es] := scale_ok (exp t) H2.
  have [a3 -> [H3 E3]] := madd_ok H1 Hs. rewrite /=. have [b -> [Hb Eb]] := dot_ok Q1 H3. rewrite /=.
  have [Ht Et] := transpose_ok Q2. have [a -> [Ha Ea]] := dot_ok Hb Ht. exists a => //. split=> //.
  by rewrite Ea Et Eb E3 Es.
Qed.

Lemma solve_ok n q t h : shape n n q -> shape n n t ->
  exists2 q', solve_ivp q t h = Ok q' & shape n n q' /\ mx n n q' = (1%:M + h *: mx n n t) *m mx n n q.
Proof.
  move=> Hq Ht. rewrite /solve_ivp. have [Hs Es] := scale_ok h Ht. case: (Hs) => -> ->.
  have Hb := shape_build n n (fun i j => if Nat.eqb i j then mget 0 (scale 0 *%R h t) i j + 1 else mget 0 (scale 0 *%R h t) i j).
  have [q' -> [Hq' Eq']] := dot_ok Hb Hq. exists q' => //. split=> //. rewrite Eq' -Es mx_build. congr (_ *m _).
  apply/matrixP => i j. rewrite !mxE eqb_eqn -val_eqE /=. case: eqP => _; by rewrite ?add0r // addrC.
Qed.

Lemma dyn_loop_ok n a1 a2 t1 t2 h : shape n n a1 -> shape n n a2 -> shape n n t1 -> shape n n t2 ->
  forall N k t q1 q2, shape n n q1 -> shape n n q2 -> mx n n q1 = euler h (mx n n t1) k -> mx n n q2 = euler h (mx n n t2) k ->
  exists2 l, dyn_loop a1 a2 t1 t2 h t q1 q2 N = Ok l & size l = N /\
    forall j a, List.nth_error l j = Some a -> shape n n a /\
      mx n n a = euler h (mx n n t1) (k + j) *m mixed n a1 a2 (exp (t + j%:R * h)) *m (euler h (mx n n t2) (k + j))^T.
Proof.
  move=> H1 H2 H3 H4. elim=> [|N IH] k t q1 q2 Q1 Q2 E1 E2 /=; first by exists [::] => //; split=> //; case.
  have [a -> [Ha Ea]] := step_ok t H1 H2 Q1 Q2. rewrite /=.
  have [q1' -> [Q1' E1']] := solve_ok h Q1 H3. rewrite /=. have [q2' -> [Q2' E2']] := solve_ok h Q2 H4. rewrite /=.
  have [l -> [Sl Hl]] := IH k.+1 (t + h) q1' q2' Q1' Q2' (etrans E1' (congr1 _ E1)) (etrans E2' (congr1 _ E2)).
  rewrite /=. exists (a :: l) => //. split; first by rewrite /= Sl.
  case=> [|j] b /=; first by case=> <-; rewrite addn0 mul0r addr0 -E1 -E2.
  move/Hl => [Hb Eb]. split=> //. rewrite Eb addSnnS. by rewrite -(addn1 j) natrD mulrDl mul1r -addrA [h + _]addrC.
Qed.

Lemma dynamics_ok n a1 a2 t1 t2 t0 h N : shape n n a1 -> shape n n a2 -> shape n n t1 -> shape n n t2 ->
  exists2 l, dynamics_list a1 a2 t1 t2 t0 h n N = Ok l & size l = N /\
    forall k a, List.nth_error l k = Some a -> shape n n a /\
      mx n n a = euler h (mx n n t1) k *m mixed n a1 a2 (exp (t0 + k%:R * h)) *m (euler h (mx n n t2) k)^T.
Proof.
  move=> H1 H2 H3 H4. have [He Ee] := eye_ok R n.
  exact (@dyn_loop_ok n a1 a2 t1 t2 h H1 H2 H3 H4 N 0%N t0 _ _ He He Ee Ee).
Qed.

(** Euler steps of a skew-symmetric matrix. *)
Lemma euler_norm n m h (T : 'M[R]_n) (M : 'M[R]_(n, m)) : T^T = - T ->
  normsq ((1%:M + h *: T) *m M) = normsq M + h ^+ 2 * normsq (T *m M).
Proof.
  move=> HT. rewrite !normsq_tr mulmxDl mul1mx -scalemxAl.
  set N := T *m M. have e1 : M^T *m N = - (N^T *m M) by rewrite /N trmx_mul HT mulmxN mulNmx opprK mulmxA.
  rewrite [(M + _)^T]linearD /= [(h *: N)^T]linearZ /= mulmxDl !mulmxDr -!scalemxAr -!scalemxAl e1.
  rewrite scalerN scalerA addrA -(addrA _ (- _)) [- _ + _]addrC subrr addr0.
  by rewrite mxtraceD mxtraceZ expr2.
Qed.

Lemma euler_step_inj n m h (T : 'M[R]_n) (M : 'M[R]_(n, m)) : T^T = - T -> (1%:M + h *: T) *m M = 0 -> M = 0.
Proof.
  move=> HT H. have := euler_norm h M HT. rewrite H.
  have -> : normsq (0 : 'M[R]_(n, m)) = 0 by apply/normsq_eq0. move/esym/eqP.
  rewrite paddr_eq0 ?normsq_ge0 //; last by rewrite mulr_ge0 ?sqr_ge0 ?normsq_ge0.
  by case/andP => /eqP /normsq_eq0.
Qed.

Lemma euler_step_unit n h (T : 'M[R]_n) : T^T = - T -> (1%:M + h *: T) \in unitmx.
Proof.
  move=> HT. rewrite -row_free_unit -kermx_eq0. apply/eqP.
  (* the transpose is a step of the opposite *)
  have HT' : (T^T)^T = - T^T by rewrite HT linearN /= HT.
  have EQ : (1%:M + h *: T)^T = 1%:M + h *: T^T by rewrite linearD /= linearZ /= trmx1.
  have := mulmx_ker (1%:M + h *: T). move/(congr1 trmx). rewrite trmx_mul trmx0 EQ => /(euler_step_inj HT').
  move/(congr1 trmx). by rewrite trmxK trmx0.
Qed.

Lemma euler_unit n h (T : 'M[R]_n) k : T^T = - T -> euler h T k \in unitmx.
Proof.
  move=> HT. elim: k => [|k IH]; first exact: unitmx1. by rewrite /= unitmx_mul euler_step_unit.
Qed.

Lemma euler_grow n m h (T : 'M[R]_n) k (M : 'M[R]_(n, m)) : T^T = - T -> normsq M <= normsq (euler h T k *m M).
Proof.
  move=> HT. elim: k => [|k IH]; first by rewrite mul1mx. apply: le_trans IH _.
  rewrite /euler iterS -mulmxA euler_norm // ler_addl mulr_ge0 ?sqr_ge0 ?normsq_ge0 //.
Qed.

Lemma rotated_rank n h (T1 T2 M : 'M[R]_n) k : T1^T = - T1 -> T2^T = - T2 ->
  \rank (euler h T1 k *m M *m (euler h T2 k)^T) = \rank M.
Proof.
  move=> H1 H2. rewrite mxrankMfree; last by rewrite row_free_unit unitmx_tr euler_unit.
  rewrite -mxrank_tr trmx_mul mxrankMfree ?mxrank_tr // row_free_unit unitmx_tr. exact: euler_unit.
Qed.

Lemma rotated_norm n h (T1 T2 M : 'M[R]_n) k : T1^T = - T1 -> T2^T = - T2 ->
  normsq M <= normsq (euler h T1 k *m M *m (euler h T2 k)^T).
Proof.
  move=> H1 H2. apply: le_trans (euler_grow h k M H1) _.
  set N := _ *m M. rewrite -(normsq_trmx N) -(normsq_trmx (N *m _)) [(N *m _)^T]trmx_mul trmxK. exact: euler_grow.
Qed.
End Num.

Section Const.
Variable R : realFieldType.
Notation const := (get_const_mtx (0 : R) 1 +%R *%R).

Lemma const_ok small large block full n b : (b <= n)%N ->
  exists2 a, const small large block full n b = Ok a & shape n n a /\
    forall i j, (i < n)%N -> (j < n)%N -> mget 0 a i j = small * mget 0 full i j
      + (if (i < b)%N && (j < b)%N then large * mget 0 block i j + (i == j)%:R else 0).
Proof.
  move=> Hb. rewrite /get_const_mtx. have -> : Nat.leb b n by apply/Nat.leb_spec0; apply/ssrnat.leP.
  rewrite /=. eexists; first by reflexivity. split; first exact: shape_build.
  move=> i j Hi Hj. rewrite build_mget // !ltb_ltn eqb_eqn.
  case: ifP => _; last by rewrite addr0. by case: (i == j); rewrite ?addr0.
Qed.

(** A matrix with zero rows below the first [b] has rank at most [b]. *)
Lemma rank_top n b (M : 'M[R]_n) : (b <= n)%N -> (forall i j : 'I_n, (b <= i)%N -> M i j = 0) -> (\rank M <= b)%N.
Proof.
  move=> Hb H. have -> : M = (pid_mx b : 'M[R]_n) *m M.
    apply/matrixP => i j. rewrite mxE. case: (ltnP i b) => Hi.
      rewrite (bigD1 i) //= mxE eqxx Hi mul1r big1 ?addr0 // => k Hk. rewrite mxE. case: eqP => [E|_] /=; last by rewrite mul0r.
      by rewrite -val_eqE /= E eqxx in Hk.
    rewrite H // big1 // => k _. by rewrite mxE [(i < b)%N]ltnNge Hi andbF mul0r.
  apply: leq_trans (mxrankM_maxl _ _) _. by rewrite rank_pid_mx.
Qed.
End Const.

Section Compare.
Variable R : realFieldType.
Variables (qr : mat R -> res (mat R * mat R)) (rsvd : mat R -> nat -> res (mat R * list R * mat R)) (sqrt : R -> R) (eps half : R) (exp : R -> R).
Hypothesis QR : qr_ok qr.
Hypothesis TR : truncated_ok rsvd.
Hypothesis LL : lossless rsvd.
Hypothesis SQ : sqrt_ok sqrt.
Hypothesis EP : 0 < eps.
Notation lin := (linspace +%R *%R (fun x y => x - y) (fun x y => x / y) (fun k => k%:R : R)).
Notation compare := (compare_approximations (0 : R) 1 +%R *%R (fun x y => x - y) (fun x y => x / y) (fun k => k%:R) qr rsvd sqrt eps exp).
Notation experiment := (numerical_experiment (0 : R) 1 +%R *%R (fun x y => x - y) half).

Lemma linspace_ok (t0 h : R) N : lin t0 (t0 + (N - 1)%:R * h) N = [seq t0 + k%:R * h | k <- iota 0 N].
Proof.
  have EQ : forall f s m, List.map f (List.seq s m) = [seq f k | k <- iota s m] :> seq R.
    by move=> f s m; elim: m s => [|m IH] s //=; rewrite IH.
  rewrite /linspace EQ. apply/eq_in_map => k. rewrite mem_iota add0n => /andP [_ Hk].
  rewrite !minusE ltb_ltn eqb_eqn. case: (ltnP 1 N) => HN /=.
    case: eqP => [->|_] //. rewrite addrC. congr (_ + _). rewrite [t0 + _]addrC addrK mulrAC mulfV; last by rewrite pnatr_eq0 subn_eq0 -ltnNge.
    by rewrite mul1r mulrC.
  have -> : k = 0%N by case: k Hk => // k Hk; move: (leq_trans Hk HN). by rewrite mul0r addr0.
Qed.

Lemma experiment_main small large rb rf rs n b : (b <= n)%N -> (forall k, shape n n (rs k)) ->
  exists a1 a2 t1 t2, experiment small large rb rf rs n b = Ok (a1, a2, t1, t2) /\
    [/\ [/\ shape n n a1, shape n n a2, shape n n t1 & shape n n t2],
        (mx n n t1)^T = - mx n n t1, (mx n n t2)^T = - mx n n t2
      & small = 0 -> forall x, (\rank (mixed n a1 a2 x) <= b)%N].
Proof.
  move=> Hb Hr. rewrite /numerical_experiment.
  have [a1 -> [H1 E1]] := const_ok small large (rb 0%N) (rf 0%N) Hb. rewrite /=.
  have [a2 -> [H2 E2]] := const_ok small large (rb 1%N) (rf 1%N) Hb. rewrite /=.
  have [t1 -> [H3 E3]] := skew_ok half (Hr 0%N). rewrite /=. have [t2 -> [H4 E4]] := skew_ok half (Hr 1%N). rewrite /=.
  exists a1, a2, t1, t2. split=> //. split=> // S0 x. apply: rank_top => // i j Hi.
  by rewrite !mxE E1 // E2 // S0 !mul0r !add0r !ltnNge Hi /= mulr0 addr0.
Qed.

Lemma compare_empty a1 a2 t1 t2 t0 h n rank : compare a1 a2 t1 t2 t0 h n 0 rank = Err UnboundLocalError.
Proof. by []. Qed.

Lemma compare_main a1 a2 t1 t2 t0 h n N rank : shape n n a1 -> shape n n a2 -> shape n n t1 -> shape n n t2 ->
  (mx n n t1)^T = - mx n n t1 -> (mx n n t2)^T = - mx n n t2 -> (0 < n)%N -> (0 < N)%N ->
  match compare a1 a2 t1 t2 t0 h n N rank with
  | Err e => (exists x, qr x = Err e) \/ (exists x r, rsvd x r = Err e)
  | Ok (xs, es, ep) => [/\ size xs = N, size es = N, size ep = N
    & forall k x, List.nth_error xs k = Some x -> let r := \rank (mixed n a1 a2 (exp x)) in
       [/\ x = t0 + k%:R * h,
           exists2 e, List.nth_error es k = Some (Some e) & 0 <= e /\ (e = 0 <-> (r <= rank)%N),
           List.nth_error ep k = Some (Some 0) -> (r <= rank)%N
         & k = 0%N -> (r <= rank)%N -> List.nth_error ep k = Some (Some 0)]]
  end.
Proof.
  move=> H1 H2 H3 H4 S1 S2 Hn HN. rewrite /compare_approximations.
  have [l -> [Sl El]] := dynamics_ok exp t0 h N H1 H2 H3 H4. cbv beta iota delta [bind].
  have nn : (0 < n * n)%N by rewrite muln_gt0 Hn.
  have Hl : List.Forall (shape n n) l.
    apply/List.Forall_forall => a Ia. have [k Ek] := List.In_nth_error _ _ Ia. by have [] := El _ _ Ek.
  have RK : forall k a, List.nth_error l k = Some a -> \rank (mx n n a) = \rank (mixed n a1 a2 (exp (t0 + k%:R * h))).
    by move=> k a /El [_ ->]; rewrite rotated_rank.
  have L0 : l <> [::] by move=> L; move: Sl; rewrite L => Sl; rewrite -Sl in HN.
  have := svd_dynamics_main TR LL SQ EP rank nn Hl L0. case: (get_svd_dynamics _ _ _ _ _ _ _ _ _ _ _) => [es|e] HE; last by right.
  case: l {L0} Sl El Hl RK HE => [|a l] Sl El Hl RK HE; first by rewrite -Sl in HN.
  have := psi_dynamics_main sqrt eps QR TR LL rank nn Hl. case: (get_psi_dynamics _ _ _ _ _ _ _ _ _ _ _ _) => [[|e ep]|e] //.
  move=> [Y [Ey RY EY HF]]. have [F1 F2] := followed_ranks SQ EP nn HF.
  rewrite linspace_ok. split.
  - by rewrite size_map size_iota.
  - by rewrite -(forall2_size HE).
  - by rewrite /= F1 -Sl.
  move=> k x Ex.
  have [Hk Xk] : (k < N)%N /\ x = t0 + k%:R * h.
    have G : forall m s j, List.nth_error [seq t0 + i%:R * h | i <- iota s m] j = Some x -> (j < m)%N /\ x = t0 + (s + j)%:R * h.
      elim=> [|m IH] s [|j] //=; last by move/IH => [A1 A2]; rewrite addnS -addSn.
      by case=> <-; rewrite addn0.
    by have := G _ _ _ Ex; rewrite add0n.
  have [b Eb] : exists b, List.nth_error (a :: l) k = Some b.
    case E : (List.nth_error (a :: l) k) => [b|]; first by exists b.
    have {}E := proj1 (List.nth_error_None _ _) E. rewrite length_size Sl in E. move/ssrnat.leP: E. by rewrite leqNgt Hk.
  rewrite /= Xk. split=> //.
  - have G : forall (xs : list (mat R)) (ys : list (option R)) j c, List.Forall2 (fun a e => exists2 x, e = Some x & 0 <= x /\ (x = 0 <-> (\rank (mx n n a) <= rank)%N)) xs ys ->
        List.nth_error xs j = Some c -> exists2 e, List.nth_error ys j = Some (Some e) & 0 <= e /\ (e = 0 <-> (\rank (mx n n c) <= rank)%N).
      move=> xs ys j c H. elim: H j => [|p q ps qs Hz _ IH]; first by case.
      case=> [|j] /=; last exact: IH. by case=> <-; case: Hz => z -> Hz; exists z.
    have [e1 He1 He2] := G _ _ _ _ HE Eb. exists e1 => //. by rewrite -(RK _ _ Eb).
  - rewrite -(RK _ _ Eb). case: k Eb {Ex Hk Xk} => [|k] /=.
      by case=> <- [E]; move: E; rewrite Ey => -[E]; have <- : Y = mx n n a by have [_ H0] := rel_zero SQ EP Y (mx n n a) nn; apply/H0.
    move=> Eb /F2 [c]. by rewrite Eb => -[->].
  - move=> K0. rewrite -(RK _ _ Eb). rewrite K0 in Eb *. case: Eb => <- RA. rewrite /= Ey. do 2!congr Some.
    have [_ H0] := rel_zero SQ EP Y (mx n n a) nn. apply/H0. exact: EY.
Qed.

Lemma compare_final a1 a2 t1 t2 t0 h n rank : compare a1 a2 t1 t2 t0 h n 0 rank = Err UnboundLocalError /\
  forall N, shape n n a1 -> shape n n a2 -> shape n n t1 -> shape n n t2 ->
  (mx n n t1)^T = - mx n n t1 -> (mx n n t2)^T = - mx n n t2 -> (0 < n)%N -> (0 < N)%N ->
  match compare a1 a2 t1 t2 t0 h n N rank with
  | Err e => (exists x, qr x = Err e) \/ (exists x r, rsvd x r = Err e)
  | Ok (xs, es, ep) => [/\ size xs = N, size es = N, size ep = N
    & forall k x, List.nth_error xs k = Some x -> let r := \rank (mixed n a1 a2 (exp x)) in
       [/\ x = t0 + k%:R * h,
           exists2 e, List.nth_error es k = Some (Some e) & 0 <= e /\ (e = 0 <-> (r <= rank)%N),
           List.nth_error ep k = Some (Some 0) -> (r <= rank)%N
         & k = 0%N -> (r <= rank)%N -> List.nth_error ep k = Some (Some 0)]]
  end.
Proof. split=> [|N]; [exact: compare_empty|exact: compare_main]. Qed.
End Compare.

Lemma dynamics_main (R : realFieldType) (exp : R -> R) n a1 a2 t1 t2 t0 h steps :
  shape n n a1 -> shape n n a2 -> shape n n t1 -> shape n n t2 ->
  exists2 l, get_dynamics_list 0 1 +%R *%R exp a1 a2 t1 t2 t0 h n steps = Ok l & size l = steps /\
    forall k a, List.nth_error l k = Some a ->
    let M := mixed n a1 a2 (exp (t0 + k%:R * h)) in
    [/\ shape n n a, mx n n a = euler h (mx n n t1) k *m M *m (euler h (mx n n t2) k)^T
      & (mx n n t1)^T = - mx n n t1 -> (mx n n t2)^T = - mx n n t2 ->
        \rank (mx n n a) = \rank M /\ normsq M <= normsq (mx n n a)].
Proof.
  move=> H1 H2 H3 H4. have [l El [Sl Nl]] := dynamics_ok exp t0 h steps H1 H2 H3 H4. exists l => //. split=> // k a /Nl [Ha Ea] M.
  split=> // T1 T2. by rewrite Ea rotated_rank // rotated_norm.
Qed.
