(** Runs of ga_satf. *)
From Verif Require Import Prelude Tensor_model Tensor_spec Matrix_model Attention_model LinAlg_model Hooi_model.
Set Warnings "-notation-overridden".
From mathcomp Require Import all_ssreflect all_algebra.
From Verif Require Import LinAlg_spec LinAlg_bridge Tucker_spec Tucker_bridge Hooi_spec Hooi_bridge.
Set Implicit Arguments.
Unset Strict Implicit.
Unset Printing Implicit Defensive.
Import GRing.Theory.
Local Open Scope ring_scope.

Local Arguments set_factor : simpl never.
Local Arguments factor : simpl never.

Section Main.
Variable R : comRingType.
Variables (qr : mat R -> res (mat R * mat R)) (rand : nat -> nat -> nat -> mat R).
Variable rsvd : nat -> mat R -> nat -> res (mat R * list R * mat R).
Hypothesis QR : qr_ok qr.
Hypothesis RAND : forall m, randn_ok (rand m).
Hypothesis INNER : inner_ok rsvd.
Variables (N C : Type) (norm : ten R -> N) (norm0 : N) (grew : N -> N -> bool).
Notation mget := (Tensor_model.mget (0 : R)).
Notation dot := (Matrix_model.dot (0 : R) +%R *%R).
Notation contraction := (Hooi_model.contraction (0 : R) +%R *%R).
Notation construct_core := (Tensor_model.construct_core (0 : R) +%R *%R).
Notation transpose := (Attention_model.transpose (0 : R)).
Notation ga_mode := (Hooi_model.ga_mode (0 : R) +%R *%R rsvd).

Section Args.
Variables (n0 r0 n1 r1 n2 r2 : nat) (inds : list cell) (vals : list R) (att : mat R).
Notation data := (dense (List.combine inds vals)).
Notation A := (mx n2 n2 att).
Hypothesis ARGS : hooi_args n0 r0 n1 r1 n2 r2 inds vals.
Hypothesis ATT : shape n2 n2 att.

Definition good (fs : @factors R) : Prop :=
  [/\ shape n0 r0 (factor fs 0), shape n1 r1 (factor fs 1) & shape n2 r2 (factor fs 2)].

(** The body of the loop up to the stopping test. *)
Definition ga_step (i : nat) (fs : @factors R) : res (@factors R * ten R) :=
  do w <- dot att (factor fs 2);
  do fs' <- for_each (ga_mode inds vals (n0, n1, n2) (r0, r1, r2) att i) [:: 0; 1; 2]%N (set_factor fs 2 w);
  do wa <- dot att (factor fs' 2);
  do core <- construct_core inds vals (factor fs' 0) (factor fs' 1) wa;
  Ok (fs', core).

Lemma inner_cols t x r u s vt m n : rsvd t x r = Ok (u, s, vt) -> shape m n x -> (r <= m)%N -> (r <= n)%N ->
  shape m r u /\ (mx m r u)^T *m mx m r u = 1%:M.
Proof.
  move=> E [<- <-] Hm Hn. have := INNER E. rewrite /= (_ : minn r (minn (mr x) (mc x)) = r) //.
  by apply/minn_idPl; rewrite leq_min Hm Hn.
Qed.

Lemma ga_step_ok i fs : shape n1 r1 (factor fs 1) -> shape n2 r2 (factor fs 2) ->
  match ga_step i fs with
  | Err e => exists t x r, rsvd t x r = Err e
  | Ok (fs', core) => [/\ sweep n0 r0 n1 r1 r2 data A rsvd i fs fs' core, good fs',
      [/\ orthonormal n0 r0 (factor fs' 0), orthonormal n1 r1 (factor fs' 1) & orthonormal n2 r2 (factor fs' 2)]
      & [/\ mwf (factor fs' 0), mwf (factor fs' 1) & mwf (factor fs' 2)]]
  end.
Proof.
  case: ARGS => [[L0 L1 L2] [[V0 V1 V2] [LV FR]]] H1 H2. rewrite /ga_step.
  have [w -> [Hw Ew]] := dot_ok ATT H2. rewrite /=.
  rewrite /Hooi_model.ga_mode /=.
  set fs0 := set_factor fs 2 w.
  have [m0 -> [_ P0]] := contraction_ok (rank := (r0, r1, r2)) (fs := fs0) mode_0 (erefl : axis (n0, n1, n2) 0 = n0) erefl erefl erefl erefl H1 Hw LV FR.
  rewrite /=. case E0 : (rsvd _ m0 r0) => [[[u0 s0] vt0]|e] /=; last by eexists _, _, _; exact: E0.
  have [Hu0 O0] := inner_cols E0 (proj1 P0) L0 V0. have Rv0 := reverse_ok Hu0.
  set fs1 := set_factor fs0 0 _.
  have [m1 -> [_ P1]] := contraction_ok (rank := (r0, r1, r2)) (fs := fs1) mode_1 (erefl : axis (n0, n1, n2) 1 = n1) erefl erefl erefl erefl (proj1 Rv0) Hw LV FR.
  rewrite /=. case E1 : (rsvd _ m1 r1) => [[[u1 s1] vt1]|e] /=; last by eexists _, _, _; exact: E1.
  have [Hu1 O1] := inner_cols E1 (proj1 P1) L1 V1. have Rv1 := reverse_ok Hu1.
  set fs2 := set_factor fs1 1 _.
  have [m2 -> [_ P2]] := contraction_ok (rank := (r0, r1, r2)) (fs := fs2) mode_2 (erefl : axis (n0, n1, n2) 2 = n2) erefl erefl erefl erefl (proj1 Rv0) (proj1 Rv1) LV FR.
  rewrite /=. have [Hat Eat] := transpose_ok ATT. have [m2' -> [Hm2 Em2]] := dot_ok Hat (proj1 P2). rewrite /=.
  case E2 : (rsvd _ m2' r2) => [[[u2 s2] vt2]|e] /=; last by eexists _, _, _; exact: E2.
  have [Hu2 O2] := inner_cols E2 Hm2 L2 V2. have Rv2 := reverse_ok Hu2.
  have [wa -> [Hwa Ewa]] := dot_ok ATT (proj1 Rv2). rewrite /=.
  have [core -> Pc] := core_ok (proj1 Rv0) (proj1 Rv1) Hwa LV FR. rewrite /=.
  split; last by split; exact: reverse_mwf.
  - exists w, m0, m1, m2, m2'. split => //.
    + split => //. exists u0, s0, vt0. split => //. rewrite -[(3 * i)%N]addn0. exact: E0.
    + split => //. by exists u1, s1, vt1.
    + split => //; first by rewrite Em2 Eat. by exists u2, s2, vt2.
    + case: Pc => W S F. split => // a b c. by rewrite F Ewa.
  - by split; [case: Rv0|case: Rv1|case: Rv2].
  - by split; apply: reversed_orth; eauto.
Qed.

Section Loop.
Variables (cb : option (@callback R C)) (force : bool).
Notation ga_loop := (Hooi_model.ga_loop (0 : R) +%R *%R rsvd norm grew inds vals (n0, n1, n2) (r0, r1, r2) att cb force).
Notation decide := (decision norm grew cb force).

Lemma ga_loop_step left i fs core old st :
  ga_loop left.+1 i fs core old st =
  (do '(fs', core') <- ga_step i fs;
   match decide old st fs' core' with
   | Err e => Err e
   | Ok (st', b) => if b then Ok (fs', Some core', st')
                    else ga_loop left i.+1 fs' (Some core') (if force then old else if cb is None then norm core' else old) st'
   end).
Proof.
  rewrite /= /ga_step. case: (dot att _) => //= w. case: (ga_mode _ _ _ _ _ _ _ _) => //= fa.
  case: (ga_mode _ _ _ _ _ _ _ _) => //= fb. case: (ga_mode _ _ _ _ _ _ _ _) => //= fc.
  case: (dot att _) => //= wa. case: (construct_core _ _ _ _ _) => //= cr.
  rewrite /decision. case: force => //. case: cb => [c|] /=; last by case: (grew _ _).
  by case: (c _ _ _) => //= -[st' []].
Qed.

Lemma decide_old old st f g :
  decide (norm g) st f =1 decide (if force then old else if cb is None then norm g else old) st f.
Proof. by move=> x; rewrite /decision; case: force => //; case: cb. Qed.

Lemma run_old (sw : nat -> @factors R -> @factors R -> ten R -> Prop) old n k F G S g :
  run norm (if force then old else if cb is None then norm g else old) grew cb force sw n k F G S ->
  run norm (norm g) grew cb force sw n k F G S.
Proof.
  move=> [H1 H2 H3 H4]; split=> // t Ht. have [b [E B1 B2]] := H4 t Ht. exists b; split=> //.
  by case: t E {Ht B1 B2} => [|t] //=; rewrite (decide_old old).
Qed.

Definition cons_seq (T : Type) (x : T) (f : nat -> T) (t : nat) : T := if t is t'.+1 then f t' else x.

Lemma ga_loop_ok left : forall i fs core old st, shape n1 r1 (factor fs 1) -> shape n2 r2 (factor fs 2) ->
  match ga_loop left i fs core old st with
  | Err e => (exists t x r, rsvd t x r = Err e) \/ (exists c s f g, [/\ force = false, cb = Some c & c s f g = Err e])
  | Ok (fs', core', st') => exists k F G S,
     [/\ F 0%N = fs, S 0%N = st,
         run norm old grew cb force (fun t => sweep n0 r0 n1 r1 r2 data A rsvd (i + t)) left k F G S
       & [/\ fs' = F k, core' = (if k is 0 then core else Some (G k)), st' = S k
         & (0 < k)%N -> [/\ good fs',
             [/\ orthonormal n0 r0 (factor fs' 0), orthonormal n1 r1 (factor fs' 1) & orthonormal n2 r2 (factor fs' 2)]
           & [/\ mwf (factor fs' 0), mwf (factor fs' 1) & mwf (factor fs' 2)]]]]
  end.
Proof.
  elim: left => [|left IH] i fs core old st H1 H2.
    by exists 0%N, (fun _ => fs), (fun _ => mkTen (0, 0, 0)%N [::]), (fun _ => st).
  rewrite ga_loop_step. have := ga_step_ok i H1 H2. case: (ga_step i fs) => [[fs' g]|e] /=; last by left.
  move=> [SW GD OR MW]. case D : (decide old st fs' g) => [[st' b]|e]; last first.
    right. move: D; rewrite /decision. case: force => //. case: cb => // c E. by exists c, st, fs', g.
  case: b D => D.
    exists 1%N, (cons_seq fs (fun _ => fs')), (fun _ => g), (cons_seq st (fun _ => st')).
    split=> //. split=> //.
    - by case=> // _; rewrite addn0.
    - case=> // _. by exists true.
  have := IH i.+1 fs' (Some g) (if force then old else if cb is None then norm g else old) st' (let: And3 _ h _ := GD in h) (let: And3 _ _ h := GD in h).
  case: (ga_loop left _ _ _ _ _) => [[[fs2 core2] st2]|e] //= [k [F [G [S [F0 S0 /run_old [K1 K2 K3 K4] [E1 E2 E3 E4]]]]]].
  exists k.+1, (cons_seq fs F), (cons_seq g (fun t => if t is 0 then g else G t)), (cons_seq st S).
  split=> //.
    split=> //.
    - by case=> [|t] Ht /=; rewrite ?addn0 ?F0 // addnS -addSn; case: t Ht => [|t] Ht; apply: K3.
    - case=> [|t] Ht /=.
        exists false; rewrite F0 S0; split=> // _. case: (k) K2 => [|k'] K2; last by left.
        by right; case: (left) K2 => // l /(_ isT).
      have [b [Eb B1 B2]] := K4 t Ht. exists b; split.
      + by case: t Ht Eb {B1 B2} => [|t] Ht Eb.
      + by move=> Hb; rewrite B1.
      + by move=> /B2 [Hlt|->]; [left|right].
  split=> //.
  - by rewrite E2; case: (k).
  - case: (k) E1 E4 => [E1 _ _|k' _ E4 _]; last exact: E4. by rewrite E1 F0.
Qed.
End Loop.
End Args.
End Main.
