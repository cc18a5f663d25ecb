(** Early stopping of a training run: the callback of the search inside ga_satf. *)
From Coq Require Import QArith Lia.
From Verif Require Import Prelude Tensor_model Tensor_spec Matrix_model Attention_model LinAlg_model Hooi_model
  Search_model Search_spec Training_model Search_main.
Set Warnings "-notation-overridden".
From mathcomp Require Import all_ssreflect all_algebra.
From Verif Require Import LinAlg_spec LinAlg_tables Tucker_spec Hooi_spec Hooi_run.
From Verif Require Hooi_wit.
Set Implicit Arguments.
Unset Strict Implicit.
Unset Printing Implicit Defensive.
Import GRing.Theory.
Local Close Scope Z_scope.
Local Close Scope Q_scope.
Local Open Scope nat_scope.

Section Run.
Variables (R : Type) (score : @factors R -> ten R -> res Q) (p : nat).

Lemma run_scores : forall k (F : nat -> factors) (G : nat -> ten R) (S : nat -> cb_state),
  (forall t, (t < k)%N -> exists b, exit_callback score (Z.of_nat p) (S t) (F t.+1) (G t.+1) = Ok (S t.+1, b)
                              /\ (b = true -> t.+1 = k)) ->
  exists scores, length scores = k /\
    (forall t, (t < k)%N -> exists2 s, List.nth_error scores t = Some s & score (F t.+1) (G t.+1) = Ok s) /\
    exists b, cb_run (Z.of_nat p) (S 0%N) scores = (S k, b) /\
      (if b then (0 < k)%N /\ (length (metric_list (S k))).+1 = (length (metric_list (S 0%N)) + k)%N else True) /\
      (b = false -> forall t, t.+1 = k -> exit_callback score (Z.of_nat p) (S t) (F t.+1) (G t.+1) = Ok (S t.+1, false)).
Proof.
elim => [|k IH] F G S H.
- exists [::]. split; first by []. split; first by []. by exists false.
- have [b [E Hb]] := H 0%N isT. move: (E). rewrite /exit_callback.
  case Es: (score (F 1%N) (G 1%N)) => [s|e] //= Ec. case: Ec => Ec.
  case: b E Hb Ec => E Hb Ec.
  + have Hk := Hb erefl. case: Hk => Hk. subst k.
    exists [:: s]. split; first by []. split; first by case=> // _; exists s.
    exists true. rewrite /= Ec. split; first by []. split; last by [].
    split; first by []. move: Ec. rewrite /cb_step. case: andb => //. by case=> <-; rewrite addn1.
  + have [|sc [Ls [Hs [b' [Eb [Lb Hl]]]]]] := IH (fun t => F t.+1) (fun t => G t.+1) (fun t => S t.+1).
    { move=> t Lt. have [c [E1 E2]] := H t.+1 Lt. exists c. split=> // Hc. by case: (E2 Hc). }
    exists (s :: sc). split; first by rewrite /= Ls. split.
    { case=> [|t] Lt /=; [by exists s | exact: Hs]. }
    exists b'. rewrite /= Ec. split; first by []. split.
    * case: b' Lb {Eb Hl} => // [] [L1 L2]. split=> //. rewrite L2.
      move: Ec. rewrite /cb_step. case: andb => //. case=> <- /=. rewrite List.app_length /=.
      case: negb => /=; by rewrite -addnA add1n.
    * move=> Hb' [|t] Ht; first by move: E. case: Ht => Ht. exact: (Hl Hb' t Ht).
Qed.
End Run.

Lemma early_stopping_main (R : comRingType) (qr : mat R -> res (mat R * mat R)) rand
    (rsvd : nat -> mat R -> nat -> res (mat R * list R * mat R)) :
  qr_ok qr -> (forall m, randn_ok (rand m)) -> inner_ok rsvd ->
  forall (N : Type) (norm : ten R -> N) norm0 grew n0 r0 n1 r1 n2 r2 inds vals att n_iter score p fs core st,
  hooi_args n0 r0 n1 r1 n2 r2 inds vals -> shape n2 n2 att ->
  ga_satf (0 : R)%R +%R *%R qr rand rsvd norm norm0 grew inds vals (n0, n1, n2) (r0, r1, r2) att n_iter
    (Some (exit_callback score (Z.of_nat p))) None false cb_init = Ok (fs, core, st) ->
  exists k F G scores,
    [/\ start qr rand n0 r0 n1 r1 n2 r2 None (F 0%N),
        forall t, (t < k)%N -> sweep n0 r0 n1 r1 r2 (dense (List.combine inds vals)) (mx n2 n2 att) rsvd t (F t) (F t.+1) (G t.+1),
        length scores = k /\ (forall t, (t < k)%N -> exists2 s, List.nth_error scores t = Some s & score (F t.+1) (G t.+1) = Ok s),
        fs = F k /\ core = (if k is 0 then None else Some (G k))
      & (k = n_iter /\ (forall i, ~ gives_up p scores i) /\ metric_list st = scores) \/
        ((0 < k <= n_iter)%N /\ gives_up p scores (k - 1) /\ (forall i, (i < k - 1)%N -> ~ gives_up p scores i) /\
         metric_list st = List.firstn (k - 1) scores)].
Proof.
move=> Hqr Hr Hi N norm norm0 grew n0 r0 n1 r1 n2 r2 inds vals att n_iter score p fs core st Ha Hs E.
have := ga_run_main Hqr Hr Hi norm norm0 grew n_iter (Some (exit_callback score (Z.of_nat p))) (init := None) false cb_init Ha Hs I.
rewrite E => -[k [F [G [S [St S0 [Lk Lk0 Sw Dec] [-> -> -> _]]]]]].
have [|sc [Ls [Hsc [b [Eb [Lb Hl]]]]]] := @run_scores R score p k F G S.
{ move=> t Lt. have [b [D1 D2 _]] := Dec t Lt. exists b. split=> //. }
exists k, F, G, sc. split=> //.
have := cb_run_main p sc. rewrite -S0 Eb. move=> [[Hb [i [Gi [Fi [Mi _]]]]]|[Hb [Ng [M _]]]].
- right. subst b. case: Lb => L1 L2. split; first by rewrite L1 Lk.
  have Li : i = (k - 1)%N.
  { move: L2. rewrite Mi S0 /=. rewrite List.firstn_length_le; last by case: Gi => -[_ /Nat.lt_le_incl].
    rewrite add0n => <-. by rewrite subn1. }
  rewrite -Li. split=> //. split=> // j /ltP. exact: Fi.
- left. split; last by [].
  case: (k) Hsc Lk Lk0 Hl Dec {Sw Eb Lb Ls M E} => [|k'] Hsc Lk Lk0 Hl Dec.
  + case: (n_iter) Lk0 => // n /(_ isT). by [].
  + have [b' [D1 _ D3]] := Dec k' (ltnSn k'). have := Hl Hb k' erefl.
    move: D1. rewrite /decision => -> [Hb']. by have [|//] := D3 Hb'; rewrite ltnn.
Qed.

(** A run stopped after its second sweep, whose score is worse than the first one. *)
Definition w_score (fs : @factors rat) (core : ten rat) : res Q :=
  Ok (if tdat core == [:: 240%:Q]%R then Qmake 1 2 else Qmake 1 4).
Lemma training_witness :
  exists score fs core st s,
    [/\ ga_satf (0 : rat)%R +%R *%R Hooi_wit.h_qr Hooi_wit.h_rand Hooi_wit.h_rsvd Hooi_wit.h_norm 0%R Hooi_wit.h_grew
          Hooi_wit.h_inds Hooi_wit.h_vals (2, 2, 2) (1, 1, 1) Hooi_wit.h_att 3
          (Some (exit_callback score Z0)) None false cb_init = Ok (fs, Some core, st),
        score fs core = Ok s & Qlt s (max_metric st)].
Proof.
exists w_score. do 3 eexists. exists (Qmake 1 4). split; first by vm_compute; reflexivity.
- by vm_compute.
- by vm_compute.
Qed.
