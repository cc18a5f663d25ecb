(** Recommendations of a model some of whose score vectors cannot be computed. *)
From Coq Require Import ZArith List Bool Lia.
From Verif Require Import Prelude Prelude_proofs DataPrep_model Recommend_model Full_spec.
Import ListNotations.
Open Scope Z_scope.

Section Patch.
  Context {A : Type} (leb : A -> A -> bool) (z : A).
  Variable argpart : nat -> list A -> nat -> list nat.
  Definition patched (st : rec_state A) : rec_state A :=
    @mkRec A (rs_mappings st) (rs_n_users st) (rs_n_items st) (rs_history st)
      (fun u => match rs_scores st u with Ok s => Ok s | Err _ => Ok (repeat z (rs_n_items st)) end).
  Lemma patched_user st fv int k i u row : recommend_user argpart st fv int k i u = Ok row -> recommend_user argpart (patched st) fv int k i u = Ok row.
  Proof. unfold recommend_user. cbn [patched rs_mappings rs_n_users rs_n_items rs_history rs_scores]. destruct (rs_scores st u); [auto|discriminate]. Qed.
  Lemma patched_loop st fv int k us : forall i rows, recommend_loop argpart st fv int k i us = Ok rows -> recommend_loop argpart (patched st) fv int k i us = Ok rows.
  Proof.
    induction us as [|u us IH]; intros i rows; cbn [recommend_loop]; auto.
    destruct (recommend_user argpart st fv int k i u) as [row|] eqn:E; cbn [bind]; [|discriminate]. rewrite (patched_user _ _ _ _ _ _ _ E). cbn [bind].
    destruct (recommend_loop argpart st fv int k (S i) us) as [rs|] eqn:E'; cbn [bind]; [|discriminate]. rewrite (IH _ _ E'). auto.
  Qed.
  Lemma patched_rec st us k fv int rows : recommend argpart st us k fv int = Ok rows -> recommend argpart (patched st) us k fv int = Ok rows.
  Proof.
    unfold recommend. cbn [patched rs_mappings rs_n_users rs_n_items rs_history]. destruct (mapM _ us); cbn [bind]; auto.
    destruct (_ && _); auto. apply patched_loop.
  Qed.
  Lemma patched_best st P u row : best leb (patched st) P u row -> best leb st P u row.
  Proof.
    intros B i j x y Hi Hj Nj Ex Ey. apply (B i j x y); auto.
    - revert Ex. unfold score_of. cbn [patched rs_mappings rs_scores]. destruct (f_of _ _); auto. destruct (f_of _ _); auto. destruct (rs_scores st _); [auto|discriminate].
    - revert Ey. unfold score_of. cbn [patched rs_mappings rs_scores]. destruct (f_of _ _); auto. destruct (f_of _ _); auto. destruct (rs_scores st _); [auto|discriminate].
  Qed.
End Patch.

Lemma report_impl k (ch ch' : Z -> list Z -> Prop) P c h q : (forall u row, ch u row -> ch' u row) ->
  step_report k ch P c h q -> step_report k ch' P c h q.
Proof.
  intros I [sel [rows [rrs [H1 [H2 [H3 H4]]]]]]. exists sel, rows, rrs. split; auto. split; auto. split; auto.
  clear -H3 I. induction H3 as [|a b l l' [A B] F IH]; constructor; auto.
Qed.
