(** [tensordot2] depends only on the cells of its second factor. *)
From Coq Require Import ZArith List Bool Lia.
From Verif Require Import Prelude Tensor_model Tensor_spec Tensor_proofs Matrix_model Matrix_main.
Import ListNotations.
Open Scope nat_scope.

Lemma fold_left_ext_in {S X} (f g : S -> X -> S) (l : list X) :
  (forall x, In x l -> forall s, f s x = g s x) -> forall s, fold_left f l s = fold_left g l s.
Proof.
  induction l as [|x l IH]; intros H s; [reflexivity|]. cbn [fold_left].
  rewrite (H x (or_introl eq_refl)). apply IH. intros y Hy. apply H. right. exact Hy.
Qed.

Lemma fold_left_inv {S X} (P : S -> Prop) (f : S -> X -> S) (l : list X) :
  (forall s x, P s -> P (f s x)) -> forall s, P s -> P (fold_left f l s).
Proof. intros H. induction l as [|x l IH]; intros s Hs; [exact Hs|]. cbn [fold_left]. auto. Qed.

Section Dot.
  Context {A : Type} (zero : A) (add mul : A -> A -> A).

  Lemma tensordot2_wf inds (vals : list A) sh (u v : mat A) a b t :
    tensordot2 zero add mul inds vals sh u v a b = Ok t ->
    twf t /\ c0 (tshape t) = pick sh (Z.to_nat (3 - (a + b))).
  Proof.
    unfold tensordot2. intros H.
    repeat match type of H with context [if ?c then _ else _] => destruct c; try discriminate H
                           | context [match ?c with _ => _ end] => destruct c; try discriminate H end.
    all: injection H as <-; unfold double_tensordot, foreach, for_.
    all: apply (fold_left_inv (fun s : ten A => twf s /\ c0 (tshape s) = pick sh (Z.to_nat (3 - (a + b)))));
      [|split; [apply zeros3_wf|reflexivity]].
    all: intros s x Hs; apply fold_left_inv; [|exact Hs]; intros s' y Hs'; apply fold_left_inv; [|exact Hs'].
    all: intros s'' z [W E]; split; [apply tset_wf; exact W|exact E].
  Qed.

  Lemma tensordot2_ext inds (vals : list A) sh (u v v' : mat A) a b :
    mr v = mr v' -> mc v = mc v' ->
    (forall i j, i < mr v -> j < mc v -> mget zero v i j = mget zero v' i j) ->
    tensordot2 zero add mul inds vals sh u v a b = tensordot2 zero add mul inds vals sh u v' a b.
  Proof.
    intros E1 E2 E. unfold tensordot2. rewrite <- E1, <- E2.
    destruct (negb _); [reflexivity|]. destruct (negb _); [reflexivity|]. destruct (a =? b)%Z; [reflexivity|].
    destruct (zip_entries inds vals) as [es|]; [|reflexivity].
    destruct (forallb _ es) eqn:F; [|reflexivity]. f_equal.
    rewrite forallb_forall in F. unfold double_tensordot, foreach, for_. rewrite <- E2.
    apply fold_left_ext_in. intros e He s. specialize (F e He).
    apply andb_true_iff in F. destruct F as [_ F]. apply Nat.ltb_lt in F.
    apply fold_left_ext_in. intros j Hj s'. apply fold_left_ext_in. intros k Hk s''.
    apply in_seq in Hk. rewrite E by lia. reflexivity.
  Qed.

  Lemma mat_ext (m m' : mat A) : mwf m -> mwf m' -> mr m = mr m' -> mc m = mc m' ->
    (forall i j, i < mr m -> j < mc m -> mget zero m i j = mget zero m' i j) -> m = m'.
  Proof.
    intros W W' E1 E2 E. destruct m as [r c d], m' as [r' c' d']. cbn in *. subst r' c'. f_equal.
    unfold mwf in *. cbn in *. apply (nth_ext _ _ zero zero); [congruence|]. rewrite W. intros p Hp.
    destruct (Nat.eq_dec c 0) as [->|NZ]; [lia|].
    pose proof (Nat.div_mod p c NZ) as D. pose proof (Nat.mod_upper_bound p c NZ) as U.
    specialize (E (p / c) (p mod c)). unfold mget in E. cbn in E.
    rewrite Nat.mul_comm in D. rewrite <- D in E. apply E; [|exact U].
    apply Nat.div_lt_upper_bound; [exact NZ|]. lia.
  Qed.
End Dot.
