(** Concrete lists of different lengths. *)
From Coq Require Import ZArith QArith List Bool Lia Permutation.
From Verif Require Import Prelude Prelude_proofs DataPrep_model DataPrep_spec Recommend_model Recommend_spec Recommend_main Eval_model Topk_spec.
Import ListNotations.
Open Scope Z_scope.

(** Four items that score the same. *)
Definition tie_state : rec_state Z :=
  mkRec (mkMappings (get_cont_mapping_struct [100; 200; 300] 0) (get_cont_mapping_struct [11; 22; 33; 44] 0)) 3 4 [] (fun _ => Ok [1; 1; 1; 1]).
(** Among them, the first as the best one, but the last two as the best two. *)
Definition tie_argpart (i : nat) (a : list Z) (kth : nat) : list nat :=
  if list_eq_dec Z.eq_dec a [1; 1; 1; 1] then if (kth =? 3)%nat then [1; 2; 3; 0]%nat else [0; 1; 2; 3]%nat else argpart_sorted i a kth.
Lemma tie_contract : argpartition_contract Z.leb tie_argpart.
Proof.
  intros i a kth H. unfold tie_argpart. destruct (list_eq_dec Z.eq_dec a [1; 1; 1; 1]) as [->|N]; [|now apply argpart_sorted_contract].
  split.
  - destruct (kth =? 3)%nat; cbn; [|reflexivity].
    change [1; 2; 3; 0]%nat with ([1; 2; 3] ++ [0])%nat. apply Permutation_sym. apply Permutation_cons_append.
  - intros m x j n y _ Hx _ Hy. apply nth_error_In in Hx. apply nth_error_In in Hy. cbn in Hx, Hy.
    assert (x = 1) by lia. assert (y = 1) by lia. subst. auto.
Qed.
Lemma tie_wf : wf_state tie_state.
Proof.
  repeat split; simpl in *; try tauto.
  - intros u Hu. eexists. split; reflexivity.
  - unfold f_of in H. cbn in H. destruct (k =? 100); [|destruct (k =? 200); [|destruct (k =? 300)]]; inversion H; lia.
  - unfold f_of in H. cbn in H. destruct (k =? 100); [|destruct (k =? 200); [|destruct (k =? 300)]]; inversion H; lia.
  - apply (small_cases (fun j => exists x, g_of (get_cont_mapping_struct [11; 22; 33; 44] 0) j = Some x) 4).
    intros m Hm. do 4 (destruct m as [|m]; [eexists; reflexivity|]). lia.
Qed.
Lemma ties_refuted : exists (argpart : nat -> list Z -> nat -> list nat) st users test k k' rows rows' h h',
  argpartition_contract Z.leb argpart /\ wf_state st /\ (1 <= k <= k')%nat /\
  recommend argpart st users k true false = Ok rows /\ recommend argpart st users k' true false = Ok rows' /\
  hr rows test = Ok h /\ hr rows' test = Ok h' /\ (h' < h)%Q.
Proof.
  exists tie_argpart, tie_state, [100], [11], 1%nat, 2%nat, [[11]], [[44; 33]], (1 / 1)%Q, (0 / 1)%Q.
  split; [exact tie_contract|]. split; [exact tie_wf|]. split; [lia|]. repeat (split; [vm_compute; reflexivity|]). vm_compute. reflexivity.
Qed.
Lemma mrr_refuted : exists (argpart : nat -> list Z -> nat -> list nat) st users test k k' rows rows' q q',
  argpartition_contract Z.leb argpart /\ wf_state st /\ no_ties st /\ (1 <= k <= k')%nat /\
  recommend argpart st users k true false = Ok rows /\ recommend argpart st users k' true false = Ok rows' /\
  mrr rows test = Ok q /\ mrr rows' test = Ok q' /\ (q' < q)%Q.
Proof.
  exists argpart_tail_reversed, demo_state, [300], [33], 1%nat, 3%nat, [[33]], [[22; 33; 11]], (1 / 1)%Q, ((1 # 2) / 1)%Q.
  split; [exact argpart_tail_reversed_contract|]. split; [exact demo_state_wf|]. split; [exact demo_scores_NoDup|]. split; [lia|].
  repeat (split; [vm_compute; reflexivity|]). vm_compute. reflexivity.
Qed.
Lemma sorted_same : same_for_all_k argpart_sorted.
Proof. intros i a k k'. reflexivity. Qed.
