(** Property C95: RandomRec is the baseline of chance. *)
From Coq Require Import ZArith QArith List Bool Permutation Lia.
From Verif Require Import Prelude DataPrep_model Recommend_model Recommend_spec Recommend_main Eval_model Eval_spec Chance_model Chance_spec Chance_main.
Import ListNotations.
Open Scope Z_scope.

(** C95.  If the draws of a call of RandomRec.recommend are exchangeable and without ties, the
    average of the hit rate is the mean over the tested users of k over the number of items the
    user has not seen (nothing for a tested item that the user has seen or that is unknown),
    whatever argpartition does.  Nothing is asked about the joint distribution of the draws
    of different users. *)
Theorem random_hit_rate_is_chance :
  forall (A : Type) (leb : A -> A -> bool),
  (forall x y z, leb x y = true -> leb y z = true -> leb x z = true) ->
  (forall x y, leb x y = true -> leb y x = true -> x = y) ->
  forall argpart, argpartition_contract leb argpart ->
  forall (st : rec_state A) (users test : list Z) (k : nat) (outcomes : list (list (list A))),
    wf_state st -> (forall j j' x, g_of (m_items (rs_mappings st)) j = Some x -> g_of (m_items (rs_mappings st)) j' = Some x -> j = j') ->
    (2 <= rs_n_items st)%nat -> (1 <= k)%nat -> users <> [] -> length test = length users ->
    (forall uid, In uid users -> exists u, f_of (m_users (rs_mappings st)) uid = Some u /\ (Nat.min k (rs_n_items st) <= length (new_to st u))%nat) ->
    outcomes <> [] ->
    Forall (fun draws => length draws = length users /\ Forall (fun s => length s = rs_n_items st /\ NoDup s) draws) outcomes ->
    exchangeable (rs_n_items st) outcomes ->
    exists hs, Forall2 (fun draws h => exists rows, random_recommend argpart st draws users k true false = Ok rows /\ hr rows test = Ok h) outcomes hs /\
      (mean hs == mean (map (fun ut => chance st (Nat.min k (rs_n_items st)) (fst ut) (snd ut)) (combine users test)))%Q.
Proof. exact @chance_main. Qed.
Print Assumptions random_hit_rate_is_chance.

(** Three items, two users of whom the first has seen item 10; every pair of orders of the
    scores 1, 2, 3 is equally likely. *)
Definition orders : list (list Z) := [[1; 2; 3]; [1; 3; 2]; [2; 1; 3]; [2; 3; 1]; [3; 1; 2]; [3; 2; 1]].
Definition c_outcomes : list (list (list Z)) := flat_map (fun p => map (fun q => [p; q]) orders) orders.
Definition c_state : rec_state Z :=
  mkRec (mkMappings (get_cont_mapping_struct [7; 8] 0) (get_cont_mapping_struct [10; 20; 30] 0)) 2 3 [(0, 0)] (fun _ => Ok [0; 0; 0]).
Lemma distinct_b {X} (dec : forall x y : X, {x = y} + {x <> y}) (l : list X) :
  (fix go l := match l with [] => true | x :: r => negb (existsb (fun y => if dec x y then true else false) r) && go r end) l = true -> NoDup l.
Proof.
  induction l as [|x l IH]; intro H; constructor; apply andb_true_iff in H as [H1 H2]; [|now apply IH].
  intro I. apply negb_true_iff in H1. enough (T : existsb (fun y => if dec x y then true else false) l = true) by congruence.
  apply existsb_exists. exists x. split; [exact I|]. now destruct (dec x x).
Qed.
Definition same_outcome (x y : list (list Z)) : {x = y} + {x <> y} := list_eq_dec (list_eq_dec Z.eq_dec) x y.
Example exchangeable_case : exchangeable 3 c_outcomes.
Proof.
  intros i a b Ha Hb. destruct i as [|[|i]].
  3:{ replace (map (on_entry (S (S i)) (exchange a b)) c_outcomes) with c_outcomes; [apply Permutation_refl|].
      unfold c_outcomes. cbn [flat_map map orders app]. cbn. destruct i; reflexivity. }
  all: destruct a as [|[|[|a]]]; [| | |lia]; destruct b as [|[|[|b]]]; [| | |lia| | | |lia| | | |lia];
    (apply NoDup_Permutation_bis; [apply (distinct_b same_outcome); vm_compute; reflexivity|vm_compute; lia|
     intros x I; vm_compute in I; repeat (destruct I as [<-|I]; [vm_compute; tauto|]); contradiction]).
Qed.
Example chance_case :
  wf_state c_state /\
  (mean (map (fun ut => chance c_state 1 (fst ut) (snd ut)) (combine [7; 8]%Z [20; 30]%Z)) == 5 # 12)%Q /\
  (mean (map (fun d => match random_recommend argpart_sorted c_state d [7; 8]%Z 1 true false with
                       | Ok rows => match hr rows [20; 30]%Z with Ok h => h | Err _ => 0 end | Err _ => 0 end) c_outcomes) == 5 # 12)%Q.
Proof.
  split; [|split; vm_compute; reflexivity]. repeat split; cbn in *.
  1-4: destruct H as [H|[]]; inversion H; subst; lia.
  - intros u Hu. eexists. split; reflexivity.
  - unfold f_of in H. cbn in H. destruct (k =? 7); [|destruct (k =? 8)]; inversion H; lia.
  - unfold f_of in H. cbn in H. destruct (k =? 7); [|destruct (k =? 8)]; inversion H; lia.
  - intros j Hj. assert (j = 0 \/ j = 1 \/ j = 2) as [->|[->| ->]] by lia; eexists; reflexivity.
Qed.
(** The theorem applied to this case. *)
Example chance_hypotheses_case : forall argpart, argpartition_contract Z.leb argpart ->
  exists hs, Forall2 (fun draws h => exists rows, random_recommend argpart c_state draws [7; 8] 1 true false = Ok rows /\ hr rows [20; 30] = Ok h) c_outcomes hs /\
    (mean hs == 5 # 12)%Q.
Proof.
  intros argpart HA.
  destruct (random_hit_rate_is_chance Z Z.leb) with (argpart := argpart) (st := c_state) (users := [7; 8]) (test := [20; 30]) (k := 1%nat) (outcomes := c_outcomes) as (hs & H1 & H2).
  - intros x y z H1 H2. apply Z.leb_le in H1, H2. apply Z.leb_le. lia.
  - intros x y H1 H2. apply Z.leb_le in H1, H2. lia.
  - exact HA.
  - exact (proj1 chance_case).
  - intros j j' x H1 H2. unfold g_of in H1, H2. cbn in H1, H2.
    destruct (j =? 0) eqn:E0; [|destruct (j =? 1) eqn:E1; [|destruct (j =? 2) eqn:E2; [|discriminate H1]]];
      (destruct (j' =? 0) eqn:F0; [|destruct (j' =? 1) eqn:F1; [|destruct (j' =? 2) eqn:F2; [|discriminate H2]]]); try congruence; lia.
  - cbn. lia.
  - lia.
  - discriminate.
  - reflexivity.
  - intros uid [<-|[<-|[]]]; eexists; split; try (vm_compute; reflexivity); vm_compute; lia.
  - discriminate.
  - apply Forall_forall. intros d I. unfold c_outcomes in I. apply in_flat_map in I as (p & Ip & I). apply in_map_iff in I as (q & <- & Iq).
    assert (G : forall s, In s orders -> length s = rs_n_items c_state /\ NoDup s).
    { intros s Is. repeat (destruct Is as [<-|Is]; [split; [reflexivity|apply (distinct_b Z.eq_dec); reflexivity]|]). destruct Is. }
    split; [reflexivity|]. repeat constructor; now apply G.
  - exact exchangeable_case.
  - exists hs. split; [exact H1|]. exact (Qeq_trans _ _ _ H2 (proj1 (proj2 chance_case))).
Qed.
