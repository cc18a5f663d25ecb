(** Experiments without users for the stability test. *)
From Coq Require Import ZArith QArith List Bool Lia Sorting.Permutation.
From Verif Require Import Prelude Prelude_proofs DataPrep_model Stream_model Tensor_model Matrix_model LinAlg_model Dynamic_model Dynamic_spec Dynamic_main.
Import ListNotations.
Open Scope Z_scope.

Section Nobody.
  Context {S D A V T : Type} (zero : A) (sub : A -> A -> A).
  Variables (norm : mat A -> V) (div : V -> V -> V) (minus_one : V) (clock : nat -> T).
  Variables (m : api S D A) (grow : D -> list row -> res D) (chunk_mode : bool).
  Notation run := (dynamical_experiment zero sub norm div minus_one clock m grow).

  Lemma nobody_fails hm st0 initial stream dyn : (forall s l, recommend m s [] true = Ok l -> l = []) ->
    (1 < n_steps hm (length stream))%nat -> run [] chunk_mode hm st0 initial stream <> Ok dyn.
  Proof.
    intros Hr L E. apply (proj1 (experiment_main _ _ _ _ _ _ _ _ _ _ _ _ _ _ _)) in E as (H & (R1 & R2 & R3 & R4) & _).
    destruct (R4 0%nat L) as (W & _).
    assert (Lg : (1 < length stream)%nat) by (unfold n_steps in L; destruct (0 <? hm); lia).
    destruct stream as [|c0 [|c1 s]]; cbn in Lg; try lia.
    destruct (R3 0%nat c0 ltac:(lia) eq_refl) as (_ & A0 & _). destruct (R3 1%nat c1 ltac:(lia) eq_refl) as (_ & A1 & _).
    rewrite (Hr _ _ A0), (Hr _ _ A1) in W. cbn in W. discriminate.
  Qed.

  Lemma unlimited_fails sort_counts initial_users left st0 initial stream :
    (forall l, Permutation (sort_counts l) l) ->
    (forall s l, recommend m s [] true = Ok l -> l = []) -> (1 < length stream)%nat ->
    forall dyn, run (get_users_stability sort_counts initial_users left 0) chunk_mode 0 st0 initial stream <> Ok dyn.
  Proof.
    intros P R L dyn.
    assert (E : get_users_stability sort_counts initial_users left 0 = []).
    { unfold get_users_stability. cbn [firstn].
      assert (F : filter (fun r : Z * Z => memZ (snd r) [] && memZ (fst r) (unique initial_users)) left = []).
      { induction left as [|r l IH]; auto. }
      rewrite F. cbn. pose proof (P []) as P0. apply Permutation_sym, Permutation_nil in P0. rewrite P0. reflexivity. }
    rewrite E. apply nobody_fails; auto.
  Qed.
End Nobody.
