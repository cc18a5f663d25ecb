(** Assembly of the recommendation theorems (C15-C17). *)
From Coq Require Import ZArith QArith List Bool Lia Permutation Sorted.
From Verif Require Import Prelude Prelude_proofs DataPrep_model DataPrep_proofs.
From Verif Require Import Recommend_model Recommend_spec Recommend_proofs.
From Verif Require Import Eval_model Eval_spec Eval_proofs.
Import ListNotations.
Open Scope Z_scope.

Lemma wf_history_fits {A} (st : rec_state A) :
  wf_state st -> history_fits (rs_history st) (rs_n_users st) (rs_n_items st) = true.
Proof.
  intros [H _]. unfold history_fits. apply forallb_forall. intros [u j] Hin.
  apply H in Hin. simpl. rewrite !andb_true_iff, !Z.leb_le, !Z.ltb_lt. lia.
Qed.

Lemma getitem_f_of m k u : getitem (old2new m) k = Ok u <-> f_of m k = Some u.
Proof. unfold getitem, f_of. destruct (dget k (old2new m)); split; intros H; congruence. Qed.

Lemma getitem_g_of m k u : getitem (new2old m) k = Ok u <-> g_of m k = Some u.
Proof. unfold getitem, g_of. destruct (dget k (new2old m)); split; intros H; congruence. Qed.

Section Main.
  Context {A : Type} (leb : A -> A -> bool).
  Hypothesis leb_trans : forall x y z, leb x y = true -> leb y z = true -> leb x z = true.
  Variable argpart : nat -> list A -> nat -> list nat.
  Hypothesis contract : argpartition_contract leb argpart.

  Lemma translate_items (st : rec_state A) row :
    wf_state st -> (forall j, In j row -> 0 <= j < Z.of_nat (rs_n_items st)) ->
    exists out, mapM (fun j => getitem (new2old (m_items (rs_mappings st))) j) row = Ok out
                /\ translated st row out.
  Proof.
    intros [_ [_ [_ WI]]] H. induction row as [|j row IH]; simpl.
    - exists []. split; auto. constructor.
    - destruct IH as [out [E T]]; [intros; apply H; right; auto|].
      destruct (WI j (H j (or_introl eq_refl))) as [x Hx].
      exists (x :: out). apply getitem_g_of in Hx as Hx'. rewrite Hx'. cbn [bind]. rewrite E. cbn [bind].
      split; auto. constructor; auto.
  Qed.

  Lemma user_ok (st : rec_state A) fv internal k i u :
    wf_state st -> (fv = true -> internal = false -> (2 <= rs_n_items st)%nat) ->
    0 <= u < Z.of_nat (rs_n_users st) -> (1 <= k <= rs_n_items st)%nat ->
    enough st fv k u ->
    exists row, recommend_user argpart st fv internal k i u = Ok row
                /\ row_for leb st fv internal k u row.
  Proof.
    intros W H2 Hu Hk He.
    destruct W as [WH [WS [WU WI]]]. destruct (WS u Hu) as [scores [ES HL]].
    destruct (user_internal_ok leb leb_trans argpart contract st fv k i u scores ES HL Hu Hk He)
      as [row [E [T LL]]].
    destruct internal.
    - exists row. split; auto. exists scores, row. split; [auto|]. split; [auto|]. split; auto.
    - destruct (translate_items st row) as [out [EO TO]].
      + exact (conj WH (conj WS (conj WU WI))).
      + intros j Hj. destruct T as [_ [_ [T _]]]. apply T in Hj. apply Hj.
      + exists out. rewrite user_external.
        * rewrite E. cbn [bind]. split; [exact EO|].
          exists scores, row. split; [auto|]. split; [auto|]. split; auto.
        * destruct fv; [right; apply H2; auto|left; auto].
  Qed.

  Lemma loop_ok (st : rec_state A) fv internal k us : forall i,
    wf_state st -> (fv = true -> internal = false -> (2 <= rs_n_items st)%nat) ->
    (1 <= k <= rs_n_items st)%nat ->
    (forall u, In u us -> 0 <= u < Z.of_nat (rs_n_users st) /\ enough st fv k u) ->
    exists rows, recommend_loop argpart st fv internal k i us = Ok rows
                 /\ Forall2 (row_for leb st fv internal k) us rows.
  Proof.
    induction us as [|u us IH]; intros i W H2 Hk HU; simpl.
    - exists []. split; auto.
    - destruct (user_ok st fv internal k i u W H2) as [row [E R]]; auto; try (apply HU; left; auto).
      destruct (IH (S i) W H2 Hk) as [rows [E' R']]; [intros; apply HU; right; auto|].
      exists (row :: rows). rewrite E. cbn [bind]. rewrite E'. cbn [bind]. split; auto.
  Qed.

  Lemma enough_dec (st : rec_state A) fv k u : enough st fv k u \/ ~ enough st fv k u.
  Proof.
    unfold enough. destruct fv; [|left; discriminate].
    destruct (le_lt_dec k (n_unseen (rs_history st) (rs_n_items st) u)); [left|right]; auto.
    intros H. specialize (H eq_refl). lia.
  Qed.

  Lemma not_enough_filtered (st : rec_state A) fv k u : ~ enough st fv k u -> fv = true.
  Proof. destruct fv; auto. intros H. exfalso. apply H. intros; discriminate. Qed.

  Lemma loop_err (st : rec_state A) fv internal k us : forall i,
    wf_state st -> (fv = true -> internal = false -> (2 <= rs_n_items st)%nat) ->
    (1 <= k <= rs_n_items st)%nat ->
    (forall u, In u us -> 0 <= u < Z.of_nat (rs_n_users st)) ->
    (exists u, In u us /\ ~ enough st fv k u) ->
    recommend_loop argpart st fv internal k i us = Err ValueError.
  Proof.
    induction us as [|u us IH]; intros i W H2 Hk HU [v [Hv NE]]; simpl; [destruct Hv|].
    destruct (enough_dec st fv k u) as [E|NE'].
    - destruct (user_ok st fv internal k i u W H2) as [row [ER _]]; auto; [apply HU; left; auto|].
      rewrite ER. cbn [bind]. rewrite IH; auto.
      + intros; apply HU; right; auto.
      + destruct Hv as [->|Hv]; [contradiction|]. eauto.
    - pose proof (not_enough_filtered _ _ _ _ NE'); subst.
      destruct W as [WH [WS [WU WI]]]. destruct (WS u (HU u (or_introl eq_refl))) as [sc [ES HL]].
      rewrite (user_filtered_err argpart st internal k i u sc); auto.
      apply HU; left; auto.
  Qed.

  Lemma known_users (st : rec_state A) users :
    (forall uid, In uid users -> exists u, f_of (m_users (rs_mappings st)) uid = Some u) ->
    exists us, mapM (fun uid => getitem (old2new (m_users (rs_mappings st))) uid) users = Ok us
      /\ Forall2 (fun uid u => f_of (m_users (rs_mappings st)) uid = Some u) users us.
  Proof.
    induction users as [|a l IH]; intros H; simpl.
    - exists []; auto.
    - destruct IH as [us [E F]]; [intros; apply H; right; auto|].
      destruct (H a (or_introl eq_refl)) as [u Hu]. exists (u :: us).
      rewrite (proj2 (getitem_f_of _ _ _) Hu). cbn [bind]. rewrite E. cbn [bind]. split; auto.
  Qed.

  Lemma unknown_user (st : rec_state A) users uid :
    In uid users -> f_of (m_users (rs_mappings st)) uid = None ->
    mapM (fun uid => getitem (old2new (m_users (rs_mappings st))) uid) users = Err KeyError.
  Proof.
    induction users as [|a l IH]; intros Hin N; [destruct Hin|].
    destruct Hin as [->|Hin]; simpl.
    - unfold getitem at 1. unfold f_of in N. rewrite N. reflexivity.
    - destruct (getitem _ a) eqn:E; cbn [bind].
      + rewrite IH; auto.
      + apply getitem_err in E. congruence.
  Qed.

  Lemma Forall2_In_r {X Y} (P : X -> Y -> Prop) l l' y :
    Forall2 P l l' -> In y l' -> exists x, In x l /\ P x y.
  Proof.
    induction 1 as [|a b l l' H F IH]; intros Hin; [destruct Hin|].
    destruct Hin as [->|Hin]; [exists a; simpl; auto|].
    destruct (IH Hin) as [x [Hx HP]]. exists x; simpl; auto.
  Qed.

  Lemma Forall2_In_l {X Y} (P : X -> Y -> Prop) l l' x :
    Forall2 P l l' -> In x l -> exists y, In y l' /\ P x y.
  Proof.
    induction 1 as [|a b l l' H F IH]; intros Hin; [destruct Hin|].
    destruct Hin as [->|Hin]; [exists b; simpl; auto|].
    destruct (IH Hin) as [y [Hy HP]]. exists y; simpl; auto.
  Qed.

  (** Exact outcome. *)
  Lemma recommend_cases (st : rec_state A) users k fv internal :
    wf_state st -> (1 <= rs_n_items st)%nat ->
    (fv = true -> internal = false -> (2 <= rs_n_items st)%nat) -> (1 <= k)%nat ->
    (exists uid, In uid users /\ f_of (m_users (rs_mappings st)) uid = None
       /\ recommend argpart st users k fv internal = Err KeyError)
    \/ ((forall uid, In uid users -> exists u, f_of (m_users (rs_mappings st)) uid = Some u)
        /\ (exists uid u, In uid users /\ f_of (m_users (rs_mappings st)) uid = Some u
              /\ ~ enough st fv (Nat.min k (rs_n_items st)) u)
        /\ recommend argpart st users k fv internal = Err ValueError)
    \/ ((forall uid, In uid users -> exists u, f_of (m_users (rs_mappings st)) uid = Some u
              /\ enough st fv (Nat.min k (rs_n_items st)) u)
        /\ exists rows, recommend argpart st users k fv internal = Ok rows
           /\ Forall2 (fun uid row => exists u, f_of (m_users (rs_mappings st)) uid = Some u
                 /\ row_for leb st fv internal (Nat.min k (rs_n_items st)) u row) users rows).
  Proof.
    intros W Hn H2 Hk.
    assert (D : forall uid, {f_of (m_users (rs_mappings st)) uid <> None}
                            + {~ f_of (m_users (rs_mappings st)) uid <> None}).
    { intros uid. destruct (f_of (m_users (rs_mappings st)) uid); [left; discriminate|right; auto]. }
    destruct (Forall_Exists_dec _ D users) as [F|E].
    2:{ left. apply Exists_exists in E as [uid [Hin N]].
        assert (N' : f_of (m_users (rs_mappings st)) uid = None)
          by (destruct (f_of _ uid); auto; exfalso; apply N; congruence).
        exists uid. split; auto. split; auto. unfold recommend.
        rewrite (unknown_user st users uid); auto. }
    right. rewrite Forall_forall in F.
    assert (K : forall uid, In uid users -> exists u, f_of (m_users (rs_mappings st)) uid = Some u).
    { intros uid Hin. specialize (F uid Hin). destruct (f_of _ uid); [eauto|congruence]. }
    destruct (known_users st users K) as [us [EU FU]].
    assert (RU : forall u, In u us -> 0 <= u < Z.of_nat (rs_n_users st)).
    { intros u Hu. destruct (Forall2_In_r _ _ _ _ FU Hu) as [uid [_ Hf]].
      destruct W as [_ [_ [WU _]]]. eapply WU; eauto. }
    assert (ER : recommend argpart st users k fv internal
                 = recommend_loop argpart st fv internal (Nat.min k (rs_n_items st)) 0 us).
    { unfold recommend. rewrite EU. cbn [bind]. rewrite (wf_history_fits st W).
      rewrite andb_false_r. reflexivity. }
    destruct (Forall_Exists_dec (enough st fv (Nat.min k (rs_n_items st)))
       (fun u => match fv as b return {enough st b (Nat.min k (rs_n_items st)) u}
                                     + {~ enough st b (Nat.min k (rs_n_items st)) u} with
                 | true => match le_lt_dec (Nat.min k (rs_n_items st))
                                           (n_unseen (rs_history st) (rs_n_items st) u) with
                           | left l => left (fun _ => l)
                           | right g => right (fun H => Nat.lt_irrefl _
                                 (Nat.lt_le_trans _ _ _ g (H eq_refl)))
                           end
                 | false => left (fun H => match Bool.diff_false_true H with end)
                 end) us) as [G|G].
    - right. rewrite Forall_forall in G. split.
      + intros uid Hin. destruct (Forall2_In_l _ _ _ _ FU Hin) as [u [Hu Hf]]. exists u; auto.
      + destruct (loop_ok st fv internal (Nat.min k (rs_n_items st)) us 0 W H2) as [rows [EL FL]].
        * lia.
        * intros u Hu. auto.
        * exists rows. split; [congruence|].
          clear - FU FL. revert rows FL. induction FU as [|uid u users us Hf FU IH]; intros rows FL;
            inversion FL; subst; constructor; eauto.
    - left. apply Exists_exists in G as [u [Hu NE]]. split; [auto|]. split.
      + destruct (Forall2_In_r _ _ _ _ FU Hu) as [uid [Hin Hf]]. exists uid, u; auto.
      + rewrite ER. apply loop_err; auto; [lia|]. eauto.
  Qed.
End Main.

(** Two top-k rows over pairwise different scores contain the same items. *)
Lemma top_k_unique {A} (leb : A -> A -> bool) (st : rec_state A) fv u scores k r1 r2 :
  (forall x y, leb x y = true -> leb y x = true -> x = y) ->
  NoDup scores -> length scores = rs_n_items st ->
  is_top_k leb st fv u scores k r1 -> is_top_k leb st fv u scores k r2 ->
  Permutation r1 r2.
Proof.
  intros anti ND HL [L1 [N1 [C1 T1]]] [L2 [N2 [C2 T2]]].
  assert (G : forall j, candidate st fv u j -> exists x, nth_error scores (Z.to_nat j) = Some x).
  { intros j [Hj _]. destruct (nth_error scores (Z.to_nat j)) eqn:E; [eauto|].
    apply nth_error_None in E. lia. }
  assert (I : forall j, In j r1 -> In j r2).
  { intros j Hj. destruct (in_dec Z.eq_dec j r2) as [|Nj]; auto. exfalso.
    destruct (Forall_Exists_dec (fun x => In x r1) (fun x => in_dec Z.eq_dec x r1) r2) as [F|E].
    - assert (incl r2 r1) by (intros x; apply (proj1 (Forall_forall _ _) F)).
      apply Nj. refine (NoDup_length_incl N2 _ H j Hj). lia.
    - apply Exists_exists in E as [j' [Hj' Nj']].
      destruct (G j (C1 j Hj)) as [x Hx]. destruct (G j' (C2 j' Hj')) as [y Hy].
      pose proof (T1 j j' x y Hj (C2 j' Hj') Nj' Hx Hy) as L.
      pose proof (T2 j' j y x Hj' (C1 j Hj) Nj Hy Hx) as L'.
      assert (x = y) by auto. subst y.
      assert (Z.to_nat j = Z.to_nat j').
      { apply (proj1 (NoDup_nth_error scores) ND); [apply nth_error_Some; congruence|congruence]. }
      destruct (C1 j Hj) as [B1 _]. destruct (C2 j' Hj') as [B2 _].
      assert (j = j') by lia. subst; contradiction. }
  apply NoDup_Permutation_bis; auto. lia.
Qed.

Lemma translated_perm {A} (st : rec_state A) r1 r2 o1 o2 :
  Permutation r1 r2 -> translated st r1 o1 -> translated st r2 o2 -> Permutation o1 o2.
Proof.
  unfold translated.
  assert (M : forall r o, Forall2 (fun j x => g_of (m_items (rs_mappings st)) j = Some x) r o ->
            o = map (fun j => match g_of (m_items (rs_mappings st)) j with Some x => x | None => 0 end) r).
  { induction 1 as [|j x r o H F IH]; simpl; auto. rewrite H. f_equal; auto. }
  intros P T1 T2. apply M in T1, T2. subst. apply Permutation_map; auto.
Qed.

Lemma rows_same_items_main :
  forall {A} (leb : A -> A -> bool),
    (forall x y z, leb x y = true -> leb y z = true -> leb x z = true) ->
    (forall x y, leb x y = true -> leb y x = true -> x = y) ->
  forall ap1 ap2, argpartition_contract leb ap1 -> argpartition_contract leb ap2 ->
  forall st users k fv internal rows1 rows2,
    wf_state st -> (1 <= k)%nat -> (1 <= rs_n_items st)%nat ->
    (fv = true -> internal = false -> (2 <= rs_n_items st)%nat) ->
    (forall u s, rs_scores st u = Ok s -> NoDup s) ->
    recommend ap1 st users k fv internal = Ok rows1 ->
    recommend ap2 st users k fv internal = Ok rows2 ->
    Forall2 (@Permutation Z) rows1 rows2.
Proof.
  intros A leb trans anti ap1 ap2 H1 H2 st users k fv internal rows1 rows2 W Hk Hn Hi HN R1 R2.
  destruct (recommend_cases leb trans ap1 H1 st users k fv internal W Hn Hi Hk)
    as [[? [_ [_ E]]]|[[_ [_ E]]|[_ [rows1' [E1 F1]]]]]; try congruence.
  destruct (recommend_cases leb trans ap2 H2 st users k fv internal W Hn Hi Hk)
    as [[? [_ [_ E]]]|[[_ [_ E]]|[_ [rows2' [E2 F2]]]]]; try congruence.
  assert (rows1' = rows1) by congruence. assert (rows2' = rows2) by congruence. subst.
  clear R1 R2 E1 E2.
  revert rows2 F2. induction F1 as [|uid r1 users rows1 [u1 [Hu1 P1]] F1 IH]; intros rows2 F2;
    inversion F2 as [|? r2 ? rows2' [u2 [Hu2 P2]] F2']; subst; constructor; auto.
  assert (u2 = u1) by congruence. subst u2. clear F1 IH F2 F2'.
  destruct P1 as [s1 [i1 [ES1 [T1 [_ X1]]]]]. destruct P2 as [s2 [i2 [ES2 [T2 [_ X2]]]]].
  assert (s2 = s1) by congruence. subst s2.
  assert (HL : length s1 = rs_n_items st).
  { destruct W as [_ [WS [WU _]]]. destruct (WS u1 (WU _ _ Hu1)) as [s [E L]]. congruence. }
  assert (P : Permutation i1 i2) by (eapply top_k_unique; eauto).
  destruct internal; [congruence|]. eapply translated_perm; eauto.
Qed.

Lemma hr_same_main :
  forall {A} (leb : A -> A -> bool),
    (forall x y z, leb x y = true -> leb y z = true -> leb x z = true) ->
    (forall x y, leb x y = true -> leb y x = true -> x = y) ->
  forall ap1 ap2, argpartition_contract leb ap1 -> argpartition_contract leb ap2 ->
  forall st users k fv internal rows1 rows2 test h1 h2,
    wf_state st -> (1 <= k)%nat -> (1 <= rs_n_items st)%nat ->
    (fv = true -> internal = false -> (2 <= rs_n_items st)%nat) ->
    (forall u s, rs_scores st u = Ok s -> NoDup s) ->
    recommend ap1 st users k fv internal = Ok rows1 ->
    recommend ap2 st users k fv internal = Ok rows2 ->
    length test = length users ->
    hr rows1 test = Ok h1 -> hr rows2 test = Ok h2 -> Qeq h1 h2.
Proof.
  intros A leb trans anti ap1 ap2 H1 H2 st users k fv internal rows1 rows2 test h1 h2
         W Hk Hn Hi HN R1 R2 HT E1 E2.
  pose proof (rows_same_items_main leb trans anti ap1 ap2 H1 H2 st users k fv internal rows1 rows2
                W Hk Hn Hi HN R1 R2) as F.
  assert (L1 : length rows1 = length users).
  { destruct (recommend_cases leb trans ap1 H1 st users k fv internal W Hn Hi Hk)
      as [[? [_ [_ E]]]|[[_ [_ E]]|[_ [rows1' [E F1]]]]]; try congruence.
    assert (rows1' = rows1) by congruence. subst. apply Forall2_len in F1. lia. }
  pose proof (Forall2_len _ _ _ F) as L2.
  apply Qle_antisym.
  - eapply (hr_grow_main rows1 rows2 test); eauto; [lia|].
    eapply Forall2_impl; [|exact F]. intros a b P x. apply Permutation_in; auto.
  - eapply (hr_grow_main rows2 rows1 test); eauto; [lia|].
    clear - F. induction F; constructor; auto. intros z. apply Permutation_in. symmetry; auto.
Qed.

(** Two oracles that satisfy the contract. *)
Definition score_at (a : list Z) (n : nat) : Z := nth n a 0.
Definition sorted_positions (a : list Z) : list nat :=
  sort_stable (fun m n => score_at a m <=? score_at a n) (seq 0 (length a)).
Definition argpart_sorted (_ : nat) (a : list Z) (_ : nat) : list nat := sorted_positions a.
Definition argpart_tail_reversed (_ : nat) (a : list Z) (kth : nat) : list nat :=
  firstn (S kth) (sorted_positions a) ++ rev (skipn (S kth) (sorted_positions a)).

Lemma sorted_positions_perm a : Permutation (sorted_positions a) (seq 0 (length a)).
Proof. symmetry. apply sort_stable_perm. Qed.

Lemma StronglySorted_split {X} (R : X -> X -> Prop) pre m post :
  StronglySorted R (pre ++ m :: post) ->
  (forall x, In x pre -> R x m) /\ (forall x, In x post -> R m x).
Proof.
  induction pre as [|y pre IH]; simpl; intros H; inversion H as [|? ? H1 H2]; subst.
  - split; [intros x []|]. apply Forall_forall; auto.
  - destruct (IH H1) as [I1 I2]. split; auto. intros x [->|Hx]; auto.
    rewrite Forall_forall in H2. apply H2. apply in_or_app; right; left; auto.
Qed.

Lemma sorted_positions_split a kth :
  (kth < length a)%nat ->
  exists pre m post, sorted_positions a = pre ++ m :: post /\ length pre = kth
    /\ (forall x, In x pre -> score_at a x <= score_at a m)
    /\ (forall x, In x post -> score_at a m <= score_at a x).
Proof.
  intros H.
  assert (L : length (sorted_positions a) = length a).
  { pose proof (Permutation_length (sorted_positions_perm a)) as L. rewrite seq_length in L; auto. }
  assert (S : StronglySorted (fun m n => (score_at a m <=? score_at a n) = true) (sorted_positions a)).
  { apply sort_stable_sorted.
    - intros x y. rewrite !Z.leb_le. lia.
    - intros x y z. rewrite !Z.leb_le. lia. }
  destruct (nth_error (sorted_positions a) kth) as [m|] eqn:E;
    [|apply nth_error_None in E; lia].
  apply nth_error_split in E as [pre [post [E LP]]].
  exists pre, m, post. split; auto. split; auto.
  rewrite E in S. apply StronglySorted_split in S as [S1 S2].
  split; intros x Hx; [apply S1 in Hx|apply S2 in Hx]; apply Z.leb_le in Hx; auto.
Qed.

Lemma pivot_contract a kth p pre m post :
  Permutation p (seq 0 (length a)) -> p = pre ++ m :: post -> length pre = kth ->
  (forall x, In x pre -> score_at a x <= score_at a m) ->
  (forall x, In x post -> score_at a m <= score_at a x) ->
  Permutation p (seq 0 (length a))
  /\ forall m x j n y,
       nth_error p kth = Some m -> nth_error a m = Some x ->
       nth_error p j = Some n -> nth_error a n = Some y ->
       ((j < kth)%nat -> (y <=? x) = true) /\ ((kth <= j)%nat -> (x <=? y) = true).
Proof.
  intros P Ep Lp Hpre Hpost. split; auto. intros m' x j n y Em Hx Ej Hy.
  assert (m' = m).
  { rewrite Ep, nth_error_app2 in Em by lia. rewrite Lp, Nat.sub_diag in Em. simpl in Em. congruence. }
  subst m'.
  assert (Sx : score_at a m = x) by (unfold score_at; apply nth_error_nth with (d := 0) in Hx; auto).
  assert (Sy : score_at a n = y) by (unfold score_at; apply nth_error_nth with (d := 0) in Hy; auto).
  rewrite !Z.leb_le. split; intros Hj.
  - rewrite Ep, nth_error_app1 in Ej by lia. apply nth_error_In in Ej. apply Hpre in Ej. lia.
  - rewrite Ep, nth_error_app2 in Ej by lia. destruct (j - length pre)%nat as [|q] eqn:Eq.
    + simpl in Ej. inversion Ej; subst. lia.
    + simpl in Ej. apply nth_error_In in Ej. apply Hpost in Ej. lia.
Qed.

Lemma argpart_sorted_contract : argpartition_contract Z.leb argpart_sorted.
Proof.
  intros i a kth H. destruct (sorted_positions_split a kth H) as [pre [m [post [E [L [H1 H2]]]]]].
  unfold argpart_sorted. eapply pivot_contract; eauto. apply sorted_positions_perm.
Qed.

Lemma argpart_tail_reversed_contract : argpartition_contract Z.leb argpart_tail_reversed.
Proof.
  intros i a kth H. destruct (sorted_positions_split a kth H) as [pre [m [post [E [L [H1 H2]]]]]].
  unfold argpart_tail_reversed.
  assert (E1 : firstn (S kth) (sorted_positions a) = pre ++ [m]).
  { rewrite E, firstn_app, firstn_all2 by lia. f_equal.
    replace (S kth - length pre)%nat with 1%nat by lia. reflexivity. }
  assert (E2 : skipn (S kth) (sorted_positions a) = post).
  { rewrite E, skipn_app, skipn_all2 by lia.
    replace (S kth - length pre)%nat with 1%nat by lia. reflexivity. }
  rewrite E1, E2, <- app_assoc. simpl. eapply (pivot_contract a kth _ pre m (rev post)); eauto.
  - etransitivity; [|apply sorted_positions_perm]. rewrite E.
    apply Permutation_app_head. constructor. symmetry. apply Permutation_rev.
  - intros x Hx. rewrite <- in_rev in Hx. auto.
Qed.

(** A three-user, four-item state used by the examples and refutations. *)
Definition demo_state : rec_state Z :=
  mkRec (mkMappings (get_cont_mapping_struct [100; 200; 300] 0)
                    (get_cont_mapping_struct [11; 22; 33; 44] 0))
        3 4 [(0, 2); (1, 0); (1, 1); (1, 3); (2, 3)]
        (fun u => Ok (if u =? 1 then [4; 3; 2; 1] else [1; 2; 3; 0])).

Lemma small_cases (P : Z -> Prop) (n : nat) :
  (forall m, (m < n)%nat -> P (Z.of_nat m)) -> forall u, 0 <= u < Z.of_nat n -> P u.
Proof. intros H u Hu. replace u with (Z.of_nat (Z.to_nat u)) by lia. apply H. lia. Qed.

Lemma demo_state_wf : wf_state demo_state.
Proof.
  repeat split; simpl in *.
  1-4: repeat (destruct H as [H|H]; [inversion H; subst; lia|]); destruct H.
  - intros u Hu. eexists. split; [reflexivity|]. destruct (u =? 1); reflexivity.
  - unfold f_of in H. cbn in H.
    destruct (k =? 100); [|destruct (k =? 200); [|destruct (k =? 300)]]; inversion H; lia.
  - unfold f_of in H. cbn in H.
    destruct (k =? 100); [|destruct (k =? 200); [|destruct (k =? 300)]]; inversion H; lia.
  - apply (small_cases (fun j => exists x, g_of (get_cont_mapping_struct [11; 22; 33; 44] 0) j = Some x) 4).
    intros m Hm. do 4 (destruct m as [|m]; [eexists; reflexivity|]). lia.
Qed.

Lemma demo_scores_NoDup : forall u s, rs_scores demo_state u = Ok s -> NoDup s.
Proof.
  intros u s H. cbn in H. inversion H; subst; clear H. destruct (u =? 1).
  - repeat constructor; cbn; intuition discriminate.
  - repeat constructor; cbn; intuition discriminate.
Qed.

Lemma recommend_top_k_main :
  forall {A} (leb : A -> A -> bool),
    (forall x y z, leb x y = true -> leb y z = true -> leb x z = true) ->
  forall argpart, argpartition_contract leb argpart ->
  forall st users k fv internal rows,
    wf_state st -> (1 <= k)%nat -> (1 <= rs_n_items st)%nat ->
    (fv = true -> internal = false -> (2 <= rs_n_items st)%nat) ->
    recommend argpart st users k fv internal = Ok rows ->
    Forall2 (fun uid row => exists u scores irow,
        f_of (m_users (rs_mappings st)) uid = Some u
        /\ rs_scores st u = Ok scores
        /\ is_top_k leb st fv u scores (Nat.min k (rs_n_items st)) irow
        /\ (if internal then row = irow else translated st irow row)) users rows.
Proof.
  intros A leb trans argpart C st users k fv internal rows W Hk Hn Hi R.
  destruct (recommend_cases leb trans argpart C st users k fv internal W Hn Hi Hk)
    as [[? [_ [_ E]]]|[[_ [_ E]]|[_ [rows' [E F]]]]]; try congruence.
  assert (rows' = rows) by congruence. subst.
  eapply Forall2_impl; [|exact F].
  intros uid row [u [Hu [s [ir [H1 [H2 [_ H3]]]]]]]. exists u, s, ir. auto.
Qed.

Lemma recommend_outcome_main :
  forall {A} (leb : A -> A -> bool),
    (forall x y z, leb x y = true -> leb y z = true -> leb x z = true) ->
  forall argpart, argpartition_contract leb argpart ->
  forall st users k fv internal,
    wf_state st -> (1 <= k)%nat -> (2 <= rs_n_items st)%nat ->
    let K := Nat.min k (rs_n_items st) in
    ((exists rows, recommend argpart st users k fv internal = Ok rows)
     <-> forall uid, In uid users -> exists u, f_of (m_users (rs_mappings st)) uid = Some u
           /\ (fv = true -> (K <= n_unseen (rs_history st) (rs_n_items st) u)%nat))
    /\ (recommend argpart st users k fv internal = Err KeyError
        <-> exists uid, In uid users /\ f_of (m_users (rs_mappings st)) uid = None)
    /\ (forall e, recommend argpart st users k fv internal = Err e -> e = KeyError \/ e = ValueError).
Proof.
  intros A leb trans argpart C st users k fv internal W Hk Hn K.
  destruct (recommend_cases leb trans argpart C st users k fv internal W ltac:(lia)
              ltac:(intros; lia) Hk) as [[uid [I [N E]]]|[[Kn [[uid [u [I [Hu NE]]]] E]]|[G [rows [E F]]]]].
  - split; [|split].
    + split; [intros [r R]; congruence|]. intros H. destruct (H uid I) as [u [Hu _]]. congruence.
    + split; [eauto|auto].
    + intros e R. left. congruence.
  - split; [|split].
    + split; [intros [r R]; congruence|]. intros H. destruct (H uid I) as [u' [Hu' He]].
      exfalso. apply NE. assert (u' = u) by congruence. subst. exact He.
    + split; [congruence|]. intros [uid' [I' N']]. destruct (Kn uid' I') as [? ?]. congruence.
    + intros e R. right. congruence.
  - split; [|split].
    + split; [intros _; exact G|eauto].
    + split; [congruence|]. intros [uid' [I' N']]. destruct (G uid' I') as [? [? _]]. congruence.
    + congruence.
Qed.

Lemma recommend_single_item_main :
  forall {A} (argpart : nat -> list A -> nat -> list nat) st users k,
    wf_state st -> (1 <= k)%nat -> rs_n_items st = 1%nat -> users <> [] ->
    (forall uid, In uid users -> exists u, f_of (m_users (rs_mappings st)) uid = Some u) ->
    forall rows, recommend argpart st users k true false <> Ok rows.
Proof.
  intros A argpart st users k W Hk Hn NE Kn rows.
  destruct (known_users st users Kn) as [us [EU FU]].
  unfold recommend. rewrite EU. cbn [bind]. rewrite (wf_history_fits st W). cbn [negb andb].
  destruct FU as [|uid u users us Hu FU]; [congruence|]. cbn [recommend_loop].
  unfold recommend_user at 1.
  destruct (rs_scores st u) as [sc|]; cbn [bind]; [|discriminate].
  destruct ((0 <=? u) && (u <? Z.of_nat (rs_n_users st))); [|discriminate]. cbv zeta.
  destruct (top_positions _ _ _ _) as [idx|]; cbn [bind]; [|discriminate].
  destruct (take_all _ _) as [c|]; cbn [bind]; [|discriminate].
  rewrite Hn. discriminate.
Qed.

Lemma recommend_last_lowest_main :
  forall {A} (leb : A -> A -> bool),
    (forall x y z, leb x y = true -> leb y z = true -> leb x z = true) ->
  forall argpart, argpartition_contract leb argpart ->
  forall st users k fv rows,
    wf_state st -> (1 <= k)%nat -> (1 <= rs_n_items st)%nat ->
    recommend argpart st users k fv true = Ok rows ->
    Forall2 (fun uid row => exists u scores,
        f_of (m_users (rs_mappings st)) uid = Some u
        /\ rs_scores st u = Ok scores /\ last_is_lowest leb scores row) users rows.
Proof.
  intros A leb trans argpart C st users k fv rows W Hk Hn R.
  destruct (recommend_cases leb trans argpart C st users k fv true W Hn
              ltac:(intros; discriminate) Hk)
    as [[? [_ [_ E]]]|[[_ [_ E]]|[_ [rows' [E F]]]]]; try congruence.
  assert (rows' = rows) by congruence. subst.
  eapply Forall2_impl; [|exact F].
  intros uid row [u [Hu [s [ir [H1 [_ [H2 H3]]]]]]]. simpl in H3. subst. exists u, s. auto.
Qed.

Lemma rows_not_sorted_main :
  exists (argpart : nat -> list Z -> nat -> list nat) st users k row0 rest scores,
    argpartition_contract Z.leb argpart /\ wf_state st
    /\ rs_scores st 0 = Ok scores
    /\ f_of (m_users (rs_mappings st)) (hd 0 users) = Some 0
    /\ recommend argpart st users k false true = Ok ((row0 :: rest) :: [])
    /\ exists best, In best rest
       /\ score_at scores (Z.to_nat row0) < score_at scores (Z.to_nat best).
Proof.
  exists argpart_tail_reversed, demo_state, [100], 3%nat, 1, [2; 0], [1; 2; 3; 0].
  split; [apply argpart_tail_reversed_contract|]. split; [apply demo_state_wf|].
  split; [reflexivity|]. split; [reflexivity|]. split; [reflexivity|].
  exists 2. split; [left; reflexivity|]. reflexivity.
Qed.

Lemma mrr_depends_main :
  exists (ap1 ap2 : nat -> list Z -> nat -> list nat) st users test k rows1 rows2 m1 m2 h,
    argpartition_contract Z.leb ap1 /\ argpartition_contract Z.leb ap2 /\ wf_state st
    /\ (forall u s, rs_scores st u = Ok s -> NoDup s)
    /\ recommend ap1 st users k true false = Ok rows1
    /\ recommend ap2 st users k true false = Ok rows2
    /\ mrr rows1 test = Ok m1 /\ mrr rows2 test = Ok m2 /\ ~ Qeq m1 m2
    /\ hr rows1 test = Ok h /\ hr rows2 test = Ok h.
Proof.
  exists argpart_sorted, argpart_tail_reversed, demo_state, [300], [33], 3%nat,
         [[33; 22; 11]], [[22; 33; 11]], ((1 # 1) / 1)%Q, ((1 # 2) / 1)%Q, (1 / 1)%Q.
  split; [apply argpart_sorted_contract|].
  split; [apply argpart_tail_reversed_contract|].
  split; [apply demo_state_wf|]. split; [apply demo_scores_NoDup|].
  split; [reflexivity|]. split; [reflexivity|]. split; [reflexivity|]. split; [reflexivity|].
  split; [discriminate|]. split; reflexivity.
Qed.
