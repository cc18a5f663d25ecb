(** Rearrangements of the rows, range of the MRR, tied candidates. *)
From Coq Require Import ZArith QArith List Bool Lia Permutation Sorted.
From Verif Require Import Prelude Prelude_proofs DataPrep_model DataPrep_proofs Recommend_model Recommend_spec Recommend_proofs Recommend_main Eval_model Eval_spec Eval_proofs Blind_spec Blind_rec.
Import ListNotations.
Open Scope Z_scope.

Lemma Forall2_flip {A B} (P : A -> B -> Prop) l l' : Forall2 P l l' -> Forall2 (fun y x => P x y) l' l.
Proof. induction 1; auto. Qed.
Lemma same_perm row row' : same_but_order row row' -> Permutation row row'.
Proof. intros [pre [pre' [l [-> [-> P]]]]]. now apply Permutation_app_tail. Qed.
Lemma same_members row row' : same_but_order row row' -> (forall x, In x row <-> In x row') /\ length row = length row'.
Proof.
  intros SB. apply same_perm in SB. split; [|now apply Permutation_length].
  intros x. split; apply Permutation_in; auto. now symmetry.
Qed.
Lemma same_NoDup row row' : same_but_order row row' -> NoDup row -> NoDup row'.
Proof. intros SB. apply Permutation_NoDup, same_perm, SB. Qed.

Section Order.
  Context {A : Type} (leb : A -> A -> bool).
  Hypothesis leb_total : forall x y, leb x y = true \/ leb y x = true.
  Hypothesis leb_trans : forall x y z, leb x y = true -> leb y z = true -> leb x z = true.

  Lemma top_k_order (st : rec_state A) fv u scores k row row' : same_but_order row row' ->
    is_top_k leb st fv u scores k row -> is_top_k leb st fv u scores k row'.
  Proof.
    intros SB [L [N [C T]]]. destruct (same_members _ _ SB) as [M LL]. split; [congruence|]. split; [eapply same_NoDup; eauto|]. split.
    - intros j Hj. apply C, M, Hj.
    - intros i j x y Hi Hc Hn. apply T; auto; [now apply M|]. intros H. apply Hn, M, H.
  Qed.
  Lemma lowest_order scores row row' : same_but_order row row' -> last_is_lowest leb scores row -> last_is_lowest leb scores row'.
  Proof.
    intros SB L p l j x y E Hj. destruct (same_members _ _ SB) as [M _]. destruct SB as [pre [pre' [l' [E1 [E2 _]]]]].
    rewrite E2 in E. apply app_inj_tail in E as [_ <-]. apply (L pre l' j x y E1). now apply M.
  Qed.
  Lemma translated_order (st : rec_state A) irow row row' :
    same_but_order row row' -> translated st irow row -> exists irow', same_but_order irow irow' /\ translated st irow' row'.
  Proof.
    intros [pre [pre' [l [-> [-> P]]]]] T. unfold translated in T. apply Forall2_app_inv_r in T as [i1 [i2 [F1 [F2 ->]]]].
    inversion F2 as [|j ? i3 ? H F3]; subst. inversion F3; subst.
    apply Forall2_flip in F1. destruct (Permutation_Forall2 P F1) as [i1' [P' F1']]. apply Forall2_flip in F1'.
    exists (i1' ++ [j]). split; [exists i1, i1', j; auto|]. apply Forall2_app; auto.
  Qed.
  Lemma row_for_order (st : rec_state A) fv internal k u row row' : same_but_order row row' ->
    row_for leb st fv internal k u row -> row_for leb st fv internal k u row'.
  Proof.
    intros SB [s [ir [ES [T [L R]]]]]. destruct internal.
    - subst ir. exists s, row'. split; auto. split; [eapply top_k_order; eauto|]. split; [eapply lowest_order; eauto|auto].
    - destruct (translated_order st ir row row' SB R) as [ir' [SB' R']].
      exists s, ir'. split; auto. split; [eapply top_k_order; eauto|]. split; [eapply lowest_order; eauto|auto].
  Qed.

  Lemma reordered argpart (st : rec_state A) users k fv internal rows rows' : argpartition_contract leb argpart ->
    wf_state st -> (1 <= k)%nat -> (1 <= rs_n_items st)%nat -> (fv = true -> internal = false -> (2 <= rs_n_items st)%nat) ->
    recommend argpart st users k fv internal = Ok rows -> Forall2 same_but_order rows rows' ->
    exists argpart', argpartition_contract leb argpart' /\ recommend argpart' st users k fv internal = Ok rows'.
  Proof.
    intros C W K N Two R F. apply (possible_iff leb leb_total leb_trans); auto.
    assert (G : Forall2 (fun uid row => exists u, f_of (m_users (rs_mappings st)) uid = Some u
       /\ row_for leb st fv internal (Nat.min k (rs_n_items st)) u row) users rows) by (apply (possible_iff leb leb_total leb_trans); eauto).
    clear - F G. revert rows' F. induction G as [|uid row users rows [u [Hu H]] G IH]; intros rows' F; inversion F as [|? row' ? rows'' SB F']; subst; constructor; auto.
    exists u. split; auto. eapply row_for_order; eauto.
  Qed.

  (** Tied candidates: any of them, in any order. *)
  Lemma tied_possible (st : rec_state A) users us k fv internal irows rows : wf_state st -> (1 <= k)%nat -> (1 <= rs_n_items st)%nat ->
    (fv = true -> internal = false -> (2 <= rs_n_items st)%nat) ->
    Forall2 (fun uid u => f_of (m_users (rs_mappings st)) uid = Some u /\ tied leb st fv u) users us ->
    Forall2 (fun u irow => length irow = Nat.min k (rs_n_items st) /\ NoDup irow /\ forall j, In j irow -> candidate st fv u j) us irows ->
    Forall2 (fun irow row => if internal then row = irow else translated st irow row) irows rows ->
    exists argpart, argpartition_contract leb argpart /\ recommend argpart st users k fv internal = Ok rows.
  Proof.
    intros W K N Two F1 F2 F3. apply (possible_iff leb leb_total leb_trans); auto.
    revert irows rows F2 F3. induction F1 as [|uid u users us [Hu [s [ES T]]] F1 IH]; intros irows rows F2 F3; inversion F2 as [|? ir ? irs [L [ND C]] F2']; subst; inversion F3 as [|? row ? rows' TR F3']; subst; constructor; eauto.
    exists u. split; auto. exists s, ir. split; auto. split.
    - split; auto. split; auto. split; auto. intros i j x y Hi Hj _ Hx Hy. apply (T j i y x); auto.
    - split; auto. intros pre l j x y E Hj. apply T; auto. apply C. rewrite E. apply in_or_app. right; left; auto.
  Qed.
End Order.

(** Results of two behaviours when the scores are pairwise different. *)
Section Distinct.
  Context {A : Type} (leb : A -> A -> bool).
  Hypothesis leb_total : forall x y, leb x y = true \/ leb y x = true.
  Hypothesis leb_trans : forall x y z, leb x y = true -> leb y z = true -> leb x z = true.
  Hypothesis leb_anti : forall x y, leb x y = true -> leb y x = true -> x = y.
  Variable st : rec_state A.
  Hypothesis W : wf_state st.
  Hypothesis DS : forall u s, rs_scores st u = Ok s -> NoDup s.

  Lemma irow_same fv u scores k row row' : (1 <= k)%nat -> NoDup scores -> length scores = rs_n_items st ->
    is_top_k leb st fv u scores k row -> last_is_lowest leb scores row ->
    is_top_k leb st fv u scores k row' -> last_is_lowest leb scores row' -> same_but_order row row'.
  Proof.
    intros K ND LS T L T' L'. pose proof (top_k_unique leb st fv u scores k row row' leb_anti ND LS T T') as P.
    assert (NE : row <> []) by (intros ->; destruct T as [T _]; cbn in T; lia).
    assert (NE' : row' <> []) by (intros ->; destruct T' as [T' _]; cbn in T'; lia).
    destruct (exists_last NE) as [pre [l E]]. destruct (exists_last NE') as [pre' [l' E']].
    assert (I1 : In l row) by (rewrite E; apply in_or_app; right; left; auto).
    assert (I2 : In l' row') by (rewrite E'; apply in_or_app; right; left; auto).
    assert (I1' : In l row') by (apply (Permutation_in l P I1)).
    assert (I2' : In l' row) by (symmetry in P; apply (Permutation_in l' P I2)).
    assert (G : forall j, In j row -> exists x, nth_error scores (Z.to_nat j) = Some x /\ 0 <= j < Z.of_nat (rs_n_items st)).
    { intros j Hj. destruct T as [_ [_ [C _]]]. apply C in Hj as [Hj _]. destruct (nth_error scores (Z.to_nat j)) eqn:Ej; [eauto|].
      apply nth_error_None in Ej. lia. }
    destruct (G l I1) as [x [Hx R1]]. destruct (G l' I2') as [y [Hy R2]].
    assert (x = y) by (apply leb_anti; [apply (L pre l l' x y)|apply (L' pre' l' l y x)]; auto). subst y.
    assert (Z.to_nat l = Z.to_nat l') by (apply (proj1 (NoDup_nth_error scores) ND); [apply nth_error_Some; congruence|congruence]).
    assert (l = l') by lia. subst l'. exists pre, pre', l. split; auto. split; auto.
    rewrite E, E' in P. apply Permutation_app_inv_r in P. auto.
  Qed.
  Lemma translated_map irow row : translated st irow row ->
    row = map (fun j => match g_of (m_items (rs_mappings st)) j with Some x => x | None => 0 end) irow.
  Proof. unfold translated. induction 1 as [|j x r o H F IH]; cbn [map]; auto. rewrite H. f_equal; auto. Qed.
  Lemma row_same fv internal k u row row' : (1 <= k)%nat -> 0 <= u < Z.of_nat (rs_n_users st) ->
    row_for leb st fv internal k u row -> row_for leb st fv internal k u row' -> same_but_order row row'.
  Proof.
    intros K Hu [s [ir [ES [T [L R]]]]] [s' [ir' [ES' [T' [L' R']]]]]. assert (s' = s) by congruence. subst s'.
    assert (LS : length s = rs_n_items st) by (destruct W as [_ [WS _]]; destruct (WS u Hu) as [s0 [E1 E2]]; congruence).
    pose proof (irow_same fv u s k ir ir' K (DS _ _ ES) LS T L T' L') as SB.
    destruct internal; [subst; auto|]. apply translated_map in R, R'. subst row row'.
    destruct SB as [pre [pre' [l [-> [-> P]]]]]. rewrite !map_app. cbn [map]. do 3 eexists. split; [reflexivity|]. split; [reflexivity|]. now apply Permutation_map.
  Qed.
End Distinct.

(** ** Reciprocal ranks *)
Open Scope Q_scope.
Lemma rr_at t pre post : ~ In t pre -> forall j, rr_loop j (pre ++ t :: post) t = inv_rank (j + length pre).
Proof.
  induction pre as [|x pre IH]; intros N j; cbn [app rr_loop length].
  - rewrite Z.eqb_refl. now rewrite Nat.add_0_r.
  - destruct (Z.eqb_spec x t) as [->|NE]; [exfalso; apply N; left; auto|]. rewrite IH; [f_equal; lia|]. intros H. apply N. right; auto.
Qed.
Lemma rr_absent t row : ~ In t row -> rr_loop 0 row t = 0.
Proof. intros N. destruct (rr_loop_spec t row 0) as [[_ H]|[pre [post [E _]]]]; auto. exfalso. apply N. rewrite E. apply in_or_app. right; left; auto. Qed.
Lemma share_rank n : share (S n) = inv_rank n.
Proof. unfold share, inv_rank. now rewrite <- Pos.of_nat_succ. Qed.
Lemma last_snoc (pre : list Z) l d : last (pre ++ [l]) d = l.
Proof. apply last_last. Qed.

Lemma rr_range row row' t : NoDup row -> same_but_order row row' ->
  rr_low row t <= rr_loop 0 row' t /\ rr_loop 0 row' t <= rr_high row t.
Proof.
  intros ND SB. destruct (same_members _ _ SB) as [M LL]. pose proof (same_NoDup _ _ SB ND) as ND'.
  unfold rr_low, rr_high. destruct (in_dec Z.eq_dec t row) as [I|N].
  2:{ rewrite (rr_absent t row'); [split; apply Qle_refl|]. rewrite <- M. auto. }
  destruct SB as [pre [pre' [l [E [E' P]]]]]. assert (HL : last row 0%Z = l) by (rewrite E; apply last_snoc). rewrite HL.
  apply Permutation_length in P.
  destruct (Z.eq_dec t l) as [->|NE].
  - rewrite E', rr_at; [|rewrite E' in ND'; apply NoDup_remove in ND' as [_ H]; now rewrite app_nil_r in H].
    rewrite E, app_length. cbn [length]. rewrite Nat.add_1_r, share_rank, P. cbn [Nat.add]. split; apply Qle_refl.
  - assert (I' : In t pre') by (apply M in I; rewrite E' in I; apply in_app_or in I as [I|[I|[]]]; auto; congruence).
    apply in_split in I' as [a [b Eb]].
    assert (Na : ~ In t a).
    { intros H. rewrite E', Eb in ND'. rewrite <- app_assoc in ND'. cbn [app] in ND'. apply NoDup_remove in ND' as [_ D]. apply D. apply in_or_app; auto. }
    rewrite E', Eb, <- app_assoc. cbn [app]. rewrite rr_at by auto. cbn [Nat.add]. split; [|apply inv_rank_le_1].
    rewrite E, app_length. cbn [length]. replace (length pre + 1 - 1)%nat with (S (length pre - 1)).
    + rewrite share_rank. apply inv_rank_anti. rewrite P, Eb, app_length. cbn [length]. lia.
    + rewrite P, Eb, app_length. cbn [length]. lia.
Qed.
Lemma rr_attained row t : NoDup row -> row <> [] ->
  (exists row', same_but_order row row' /\ rr_loop 0 row' t = rr_high row t) /\
  (exists row', same_but_order row row' /\ rr_loop 0 row' t = rr_low row t).
Proof.
  intros ND NE. unfold rr_low, rr_high. destruct (exists_last NE) as [pre [l E]].
  assert (SR : same_but_order row row) by (exists pre, pre, l; auto).
  destruct (in_dec Z.eq_dec t row) as [I|N].
  2:{ split; exists row; split; auto; now rewrite rr_absent. }
  assert (HL : last row 0%Z = l) by (rewrite E; apply last_snoc). rewrite HL. destruct (Z.eq_dec t l) as [->|NL].
  - assert (Nl : ~ In l pre) by (rewrite E in ND; apply NoDup_remove in ND as [_ H]; now rewrite app_nil_r in H).
    assert (X : rr_loop 0 row l = share (length row)).
    { rewrite E, rr_at by auto. rewrite app_length. cbn [length Nat.add]. now rewrite Nat.add_1_r, share_rank. }
    split; exists row; auto.
  - assert (I' : In t pre) by (rewrite E in I; apply in_app_or in I as [I|[I|[]]]; auto; congruence).
    apply in_split in I' as [a [b Eb]]. split.
    + exists ((t :: a ++ b) ++ [l]). split.
      * exists pre, (t :: a ++ b), l. split; auto. split; auto. rewrite Eb. symmetry. apply Permutation_middle.
      * cbn [app]. change (t :: (a ++ b) ++ [l])%list with ([] ++ t :: (a ++ b) ++ [l])%list. rewrite rr_at by (intros []). reflexivity.
    + exists (((a ++ b) ++ [t]) ++ [l])%list. split.
      * exists pre, ((a ++ b) ++ [t])%list, l. split; auto. split; auto. rewrite Eb. symmetry. rewrite <- Permutation_cons_append. apply Permutation_middle.
      * rewrite <- app_assoc. cbn [app]. rewrite rr_at.
        -- rewrite E, Eb, !app_length. cbn [length Nat.add]. replace (length a + S (length b) + 1 - 1)%nat with (S (length a + length b)) by lia. now rewrite share_rank.
        -- rewrite E, Eb, <- app_assoc in ND. cbn [app] in ND. apply NoDup_remove in ND as [_ D]. intros H. apply D. rewrite app_assoc. apply in_or_app. now left.
Qed.

Lemma mrr_mean rows test m : length rows = length test -> mrr rows test = Ok m -> m == mean_of (fun row t => rr_loop 0 row t) rows test.
Proof.
  intros L E. assert (NE : test <> []) by (intros ->; destruct rows; [unfold mrr in E; cbn in E|]; discriminate).
  destruct (mrr_ok rows test) as [q [E' Q]]; [lia|auto|]. rewrite E in E'. inversion E'; subst. exact Q.
Qed.
Lemma test_pos (test : list Z) : test <> [] -> 0 < inject_Z (Z.of_nat (length test)).
Proof. intros NE. apply len_pos. destruct test; [congruence|cbn [length]; lia]. Qed.
Lemma mean_le f g rows rows' test : length rows = length test -> length rows' = length test -> test <> [] ->
  Forall2 (fun row row' => forall t, f row t <= g row' t) rows rows' -> mean_of f rows test <= mean_of g rows' test.
Proof.
  intros L L' NE F. unfold mean_of. apply Qdiv_le_compat; [now apply test_pos|]. clear NE. revert test L L'.
  induction F as [|row row' rows rows' H F IH]; intros [|t test] L L'; cbn [length] in *; try discriminate L; cbn [combine map Qsum]; [apply Qle_refl|].
  apply Qplus_le_compat; [apply H|]. apply IH; congruence.
Qed.

Section Range.
  Context {A : Type} (leb : A -> A -> bool).
  Hypothesis leb_total : forall x y, leb x y = true \/ leb y x = true.
  Hypothesis leb_trans : forall x y z, leb x y = true -> leb y z = true -> leb x z = true.
  Hypothesis leb_anti : forall x y, leb x y = true -> leb y x = true -> x = y.
  Variable st : rec_state A.
  Hypothesis W : wf_state st.
  Hypothesis DS : forall u s, rs_scores st u = Ok s -> NoDup s.
  Hypothesis INJ : forall j j' x, g_of (m_items (rs_mappings st)) j = Some x -> g_of (m_items (rs_mappings st)) j' = Some x -> j = j'.
  Variables (users : list Z) (k : nat) (fv internal : bool).
  Hypothesis K : (1 <= k)%nat.
  Hypothesis N : (1 <= rs_n_items st)%nat.
  Hypothesis Two : fv = true -> internal = false -> (2 <= rs_n_items st)%nat.
  Notation rec argpart := (recommend argpart st users k fv internal).

  Lemma row_for_NoDup u row : row_for leb st fv internal (Nat.min k (rs_n_items st)) u row -> NoDup row /\ row <> [].
  Proof.
    intros [s [ir [_ [[L [ND _]] [_ R]]]]]. destruct internal.
    - subst ir. split; auto. intros ->. cbn in L. lia.
    - split.
      + clear L. unfold translated in R. induction R as [|j x r o H F IH]; [constructor|]. inversion ND as [|? ? Nj ND']; subst. constructor; auto.
        intros Hx. apply Nj. clear - Hx F H INJ. induction F as [|j' x' r o H' F IH]; [destruct Hx|]. destruct Hx as [->|Hx]; [left; eapply INJ; eauto|right; auto].
      + intros ->. unfold translated in R. inversion R; subst. cbn in L. lia.
  Qed.
  Lemma rows_good argpart rows : argpartition_contract leb argpart -> rec argpart = Ok rows ->
    Forall2 (fun uid row => exists u, f_of (m_users (rs_mappings st)) uid = Some u
       /\ row_for leb st fv internal (Nat.min k (rs_n_items st)) u row) users rows.
  Proof. intros C R. apply (possible_iff leb leb_total leb_trans); eauto. Qed.

  Lemma results_same ap1 ap2 rows1 rows2 : argpartition_contract leb ap1 -> argpartition_contract leb ap2 ->
    rec ap1 = Ok rows1 -> rec ap2 = Ok rows2 -> Forall2 same_but_order rows1 rows2.
  Proof.
    intros C1 C2 R1 R2. pose proof (rows_good _ _ C1 R1) as F1. pose proof (rows_good _ _ C2 R2) as F2. clear R1 R2.
    revert rows2 F2. induction F1 as [|uid row us rows [u [Hu H]] F1 IH]; intros rows2 F2; inversion F2 as [|? row2 ? rs2 [u2 [Hu2 H2]] F2']; subst; constructor; auto.
    assert (u2 = u) by congruence. subst u2. eapply (row_same leb leb_anti st W DS fv internal (Nat.min k (rs_n_items st)) u); eauto; [lia|].
    destruct W as [_ [_ [WU _]]]. eapply WU; eauto.
  Qed.

  Lemma mrr_range argpart rows test : argpartition_contract leb argpart -> rec argpart = Ok rows -> length test = length users -> users <> [] ->
    (forall ap rows' m, argpartition_contract leb ap -> rec ap = Ok rows' -> mrr rows' test = Ok m ->
       mean_of rr_low rows test <= m /\ m <= mean_of rr_high rows test) /\
    (exists ap rows' m, argpartition_contract leb ap /\ rec ap = Ok rows' /\ mrr rows' test = Ok m /\ m == mean_of rr_low rows test) /\
    (exists ap rows' m, argpartition_contract leb ap /\ rec ap = Ok rows' /\ mrr rows' test = Ok m /\ m == mean_of rr_high rows test).
  Proof.
    intros C R LT NU. pose proof (rows_good _ _ C R) as G. pose proof (Forall2_len _ _ _ G) as LR.
    assert (NT : test <> []) by (intros ->; destruct users; [congruence|discriminate]).
    assert (ND : Forall (fun row => NoDup row /\ row <> []) rows).
    { apply Forall_forall. intros row Hr. destruct (Forall2_In_r _ _ _ _ G Hr) as [uid [_ [u [_ H]]]]. eapply row_for_NoDup; eauto. }
    split.
    - intros ap rows' m C' R' Em. pose proof (results_same _ _ _ _ C C' R R') as S. pose proof (Forall2_len _ _ _ S) as LS.
      assert (Eq : m == mean_of (fun row t => rr_loop 0 row t) rows' test) by (apply mrr_mean; auto; congruence). rewrite Eq.
      split; [apply (mean_le rr_low (fun row t => rr_loop 0 row t) rows rows'); auto; try congruence|
              apply (mean_le (fun row t => rr_loop 0 row t) rr_high rows' rows); auto; try congruence].
      + clear - S ND. induction S as [|row row' rows rows' H S IH]; inversion ND as [|? ? [N1 N2] ND']; subst; constructor; auto.
        intros t. now apply rr_range.
      + clear - S ND. induction S as [|row row' rows rows' H S IH]; inversion ND as [|? ? [N1 N2] ND']; subst; constructor; auto.
        intros t. now apply rr_range.
    - assert (X : forall f, (forall row t, NoDup row -> row <> [] -> exists row', same_but_order row row' /\ rr_loop 0 row' t = f row t) ->
        exists ap rows' m, argpartition_contract leb ap /\ rec ap = Ok rows' /\ mrr rows' test = Ok m /\ m == mean_of f rows test).
      { intros f Hf.
        assert (Y : exists rows', Forall2 same_but_order rows rows' /\ map (fun rt => rr_loop 0 (fst rt) (snd rt)) (combine rows' test) = map (fun rt => f (fst rt) (snd rt)) (combine rows test)).
        { assert (L : length rows = length test) by congruence. clear - Hf ND L. revert test L. induction rows as [|row rows IH]; intros test L.
          - exists []. split; auto.
          - destruct test as [|t test]; [discriminate|]. inversion ND as [|? ? [N1 N2] ND']; subst.
            destruct (Hf row t N1 N2) as [row' [S E]]. destruct (IH ND' test) as [rows' [S' E']]; [cbn in L; congruence|].
            exists (row' :: rows'). split; [constructor; auto|]. cbn [combine map fst snd]. congruence. }
        destruct Y as [rows' [S E]]. destruct (reordered leb leb_total leb_trans argpart st users k fv internal rows rows' C W K N Two R S) as [ap [C' R']].
        pose proof (Forall2_len _ _ _ S) as LS. destruct (mrr_ok rows' test) as [m [Em Q]]; [lia|auto|].
        exists ap, rows', m. split; auto. split; auto. split; auto. rewrite Q. unfold mean_of. now rewrite E. }
      split; apply X; intros row t N1 N2; apply (rr_attained row t N1 N2).
  Qed.
End Range.
