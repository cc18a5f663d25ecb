(** Assembly for C35 (matrices) and C54 (splitting). *)
From Coq Require Import ZArith QArith List Bool Lia Ring ArithRing.
From Verif Require Import Prelude Prelude_proofs Tensor_model Tensor_spec Tensor_proofs Tensor_sums
  Tensor_project Matrix_model Matrix_spec.
Import ListNotations.
Open Scope nat_scope.

Section Build.
  Context {A : Type} (zero : A).

  Lemma build_wf r c (f : nat -> nat -> A) : mwf (build r c f).
  Proof.
    unfold mwf, build. cbn [mdat mr mc].
    rewrite (flat_map_concat_map), <- flat_map_concat_map.
    induction r as [|r IH]; [reflexivity|]. rewrite seq_S, flat_map_app, app_length, IH. cbn [flat_map].
    rewrite app_nil_r, map_length, seq_length. lia.
  Qed.

  Lemma build_get r c (f : nat -> nat -> A) i j : i < r -> j < c -> mget zero (build r c f) i j = f i j.
  Proof.
    intros Hi Hj. unfold mget, build. cbn [mc mdat].
    rewrite (nth_flat_map_const _ c 0 zero); auto.
    - rewrite seq_nth by auto. cbn [Nat.add].
      rewrite (nth_indep _ zero (f i 0)) by (rewrite map_length, seq_length; auto).
      rewrite (map_nth (f i)), seq_nth; auto.
    - intros x _. rewrite map_length, seq_length. reflexivity.
    - rewrite seq_length. auto.
  Qed.
End Build.

Section Ring.
  Context {A : Type} (zero one : A) (add mul sub : A -> A -> A) (opp : A -> A)
          (RT : ring_theory zero one add mul sub opp (@eq A)).
  Add Ring ARM : RT.
  Notation sum := (sum zero add).
  Notation sumn := (sumn zero add).

  Lemma dot_main (a b m : mat A) : dot zero add mul a b = Ok m ->
    mc a = mr b /\ mwf m /\ mr m = mr a /\ mc m = mc b
    /\ forall i j, i < mr a -> j < mc b ->
         mget zero m i j = sumn (mc a) (fun k => mul (mget zero a i k) (mget zero b k j)).
  Proof.
    unfold dot. destruct (mc a =? mr b) eqn:E; [|discriminate]. apply Nat.eqb_eq in E. intros H. injection H as <-.
    split; [exact E|]. split; [apply build_wf|]. split; [reflexivity|]. split; [reflexivity|]. intros i j Hi Hj.
    rewrite build_get by auto. apply (sum_upto_sumn zero one add mul sub opp RT).
  Qed.

  Lemma for_sumn n (f : nat -> A) : for_ n (fun r acc => add acc (f r)) zero = sumn n f.
  Proof. rewrite (for_sum zero one add mul sub opp RT). ring. Qed.

  Lemma svd_element_main i j (u : mat A) s (vt : mat A) :
    ((exists x, get_svd_element zero add mul i j u s vt = Ok x)
     <-> i < mr u /\ j < mc vt /\ mc u <= length s /\ mc u <= mr vt)
    /\ forall x, get_svd_element zero add mul i j u s vt = Ok x ->
         x = sumn (mc u) (fun r => mul (mul (mget zero u i r) (nth r s zero)) (mget zero vt r j)).
  Proof.
    unfold get_svd_element. destruct (_ && _ && _ && _) eqn:E.
    - rewrite !andb_true_iff, !Nat.ltb_lt, !Nat.leb_le in E. split; [split; [tauto|eauto]|].
      intros x H. injection H as <-. apply for_sumn.
    - split; [|discriminate]. split; [intros [x H]; discriminate|]. intros H. exfalso.
      rewrite <- not_true_iff_false in E. apply E. rewrite !andb_true_iff, !Nat.ltb_lt, !Nat.leb_le. tauto.
  Qed.

  Lemma mf_element_main i j (u vt : mat A) :
    ((exists x, get_mf_element zero add mul i j u vt = Ok x) <-> i < mr u /\ j < mc vt /\ mc u <= mr vt)
    /\ forall x, get_mf_element zero add mul i j u vt = Ok x ->
         x = sumn (mc u) (fun r => mul (mget zero u i r) (mget zero vt r j)).
  Proof.
    unfold get_mf_element. destruct (_ && _ && _) eqn:E.
    - rewrite !andb_true_iff, !Nat.ltb_lt, !Nat.leb_le in E. split; [split; [tauto|eauto]|].
      intros x H. injection H as <-. apply for_sumn.
    - split; [|discriminate]. split; [intros [x H]; discriminate|]. intros H. exfalso.
      rewrite <- not_true_iff_false in E. apply E. rewrite !andb_true_iff, !Nat.ltb_lt, !Nat.leb_le. tauto.
  Qed.

  Lemma mf_cell_main (a b m : mat A) : dot zero add mul a b = Ok m ->
    mc a = mr b /\ mwf m /\ mr m = mr a /\ mc m = mc b
    /\ forall i j, i < mr a -> j < mc b ->
         mget zero m i j = sumn (mc a) (fun k => mul (mget zero a i k) (mget zero b k j))
         /\ get_mf_element zero add mul i j a b = Ok (mget zero m i j).
  Proof.
    intros H. destruct (dot_main a b m H) as [E [W [R [C P]]]].
    split; [exact E|]. split; [exact W|]. split; [exact R|]. split; [exact C|]. intros i j Hi Hj.
    split; [apply P; auto|]. destruct (mf_element_main i j a b) as [[_ K] V].
    destruct K as [x Hx]; [repeat split; auto; lia|]. rewrite Hx. f_equal. rewrite (V x Hx), P by auto. reflexivity.
  Qed.

  Lemma svd2mtx_main (u : mat A) s (vt m : mat A) : length s = mc u ->
    svd2mtx zero add mul u s vt = Ok m ->
    mc u = mr vt /\ mwf m /\ mr m = mr u /\ mc m = mc vt
    /\ forall i j, i < mr u -> j < mc vt -> get_svd_element zero add mul i j u s vt = Ok (mget zero m i j).
  Proof.
    intros L. unfold svd2mtx, scale_columns. rewrite L, Nat.eqb_refl. cbn [bind]. intros H.
    apply dot_main in H as [E [W [R [C P]]]]. cbn [mc mr build] in *.
    split; [exact E|]. split; [exact W|]. split; [exact R|]. split; [exact C|]. intros i j Hi Hj.
    destruct (svd_element_main i j u s vt) as [[_ K] V].
    destruct K as [x Hx]; [repeat split; auto; lia|]. rewrite Hx. f_equal. rewrite (V x Hx), P by auto.
    apply sumn_ext. intros k Hk. rewrite build_get by auto. reflexivity.
  Qed.

  Lemma svd2mtx_outcome_main (u : mat A) s (vt : mat A) :
    (exists m, svd2mtx zero add mul u s vt = Ok m)
    <-> (length s = mc u /\ mc u = mr vt) \/ (length s = 1 /\ mc u = mr vt) \/ (mc u = 1 /\ length s = mr vt).
  Proof.
    unfold svd2mtx, scale_columns, dot.
    destruct (length s =? mc u) eqn:E1.
    { apply Nat.eqb_eq in E1. cbn [bind build mc mr]. destruct (mc u =? mr vt) eqn:E2.
      - apply Nat.eqb_eq in E2. split; [tauto|eauto].
      - apply Nat.eqb_neq in E2. split; [intros [m H]; discriminate|]. intros [H|[H|H]]; lia. }
    apply Nat.eqb_neq in E1. destruct (length s =? 1) eqn:E3.
    { apply Nat.eqb_eq in E3. cbn [bind build mc mr]. destruct (mc u =? mr vt) eqn:E2.
      - apply Nat.eqb_eq in E2. split; [tauto|eauto].
      - apply Nat.eqb_neq in E2. split; [intros [m H]; discriminate|]. intros [H|[H|H]]; lia. }
    apply Nat.eqb_neq in E3. destruct (mc u =? 1) eqn:E4.
    { apply Nat.eqb_eq in E4. cbn [bind build mc mr]. destruct (length s =? mr vt) eqn:E2.
      - apply Nat.eqb_eq in E2. split; [tauto|eauto].
      - apply Nat.eqb_neq in E2. split; [intros [m H]; discriminate|]. intros [H|[H|H]]; lia. }
    apply Nat.eqb_neq in E4. cbn [bind]. split; [intros [m H]; discriminate|]. intros [H|[H|H]]; lia.
  Qed.

  (** Errors. *)
  Lemma err_loop_main elt (f : nat -> nat -> A) inds (vals : list A) x :
    (forall i j y, elt i j = Ok y -> y = f i j) ->
    err_loop zero add mul sub elt inds vals = Ok x ->
    length inds <= length vals
    /\ x = sum (map (fun e => let d := sub (snd e) (f (fst (fst e)) (snd (fst e))) in mul d d) (combine inds vals)).
  Proof.
    intros HF. unfold err_loop. destruct (length inds <=? length vals) eqn:E; [|discriminate].
    apply Nat.leb_le in E. intros H. split; [exact E|].
    assert (K : forall l a y,
      fold_left (fun (acc : res A) (e : nat * nat * A) => do r <- acc; do x <- elt (fst (fst e)) (snd (fst e));
           let d := sub (snd e) x in Ok (add r (mul d d))) l a = Ok y ->
      exists b, a = Ok b /\ y = add b (sum (map (fun e => let d := sub (snd e) (f (fst (fst e)) (snd (fst e))) in mul d d) l))).
    { induction l as [|e l IH]; intros a y Hy; cbn [fold_left map] in *.
      - exists y. split; [exact Hy|]. rewrite sum_nil. ring.
      - apply IH in Hy as [b [Hb ->]]. destruct a as [b0|]; [|discriminate]. cbn [bind] in Hb.
        destruct (elt (fst (fst e)) (snd (fst e))) as [z|] eqn:EZ; [|discriminate]. cbn [bind] in Hb. injection Hb as <-.
        exists b0. split; [reflexivity|]. rewrite sum_cons. cbv zeta. rewrite (HF _ _ _ EZ). ring. }
    apply K in H as [b [Hb ->]]. injection Hb as <-.
    match goal with |- add zero ?x = ?y => transitivity x; [ring|reflexivity] end.
  Qed.

  Lemma sq_err_1_main inds (vals : list A) (u : mat A) s (vt : mat A) x :
    sq_err_1 zero add mul sub inds vals u s vt = Ok x ->
    length inds <= length vals
    /\ x = sum (map (fun e => let d := sub (snd e) (sumn (mc u) (fun r =>
               mul (mul (mget zero u (fst (fst e)) r) (nth r s zero)) (mget zero vt r (snd (fst e))))) in mul d d)
             (combine inds vals)).
  Proof.
    intros H. apply (err_loop_main _ (fun i j => sumn (mc u) (fun r => mul (mul (mget zero u i r) (nth r s zero)) (mget zero vt r j)))) in H.
    - exact H.
    - intros i j y Hy. apply (proj2 (svd_element_main i j u s vt) y Hy).
  Qed.

  Lemma err_loop_ext elt elt' inds (vals : list A) :
    (forall e, In e (combine inds vals) -> elt (fst (fst e)) (snd (fst e)) = elt' (fst (fst e)) (snd (fst e))) ->
    err_loop zero add mul sub elt inds vals = err_loop zero add mul sub elt' inds vals.
  Proof.
    intros H. unfold err_loop. destruct (length inds <=? length vals); [|reflexivity].
    revert H. generalize (combine inds vals) (Ok (A := A) zero). intros l. induction l as [|e l IH]; intros a H; [reflexivity|].
    cbn [fold_left]. rewrite IH by (intros; apply H; right; auto). f_equal.
    destruct a; [|reflexivity]. cbn [bind]. rewrite (H e (or_introl eq_refl)). reflexivity.
  Qed.

  Lemma sq_err_forms_main inds (vals : list A) (u d vt : mat A) s :
    is_diag zero d s -> length s = mc u -> mc u = mr vt ->
    sq_err_2 zero add mul sub inds vals u d vt = sq_err_1 zero add mul sub inds vals u s vt.
  Proof.
    intros [D1 [D2 D3]] L E. unfold sq_err_2, sq_err_1.
    destruct (dot zero add mul d vt) as [m|e] eqn:ED.
    2:{ exfalso. unfold dot in ED. rewrite D2, L, E, Nat.eqb_refl in ED. discriminate. }
    cbn [bind]. apply dot_main in ED as [_ [W [R [C P]]]].
    apply err_loop_ext. intros e _. set (i := fst (fst e)). set (j := snd (fst e)).
    destruct (svd_element_main i j u s vt) as [I1 V1]. destruct (mf_element_main i j u m) as [I2 V2].
    destruct (get_svd_element zero add mul i j u s vt) as [x|e1] eqn:E1.
    - destruct (proj1 I1 (ex_intro _ x eq_refl)) as [Hi [Hj _]].
      destruct (proj2 I2) as [y Hy]; [rewrite C, R; repeat split; auto; lia|]. rewrite Hy. f_equal.
      rewrite (V1 x eq_refl), (V2 y Hy). apply sumn_ext. intros r Hr. rewrite P by (auto; lia).
      transitivity (mul (mget zero u i r) (sumn (length s) (fun t => if r =? t then mul (nth r s zero) (mget zero vt t j) else zero))).
      + f_equal. rewrite D2. apply sumn_ext. intros t Ht. rewrite D3 by lia. destruct (r =? t); ring.
      + rewrite (sumn_pick zero one add mul sub opp RT (length s) r (fun t => mul (nth r s zero) (mget zero vt t j))) by lia. ring.
    - assert (NI : ~ (i < mr u /\ j < mc m /\ mc u <= mr m)).
      { rewrite C, R. intros [Hi [Hj _]]. destruct (proj2 I1) as [x Hx]; [repeat split; auto; lia|]. discriminate. }
      destruct (get_mf_element zero add mul i j u m) as [y|e2] eqn:E2.
      + exfalso. apply NI. apply I2. eauto.
      + unfold get_mf_element in E2. destruct (_ && _) in E2; [discriminate|]. injection E2 as <-.
        unfold get_svd_element in E1. destruct (_ && _) in E1; [discriminate|]. injection E1 as <-. reflexivity.
  Qed.
End Ring.

(** Splitting. *)
Lemma int_of_floor q : (0 <= q)%Q -> exists z, int_of q = Z.of_nat z /\ floor_of q z.
Proof.
  intros H. unfold int_of, floor_of, Qle, Qlt in *. cbn [Qnum Qden inject_Z] in *. rewrite !Z.mul_1_r in *.
  assert (N : (0 <= Qnum q)%Z) by lia.
  rewrite Z.quot_div_nonneg by lia.
  pose proof (Z.div_pos (Qnum q) (Zpos (Qden q)) N ltac:(lia)) as P.
  pose proof (Z.div_mod (Qnum q) (Zpos (Qden q)) ltac:(lia)) as D.
  pose proof (Z.mod_pos_bound (Qnum q) (Zpos (Qden q)) ltac:(lia)) as B.
  exists (Z.to_nat (Qnum q / Zpos (Qden q))). rewrite Z2Nat.id by auto. split; [reflexivity|]. nia.
Qed.

Lemma floor_le q z n : floor_of q z -> (q <= inject_Z (Z.of_nat n))%Q -> z <= n.
Proof.
  intros [H _] H'. assert (K : (inject_Z (Z.of_nat z) <= inject_Z (Z.of_nat n))%Q) by (eapply Qle_trans; eauto).
  unfold Qle in K. cbn in K. lia.
Qed.

Lemma floor_zero q z : floor_of q z -> (z = 0 <-> (q < 1)%Q).
Proof.
  intros [H1 H2]. split.
  - intros ->. exact H2.
  - intros H. assert (K : (inject_Z (Z.of_nat z) < 1)%Q) by (eapply Qle_lt_trans; eauto).
    unfold Qlt in K. cbn in K. lia.
Qed.

Lemma pieces_spec {X} (l : list X) : forall k st w rest,
  st + k * w + rest = length l ->
  let pts := map (fun i => st + i * w) (seq 1 k) ++ [length l] in
  concat (pieces l st pts) = skipn st l /\ map (@length X) (pieces l st pts) = repeat w k ++ [rest].
Proof.
  induction k as [|k IH]; intros st w rest E.
  - cbn [seq map app pieces concat repeat]. assert (LS : length (skipn st l) = length l - st) by apply skipn_length.
    rewrite firstn_all2 by lia. rewrite app_nil_r. cbn [map]. split; [reflexivity|]. rewrite LS. do 2 f_equal. lia.
  - cbv zeta. rewrite <- cons_seq. cbn [map app pieces concat repeat].
    replace (map (fun i => st + i * w) (seq 2 k)) with (map (fun i => (st + 1 * w) + i * w) (seq 1 k)).
    2:{ rewrite <- (seq_shift k 1), map_map. apply map_ext. intros i. lia. }
    destruct (IH (st + 1 * w) w rest ltac:(lia)) as [C L]. rewrite C, L.
    replace (st + 1 * w - st) with w by lia. split.
    + rewrite <- (firstn_skipn w (skipn st l)) at 2. f_equal. rewrite skipn_skipn. f_equal. lia.
    + cbn [map]. f_equal. rewrite firstn_length, skipn_length. lia.
Qed.

Lemma array_split_arange {X} (l : list X) i0 w : 0 < w -> i0 < length l ->
  exists k rest, 1 <= rest <= w /\ i0 + k * w + rest = length l
    /\ concat (array_split l (arange i0 (length l) w)) = l
    /\ map (@length X) (array_split l (arange i0 (length l) w)) = i0 :: repeat w k ++ [rest].
Proof.
  intros HW HI. set (n := length l) in *.
  set (k := (n - i0 - 1) / w).
  pose proof (Nat.div_mod (n - i0 - 1) w ltac:(lia)) as D. fold k in D.
  pose proof (Nat.mod_upper_bound (n - i0 - 1) w ltac:(lia)) as U.
  exists k, (n - i0 - k * w).
  assert (K1 : (n - i0 + (w - 1)) / w = S k).
  { replace (n - i0 + (w - 1)) with ((n - i0 - 1) + 1 * w) by lia. rewrite Nat.div_add by lia. unfold k. lia. }
  unfold arange. rewrite K1. rewrite <- cons_seq. cbn [map]. rewrite Nat.mul_0_l, Nat.add_0_r.
  unfold array_split. cbn [app pieces concat map].
  destruct (pieces_spec l k i0 w (n - i0 - k * w)) as [C L]; [nia|]. cbv zeta in C, L.
  split; [nia|]. split; [nia|]. split.
  - rewrite C, Nat.sub_0_r. cbn [skipn]. apply firstn_skipn.
  - rewrite L. f_equal. rewrite Nat.sub_0_r. cbn [skipn]. rewrite firstn_length. fold n. lia.
Qed.

Lemma ratio_range n rf rn : (0 <= rf)%Q -> (rf <= 1)%Q -> (0 <= rn)%Q ->
  exists i0 w, int_of (inject_Z (Z.of_nat n) * rf) = Z.of_nat i0
    /\ int_of (inject_Z (Z.of_nat n - Z.of_nat i0) * rn) = Z.of_nat w
    /\ i0 <= n /\ floor_of (inject_Z (Z.of_nat n) * rf) i0
    /\ floor_of (inject_Z (Z.of_nat (n - i0)) * rn) w.
Proof.
  intros H0 H1 HN.
  assert (NN : forall k, (0 <= inject_Z (Z.of_nat k))%Q) by (intros; unfold Qle; cbn; lia).
  destruct (int_of_floor (inject_Z (Z.of_nat n) * rf)) as [i0 [E F]].
  { apply Qmult_le_0_compat; auto. }
  assert (L : i0 <= n).
  { apply (floor_le _ _ _ F). rewrite <- (Qmult_1_r (inject_Z (Z.of_nat n))) at 2.
    rewrite !(Qmult_comm (inject_Z (Z.of_nat n))). apply Qmult_le_compat_r; auto. }
  destruct (int_of_floor (inject_Z (Z.of_nat (n - i0)) * rn)) as [w [E' F']].
  { apply Qmult_le_0_compat; auto. }
  exists i0, w. rewrite <- Nat2Z.inj_sub by auto. auto.
Qed.

Lemma split_matrix_main {X} (slices : list X) rf rn : (0 <= rf)%Q -> (rf <= 1)%Q -> (0 <= rn)%Q ->
  exists i0 w, floor_of (inject_Z (Z.of_nat (length slices)) * rf) i0
    /\ floor_of (inject_Z (Z.of_nat (length slices - i0)) * rn) w
    /\ (w = 0 -> split_matrix slices rf rn = Err ZeroDivisionError)
    /\ (0 < w -> exists blocks k rest, split_matrix slices rf rn = Ok blocks
          /\ concat blocks = slices
          /\ map (@length X) blocks = i0 :: repeat w k ++ [rest]
          /\ 1 <= rest <= w).
Proof.
  intros H0 H1 HN. destruct (ratio_range (length slices) rf rn H0 H1 HN) as [i0 [w [E [E' [L [F F']]]]]].
  exists i0, w. split; [exact F|]. split; [exact F'|]. unfold split_matrix. rewrite E, E', !Nat2Z.id. split.
  - intros ->. reflexivity.
  - intros HW. replace (Z.of_nat w =? 0)%Z with false by (symmetry; apply Z.eqb_neq; lia).
    assert (HI : i0 < length slices).
    { destruct (Nat.eq_dec i0 (length slices)) as [->|]; [|lia]. exfalso.
      rewrite Nat.sub_diag in F'. assert (w = 0) by (apply (floor_zero _ _ F'); reflexivity). lia. }
    destruct (array_split_arange slices i0 w HW HI) as [k [rest [R [_ [C M]]]]].
    eexists. exists k, rest. split; [reflexivity|]. auto.
Qed.

Lemma blocks_loop {A} (zero : A) (m : mat A) w : forall n acc i,
  for_ n (fun _ s => (fst s ++ [diag_block zero m (snd s) w], snd s + w)) (acc, i)
  = (acc ++ map (fun k => diag_block zero m (i + k * w) w) (seq 0 n), i + n * w).
Proof.
  induction n as [|n IH]; intros acc i; unfold for_ in *.
  - cbn. rewrite app_nil_r, Nat.add_0_r. reflexivity.
  - rewrite seq_S, fold_left_app, IH. cbn [fold_left Nat.add fst snd]. rewrite map_app, app_assoc. cbn [map]. f_equal. lia.
Qed.

Lemma block_diag_main {A} (zero : A) (m : mat A) rf rn : (0 <= rf)%Q -> (rf <= 1)%Q -> (0 <= rn)%Q -> mr m = mc m ->
  exists i0 w, floor_of (inject_Z (Z.of_nat (mc m)) * rf) i0
    /\ floor_of (inject_Z (Z.of_nat (mc m - i0)) * rn) w
    /\ (w = 0 -> split_mtx_block_diag zero m rf rn = Err ZeroDivisionError)
    /\ (0 < w -> exists blocks, split_mtx_block_diag zero m rf rn = Ok blocks
          /\ length blocks = 1 + (mc m - i0) / w
          /\ block_start i0 w (length blocks) <= mc m < block_start i0 w (length blocks) + w
          /\ (block_start i0 w (length blocks) = mc m <-> exists q, mc m = i0 + q * w)
          /\ forall k b, nth_error blocks k = Some b ->
               mwf b /\ mr b = block_size i0 w k /\ mc b = block_size i0 w k
               /\ forall x y, x < mr b -> y < mc b ->
                    mget zero b x y = mget zero m (block_start i0 w k + x) (block_start i0 w k + y)).
Proof.
  intros H0 H1 HN SQ. destruct (ratio_range (mc m) rf rn H0 H1 HN) as [i0 [w [E [E' [L [F F']]]]]].
  exists i0, w. split; [exact F|]. split; [exact F'|]. unfold split_mtx_block_diag. rewrite E, E', !Nat2Z.id. split.
  { intros ->. reflexivity. }
  intros HW. replace (Z.of_nat w =? 0)%Z with false by (symmetry; apply Z.eqb_neq; lia).
  rewrite blocks_loop. cbn [fst app]. eexists. split; [reflexivity|]. cbn [length]. rewrite map_length, seq_length.
  set (n := (mc m - i0) / w).
  pose proof (Nat.div_mod (mc m - i0) w ltac:(lia)) as D. fold n in D.
  pose proof (Nat.mod_upper_bound (mc m - i0) w ltac:(lia)) as U.
  split; [reflexivity|]. cbn [block_start]. split; [nia|]. split.
  { split; [intros HQ; exists n; lia|]. intros [q Hq].
    assert (EQ : n = q). { unfold n. replace (mc m - i0) with (q * w) by lia. apply Nat.div_mul. lia. }
    rewrite EQ. lia. }
  intros k b Hb. destruct k as [|k]; cbn [nth_error block_start block_size] in *.
  - injection Hb as <-. split; [apply build_wf|]. unfold diag_block. cbn [mr mc build].
    split; [lia|]. split; [lia|]. intros x y Hx Hy. rewrite build_get by auto. reflexivity.
  - rewrite nth_error_map in Hb. destruct (nth_error (seq 0 n) k) as [k'|] eqn:EK; [|discriminate].
    cbn in Hb. injection Hb as <-.
    assert (KL : k < n) by (rewrite <- (seq_length n 0); apply nth_error_Some; congruence).
    apply (nth_error_nth _ _ 0) in EK. rewrite seq_nth in EK by auto. cbn in EK. subst k'.
    split; [apply build_wf|]. unfold diag_block. cbn [mr mc build].
    assert (B : i0 + k * w + w <= mc m) by nia.
    split; [lia|]. split; [lia|]. intros x y Hx Hy. rewrite build_get by auto. reflexivity.
Qed.
