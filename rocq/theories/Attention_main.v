(** Assembly for C36 and C37. *)
From Coq Require Import ZArith List Bool Lia Ring Reals Lra.
From Verif Require Import Prelude Prelude_proofs DataPrep_model History_model Tirec_model Tensor_model
  Tensor_spec Tensor_proofs Tensor_sums Tensor_project Matrix_model Matrix_main Attention_model Attention_spec
  Attention_proofs.
Import ListNotations.
Open Scope nat_scope.

(** Real decay profile. *)
Lemma power_decay_1 f : power_decay f 1 = 1%R.
Proof.
  unfold power_decay. cbn [INR]. unfold Rpower. rewrite ln_1, Rmult_0_r, exp_0. field.
Qed.

Lemma Rpower_pos x y : (0 < Rpower x y)%R.
Proof. unfold Rpower. apply exp_pos. Qed.

Lemma power_decay_mono f i j : (0 <= f)%R -> 1 <= i <= j -> (0 < power_decay f j <= power_decay f i)%R /\ (power_decay f i <= 1)%R.
Proof.
  intros F H.
  assert (K : forall x y : nat, 1 <= x <= y -> (0 < power_decay f y <= power_decay f x)%R).
  { intros x y Hxy. unfold power_decay, Rdiv. rewrite !Rmult_1_l. split; [apply Rinv_0_lt_compat, Rpower_pos|].
    apply Rinv_le_contravar; [apply Rpower_pos|]. apply Rle_Rpower_l; [exact F|]. split; [apply lt_0_INR; lia|].
    apply le_INR; lia. }
  split; [apply K; auto|]. rewrite <- (power_decay_1 f). apply K. lia.
Qed.

Lemma power_decay_strict f i j : (0 < f)%R -> 1 <= i < j -> (power_decay f j < power_decay f i)%R.
Proof.
  intros F H. unfold power_decay, Rdiv. rewrite !Rmult_1_l. apply Rinv_lt_contravar.
  - apply Rmult_lt_0_compat; apply Rpower_pos.
  - unfold Rpower. apply exp_increasing. apply Rmult_lt_compat_l; [exact F|]. apply ln_increasing; [apply lt_0_INR; lia|].
    apply lt_INR; lia.
Qed.

Lemma power_decay_0 i : 1 <= i -> power_decay 0 i = 1%R.
Proof. intros H. unfold power_decay. rewrite Rpower_O by (apply lt_0_INR; lia). field. Qed.

Lemma attention_power_main f n m : 1 <= n -> get_global_attention 0%R (power_decay f) n = Ok m ->
  (forall i j, i < n -> j < n ->
     mget 0%R m i j = if j <=? i then (1 / Rpower (INR (i - j + 1)) f)%R else 0%R)
  /\ (forall i, i < n -> mget 0%R m i i = 1%R)
  /\ ((0 <= f)%R -> forall i j k, i < n -> j <= k -> k <= i ->
       (0 < mget 0%R m i j <= mget 0%R m i k)%R /\ (mget 0%R m i k <= 1)%R)
  /\ ((0 < f)%R -> forall i j k, i < n -> j < k -> k <= i -> (mget 0%R m i j < mget 0%R m i k)%R)
  /\ (f = 0%R -> forall i j, i < n -> j <= i -> mget 0%R m i j = 1%R).
Proof.
  intros N H. pose proof (attention_cells_main 0%R (power_decay f) n) as K. rewrite H in K.
  destruct K as (_ & W & R & C & P). split; [exact P|].
  assert (Q : forall i j, i < n -> j <= i -> mget 0%R m i j = power_decay f (i - j + 1)).
  { intros i j Hi Hj. rewrite P by lia. destruct (Nat.leb_spec j i); [reflexivity|lia]. }
  split.
  { intros i Hi. rewrite Q by lia. rewrite Nat.sub_diag. apply power_decay_1. }
  split.
  { intros F i j k Hi Hj Hk. rewrite !Q by lia. apply power_decay_mono; [exact F|lia]. }
  split.
  { intros F i j k Hi Hj Hk. rewrite !Q by lia. apply power_decay_strict; [exact F|lia]. }
  intros -> i j Hi Hj. rewrite Q by lia. apply power_decay_0. lia.
Qed.

Section Ring.
  Context {A : Type} (zero one : A) (add mul sub : A -> A -> A) (opp : A -> A)
          (RT : ring_theory zero one add mul sub opp (@eq A)).
  Add Ring ARM : RT.
  Notation sumn := (sumn zero add).

  Definition unit_lower (n : nat) (a : mat A) : Prop :=
    mr a = n /\ mc a = n /\ (forall i j, i < n -> j < n -> i < j -> mget zero a i j = zero)
    /\ forall i, i < n -> mget zero a i i = one.

  Lemma right_inverse_last n a c : unit_lower n a -> right_inverse zero one add mul n a c ->
    forall k, k < n -> mget zero c k (n - 1) = if k =? n - 1 then one else zero.
  Proof.
    intros (Ra & Ca & UP & DI) (Rc & Cc & P) k. induction k as [k IH] using lt_wf_ind. intros Hk.
    assert (Hn : n - 1 < n) by lia. rewrite <- (P k (n - 1) Hk Hn).
    transitivity (sumn n (fun t => if k =? t then mget zero c t (n - 1) else zero)).
    - symmetry. exact (sumn_pick zero one add mul sub opp RT n k (fun t => mget zero c t (n - 1)) Hk).
    - apply sumn_ext. intros t Ht. destruct (Nat.eqb_spec k t) as [<-|NE].
      + rewrite DI by auto. ring.
      + destruct (Nat.lt_ge_cases k t) as [L|L].
        * rewrite UP by auto. ring.
        * rewrite (IH t) by lia. destruct (Nat.eqb_spec t (n - 1)); [lia|]. ring.
  Qed.

  Lemma position_embeddings_main n a ainv w : unit_lower n a -> right_inverse zero one add mul n a ainv ->
    match position_embeddings zero add mul a ainv w with
    | Err e => (e = ValueError /\ mr w <> n) \/ (e = IndexError /\ mr w = n /\ n = 0)
    | Ok (aw, l) => mr w = n /\ 1 <= n /\ mwf aw /\ mr aw = n /\ mc aw = mc w
        /\ (forall i k, i < n -> k < mc w -> mget zero aw i k = attended zero add mul a w i k)
        /\ l = map (mget zero w (n - 1)) (seq 0 (mc w))
    end.
  Proof.
    intros U I. pose proof (right_inverse_last n a ainv U I) as LAST.
    destruct U as (Ra & Ca & UP & DI). destruct I as (Rc & Cc & P).
    unfold position_embeddings. destruct (dot zero add mul a w) as [aw|e] eqn:E1.
    2:{ cbn [bind]. left. unfold dot in E1. destruct (Nat.eqb_spec (mc a) (mr w)); [discriminate|].
        injection E1 as <-. split; [reflexivity|lia]. }
    apply (dot_main zero one add mul sub opp RT) in E1 as (D1 & W1 & R1 & C1 & P1). cbn [bind].
    assert (NW : mr w = n) by lia.
    destruct (dot zero add mul (transpose zero ainv) w) as [x|e] eqn:E2.
    2:{ cbn [bind]. left. unfold dot in E2. unfold transpose in E2. cbn [mr mc build] in E2.
        destruct (Nat.eqb_spec (mr ainv) (mr w)); [discriminate|]. injection E2 as <-. split; [reflexivity|lia]. }
    apply (dot_main zero one add mul sub opp RT) in E2 as (D2 & W2 & R2 & C2 & P2). cbn [bind].
    cbn [transpose mr mc build] in D2, R2, P2.
    unfold last_row. destruct (Nat.eqb_spec (mr x) 0) as [Z0|NZ].
    { cbn [bind]. right. split; [reflexivity|]. split; [exact NW|]. lia. }
    cbn [bind]. split; [exact NW|]. split; [lia|]. split; [exact W1|]. split; [lia|]. split; [exact C1|].
    split.
    { intros i k Hi Hk. rewrite P1 by lia. unfold attended. reflexivity. }
    rewrite C2, R2, Cc. apply map_ext_in. intros k Hk. apply in_seq in Hk.
    rewrite P2 by lia. rewrite Rc.
    transitivity (sumn n (fun t => if (n - 1) =? t then mget zero w t k else zero)).
    - apply sumn_ext. intros t Ht. rewrite transpose_get by lia. rewrite LAST by auto.
      rewrite Nat.eqb_sym. destruct (n - 1 =? t); ring.
    - exact (sumn_pick zero one add mul sub opp RT n (n - 1) (fun t => mget zero w t k) ltac:(lia)).
  Qed.

  Lemma eye_get n i j : i < n -> j < n -> mget zero (eye zero one n) i j = if i =? j then one else zero.
  Proof. intros. unfold eye. rewrite build_get; auto. Qed.

  Lemma attention_pair_unit inv att n a ainv :
    (forall f, att = Some f -> f 1 = one) ->
    (forall m c, mr m = n -> mc m = n -> inv m = Ok c -> right_inverse zero one add mul n m c) ->
    attention_pair zero one inv att n = Ok (a, ainv) ->
    unit_lower n a /\ right_inverse zero one add mul n a ainv
    /\ forall i j, i < n -> j < n ->
        mget zero a i j = match att with
                          | None => if i =? j then one else zero
                          | Some f => if j <=? i then f (i - j + 1) else zero
                          end.
  Proof.
    intros F1 HI H. destruct att as [f|]; cbn [attention_pair] in H.
    - destruct (get_global_attention zero f n) as [m|] eqn:E; [|discriminate]. cbn [bind] in H.
      destruct (inv m) as [c|] eqn:EI; [|discriminate]. cbn [bind] in H. injection H as <- <-.
      pose proof (attention_cells_main zero f n) as K. rewrite E in K. destruct K as (N1 & W & R & C & P).
      split; [|split; [apply HI; [exact R|exact C|exact EI]|exact P]]. split; [exact R|]. split; [exact C|]. split.
      + intros i j Hi Hj L. rewrite P by auto. destruct (Nat.leb_spec j i); [lia|reflexivity].
      + intros i Hi. rewrite P by auto. rewrite Nat.leb_refl, Nat.sub_diag. apply (F1 f eq_refl).
    - injection H as <- <-. split; [|split].
      + split; [reflexivity|]. split; [reflexivity|]. split.
        * intros i j Hi Hj L. rewrite eye_get by auto. destruct (Nat.eqb_spec i j); [lia|reflexivity].
        * intros i Hi. rewrite eye_get by auto. rewrite Nat.eqb_refl. reflexivity.
      + split; [reflexivity|]. split; [reflexivity|]. intros i j Hi Hj.
        transitivity (sumn n (fun k => if i =? k then (if k =? j then one else zero) else zero)).
        * apply sumn_ext. intros k Hk. rewrite !eye_get by auto. destruct (i =? k); ring.
        * exact (sumn_pick zero one add mul sub opp RT n i (fun k => if k =? j then one else zero) Hi).
      + intros i j Hi Hj. apply eye_get; auto.
  Qed.

  Lemma last_position_main inv att n a ainv w :
    (forall f, att = Some f -> f 1 = one) ->
    (forall m c, mr m = n -> mc m = n -> inv m = Ok c -> right_inverse zero one add mul n m c) ->
    attention_pair zero one inv att n = Ok (a, ainv) ->
    match position_embeddings zero add mul a ainv w with
    | Err e => (e = ValueError /\ mr w <> n) \/ (e = IndexError /\ mr w = n /\ n = 0)
    | Ok (aw, l) => mr w = n /\ 1 <= n /\ mwf aw /\ mr aw = n /\ mc aw = mc w
        /\ (forall i k, i < n -> k < mc w ->
              mget zero aw i k
              = match att with
                | None => mget zero w i k
                | Some f => sumn (i + 1) (fun t => mul (f (i - t + 1)) (mget zero w t k))
                end)
        /\ l = map (mget zero w (n - 1)) (seq 0 (mc w))
    end.
  Proof.
    intros F1 HI H. destruct (attention_pair_unit inv att n a ainv F1 HI H) as (U & I & P).
    pose proof (position_embeddings_main n a ainv w U I) as K.
    destruct (position_embeddings zero add mul a ainv w) as [[aw l]|e]; [|exact K].
    destruct K as (NW & N1 & W & R & C & PA & EL).
    split; [exact NW|]. split; [exact N1|]. split; [exact W|]. split; [exact R|]. split; [exact C|]. split; [|exact EL].
    intros i k Hi Hk. rewrite PA by auto. unfold attended. destruct U as (_ & Ca & _). rewrite Ca.
    destruct att as [f|].
    - replace n with ((i + 1) + (n - i - 1)) by lia. rewrite (sumn_split zero one add mul sub opp RT).
      rewrite (sumn_zero zero one add mul sub opp RT (n - i - 1)).
      2:{ intros t Ht. rewrite P by lia. destruct (Nat.leb_spec (i + 1 + t) i); [lia|]. ring. }
      match goal with |- add ?x zero = ?y => transitivity x; [ring|] end.
      apply sumn_ext. intros t Ht. rewrite P by lia. destruct (Nat.leb_spec t i); [reflexivity|lia].
    - transitivity (sumn n (fun t => if i =? t then mget zero w t k else zero)).
      + apply sumn_ext. intros t Ht. rewrite P by lia. destruct (i =? t); ring.
      + exact (sumn_pick zero one add mul sub opp RT n i (fun t => mget zero w t k) Hi).
  Qed.

  (** Scores. *)
  Lemma indices_ok n (l : list Z) : l <> [] -> (forall x, In x l -> (0 <= x < Z.of_nat n)%Z) ->
    indices n l = Ok (map Z.to_nat l).
  Proof.
    intros NE H. unfold indices. destruct l as [|x l']; [congruence|]. apply mapM_ext_Ok.
    intros y Hy. apply H in Hy. unfold norm_index.
    destruct (Z.leb_spec 0 y); [|lia]. destruct (Z.ltb_spec y (Z.of_nat n)); [|lia]. reflexivity.
  Qed.

  Lemma nth_map_seq (f : nat -> A) n k : k < n -> nth k (map f (seq 0 n)) zero = f k.
  Proof.
    intros H. rewrite (nth_indep _ zero (f 0)) by (rewrite map_length, seq_length; auto).
    rewrite (map_nth f), seq_nth by auto. reflexivity.
  Qed.

  Lemma matvec_ok (m : mat A) x : mc m = length x ->
    exists y, matvec zero add mul m x = Ok y /\ length y = mr m
      /\ forall i, i < mr m -> nth i y zero = sumn (mc m) (fun k => mul (mget zero m i k) (nth k x zero)).
  Proof.
    intros H. unfold matvec. rewrite H, Nat.eqb_refl. eexists. split; [reflexivity|].
    split; [rewrite map_length, seq_length; reflexivity|]. intros i Hi.
    rewrite nth_map_seq by auto. apply (sum_upto_sumn zero one add mul sub opp RT).
  Qed.

  Lemma user_scores_main seqs (v w aw : mat A) l u :
    mr aw = mr w -> mc aw = length l ->
    (dget u seqs = None -> user_scores zero add mul seqs v w aw l u = Err KeyError)
    /\ forall d, dget u seqs = Some d ->
       let h := Nat.min (length (latest_first d)) (mr w - 1) in
       (h = 0 -> user_scores zero add mul seqs v w aw l u = Err IndexError)
       /\ (forall t, t < h -> ~ (- Z.of_nat (mr v) <= nth t (latest_first d) 0 < Z.of_nat (mr v))%Z ->
             user_scores zero add mul seqs v w aw l u = Err IndexError)
       /\ (0 < h -> (forall t, t < h -> (0 <= nth t (latest_first d) 0 < Z.of_nat (mr v))%Z) ->
           exists s, user_scores zero add mul seqs v w aw l u = Ok s /\ length s = mr v
             /\ forall j, j < mr v ->
                  nth j s zero
                  = sumn h (fun t =>
                      mul (inner zero add mul (mc v) (mget zero v j)
                             (mget zero v (Z.to_nat (nth t (latest_first d) 0%Z))))
                          (inner zero add mul (mc aw) (mget zero aw (mr w - 2 - t)) (fun c => nth c l zero)))).
  Proof.
    intros Raw Caw. split; [intros E; unfold user_scores; rewrite E; reflexivity|].
    intros d E h. unfold user_scores. rewrite E.
    set (us := filter (fun x => negb (x =? PAD_VALUE)%Z) (dq_items d)) in *.
    destruct (positions_main us (mr w)) as [PL PN].
    assert (HL : length us = length (latest_first d)) by (unfold latest_first; rewrite rev_length; reflexivity).
    assert (Hh : h = Nat.min (length us) (mr w - 1)) by (subst h; rewrite HL; reflexivity). rewrite <- Hh in PL, PN.
    change (rev us) with (latest_first d) in PN. clear Hh HL.
    set (pi := get_pos_items_arrays us (Z.of_nat (mr w))) in *.
    destruct (matvec_ok aw l Caw) as (w' & EW & LW & PW). rewrite EW. cbn [bind].
    split; [|split].
    - intros H0. rewrite H0 in PL. destruct pi; [reflexivity|discriminate].
    - intros t Ht NB. unfold take_rows. destruct (indices (mr v) (map snd pi)) as [is|e] eqn:EI.
      + exfalso. unfold indices in EI. pose proof (PN t Ht) as K.
        destruct pi as [|p0 pi'] eqn:EP; [destruct t; discriminate|]. rewrite <- EP in *.
        assert (EI' : mapM (norm_index (mr v)) (map snd pi) = Ok is) by (rewrite EP in *; exact EI).
        apply mapM_Ok_iff in EI'. apply nth_error_In in K.
        assert (KI : In (nth t (latest_first d) 0%Z) (map snd pi)).
        { apply in_map_iff. eexists. split; [|exact K]. reflexivity. }
        assert (exists y, norm_index (mr v) (nth t (latest_first d) 0%Z) = Ok y) as [y Hy].
        { clear -EI' KI. revert EI'. generalize is. induction (map snd pi) as [|x r IH]; intros ys H; inversion H; subst.
          - destruct KI.
          - destruct KI as [->|KI]; [eexists; eassumption|]. eapply IH; eauto. }
        unfold norm_index in Hy.
        destruct (Z.leb_spec 0 (nth t (latest_first d) 0%Z)), (Z.ltb_spec (nth t (latest_first d) 0%Z) (Z.of_nat (mr v))),
          (Z.leb_spec (- Z.of_nat (mr v)) (nth t (latest_first d) 0%Z)), (Z.ltb_spec (nth t (latest_first d) 0%Z) 0);
          cbn [andb] in Hy; try discriminate; lia.
      + cbn [bind]. unfold indices in EI. destruct (map snd pi); [congruence|].
        f_equal. clear -EI. revert EI. generalize (z :: l0). intros q. induction q as [|x r IH]; [discriminate|].
        cbn [mapM]. destruct (norm_index (mr v) x) as [y|e'] eqn:EN.
        * cbn [bind]. destruct (mapM _ r) as [ys|e'']; [discriminate|]. intros H. injection H as <-. apply IH. reflexivity.
        * intros H. injection H as <-. unfold norm_index in EN.
          destruct ((0 <=? x) && (x <? Z.of_nat (mr v)))%Z; [discriminate|].
          destruct (_ && _)%Z in EN; [discriminate|]. injection EN. auto.
    - intros Hp HR.
      assert (NP : pi <> []) by (intros ->; cbn in PL; lia).
      assert (PN' : forall t, t < h -> nth t pi (0, 0)%Z = (Z.of_nat (mr w - 2 - t), nth t (latest_first d) 0%Z)).
      { intros t Ht. apply nth_error_nth. apply PN. exact Ht. }
      assert (HI : forall p, In p pi -> exists t, t < h /\ p = (Z.of_nat (mr w - 2 - t), nth t (latest_first d) 0%Z)).
      { intros p Hpi. apply (In_nth _ _ (0, 0)%Z) in Hpi as (t & Ht & <-). exists t. split; [lia|]. apply PN'. lia. }
      unfold take_rows. rewrite indices_ok.
      2:{ intros H. apply NP. destruct pi; [reflexivity|discriminate]. }
      2:{ intros x Hx. apply in_map_iff in Hx as (p & <- & Hpi). apply HI in Hpi as (t & Ht & ->). apply HR. exact Ht. }
      cbn [bind]. rewrite map_length, map_length, PL.
      unfold take_vec. rewrite indices_ok.
      2:{ intros H. apply NP. destruct pi; [reflexivity|discriminate]. }
      2:{ intros x Hx. apply in_map_iff in Hx as (p & <- & Hpi). apply HI in Hpi as (t & Ht & ->). cbn [fst].
          rewrite LW, Raw. lia. }
      cbn [bind].
      set (vi := build h (mc v) (fun t k => mget zero v (nth t (map Z.to_nat (map snd pi)) 0) k)).
      set (wp := map (fun i => nth i w' zero) (map Z.to_nat (map fst pi))).
      destruct (matvec_ok (transpose zero vi) wp) as (p & EP & LP & PP).
      { unfold transpose, wp, vi. cbn [mc mr build]. rewrite !map_length. auto. }
      rewrite EP. cbn [bind].
      assert (TR : mr (transpose zero vi) = mc v) by reflexivity.
      assert (TC : mc (transpose zero vi) = h) by reflexivity.
      rewrite TR in LP, PP. rewrite TC in PP.
      destruct (matvec_ok v p) as (s & ES & LS & PS); [auto|].
      exists s. split; [exact ES|]. split; [exact LS|]. intros j Hj. rewrite PS by auto.
      unfold inner.
      transitivity (sumn (mc v) (fun k => sumn h (fun t =>
        mul (mul (mget zero v j k) (mget zero v (Z.to_nat (nth t (latest_first d) 0%Z)) k))
            (sumn (mc aw) (fun c => mul (mget zero aw (mr w - 2 - t) c) (nth c l zero)))))).
      + apply sumn_ext. intros k Hk. rewrite PP by auto.
        rewrite <- (sumn_scale_l zero one add mul sub opp RT). apply sumn_ext. intros t Ht.
        rewrite transpose_get by (unfold vi; cbn [mc mr build]; auto).
        unfold vi. rewrite build_get by auto.
        assert (N1 : nth t (map Z.to_nat (map snd pi)) 0 = Z.to_nat (nth t (latest_first d) 0%Z)).
        { rewrite map_map. rewrite (nth_indep _ 0 (Z.to_nat (snd (0, 0)%Z))) by (rewrite map_length; lia).
          rewrite (map_nth (fun x => Z.to_nat (snd x))), PN' by auto. reflexivity. }
        assert (N2 : nth t wp zero = sumn (mc aw) (fun c => mul (mget zero aw (mr w - 2 - t) c) (nth c l zero))).
        { unfold wp. rewrite !map_map. rewrite (nth_indep _ zero ((fun x => nth (Z.to_nat (fst x)) w' zero) (0, 0)%Z)) by (rewrite map_length; lia).
          rewrite (map_nth (fun x => nth (Z.to_nat (fst x)) w' zero)), PN' by auto. cbn [fst]. rewrite Nat2Z.id.
          apply PW. lia. }
        rewrite N1, N2. ring.
      + unfold Tensor_spec.sumn at 1 2. rewrite (sum_swap zero one add mul sub opp RT).
        apply sumn_ext. intros t Ht.
        rewrite (sum_scale_r zero one add mul sub opp RT
          (sumn (mc aw) (fun c => mul (mget zero aw (mr w - 2 - t) c) (nth c l zero)))
          (fun k => mul (mget zero v j k) (mget zero v (Z.to_nat (nth t (latest_first d) 0%Z)) k))).
        reflexivity.
  Qed.

  Lemma trained_scores_main inv att n a ainv (v w aw : mat A) l seqs u d :
    (forall f, att = Some f -> f 1 = one) ->
    (forall m c, mr m = n -> mc m = n -> inv m = Ok c -> right_inverse zero one add mul n m c) ->
    attention_pair zero one inv att n = Ok (a, ainv) ->
    position_embeddings zero add mul a ainv w = Ok (aw, l) ->
    dget u seqs = Some d ->
    let h := Nat.min (length (latest_first d)) (n - 1) in
    (h = 0 -> user_scores zero add mul seqs v w aw l u = Err IndexError)
    /\ (0 < h -> (forall t, t < h -> (0 <= nth t (latest_first d) 0 < Z.of_nat (mr v))%Z) ->
        exists s, user_scores zero add mul seqs v w aw l u = Ok s /\ length s = mr v
          /\ forall j, j < mr v ->
               nth j s zero
               = sumn h (fun t =>
                   mul (inner zero add mul (mc v) (mget zero v j)
                          (mget zero v (Z.to_nat (nth t (latest_first d) 0%Z))))
                       (inner zero add mul (mc w)
                          (fun c => match att with
                                    | None => mget zero w (n - 2 - t) c
                                    | Some f => sumn (n - 1 - t) (fun p => mul (f (n - 1 - t - p)) (mget zero w p c))
                                    end)
                          (mget zero w (n - 1))))).
  Proof.
    intros F1 HI HP HE HD h.
    pose proof (last_position_main inv att n a ainv w F1 HI HP) as K. rewrite HE in K.
    destruct K as (NW & N1 & W & R & C & PA & EL).
    assert (Raw : mr aw = mr w) by lia.
    assert (Caw : mc aw = length l) by (rewrite EL, map_length, seq_length; exact C).
    destruct (user_scores_main seqs v w aw l u Raw Caw) as [_ K]. specialize (K d HD). cbv zeta in K.
    rewrite NW in K. fold h in K. destruct K as (K0 & _ & K1). split; [exact K0|]. intros Hh HR.
    destruct (K1 Hh HR) as (s & E & LS & PS). exists s. split; [exact E|]. split; [exact LS|]. intros j Hj.
    rewrite PS by auto. apply sumn_ext. intros t Ht. f_equal. unfold inner. rewrite C. apply sumn_ext. intros c Hc.
    assert (Ht' : t < n - 1) by (subst h; lia).
    rewrite PA by lia. rewrite EL, nth_map_seq by auto. f_equal. destruct att as [f|]; [|reflexivity].
    replace (n - 2 - t + 1) with (n - 1 - t) by lia. apply sumn_ext. intros p Hp. f_equal. f_equal. lia.
  Qed.

  Lemma norm_index_iff m x : ((- Z.of_nat m <=? x)%Z && (x <? Z.of_nat m)%Z = true) <-> exists y, norm_index m x = Ok y.
  Proof.
    unfold norm_index.
    destruct (Z.leb_spec 0 x), (Z.ltb_spec x (Z.of_nat m)), (Z.leb_spec (- Z.of_nat m) x), (Z.ltb_spec x 0); cbn [andb];
      split; intros H'; try reflexivity; try lia; try discriminate; try (destruct H'; discriminate); eauto.
  Qed.

  Lemma norm_index_err m x e : norm_index m x = Err e -> e = IndexError.
  Proof.
    unfold norm_index. destruct (_ && _); [discriminate|]. destruct (_ && _); [discriminate|]. congruence.
  Qed.

  Lemma indices_cases m (l : list Z) :
    match indices m l with
    | Ok is => l <> [] /\ forallb (fun x => (- Z.of_nat m <=? x)%Z && (x <? Z.of_nat m)%Z) l = true /\ length is = length l
    | Err e => e = IndexError /\ (l = [] \/ forallb (fun x => (- Z.of_nat m <=? x)%Z && (x <? Z.of_nat m)%Z) l = false)
    end.
  Proof.
    unfold indices. destruct l as [|x0 l0]; [auto|].
    assert (K : forall q, match mapM (norm_index m) q with
      | Ok is => forallb (fun x => (- Z.of_nat m <=? x)%Z && (x <? Z.of_nat m)%Z) q = true /\ length is = length q
      | Err e => e = IndexError /\ forallb (fun x => (- Z.of_nat m <=? x)%Z && (x <? Z.of_nat m)%Z) q = false end).
    { induction q as [|x q IH]; [split; reflexivity|]. cbn [mapM forallb].
      destruct (norm_index m x) as [y|e] eqn:EN; cbn [bind].
      - rewrite (proj2 (norm_index_iff m x)) by eauto. cbn [andb].
        destruct (mapM (norm_index m) q) as [ys|e]; cbn [bind]; [|exact IH]. destruct IH as [-> IH]. cbn [length]. auto.
      - split; [eapply norm_index_err; eauto|].
        destruct ((- Z.of_nat m <=? x)%Z && (x <? Z.of_nat m)%Z) eqn:EB; [|reflexivity]. apply norm_index_iff in EB as [y Hy]. congruence. }
    specialize (K (x0 :: l0)). destruct (mapM (norm_index m) (x0 :: l0)) as [is|e].
    - destruct K. split; [discriminate|]. auto.
    - destruct K. auto.
  Qed.

  (** The shape-level scores of Tirec_model. *)
  Lemma scores_refine_main (st : ti_state) (v w aw : mat A) l :
    mr aw = mr w -> mc aw = length l -> length (ti_irows st) = mr v ->
    exists sc, forall u, user_scores zero add mul (ti_seq st) v w aw l u = ti_scores (mr w) st sc u.
  Proof.
    intros Raw Caw LV. destruct (matvec_ok aw l Caw) as (w' & EW & LW & PW).
    exists (fun pi => match (do vi <- take_rows zero v (map snd pi);
                     do wp <- take_vec zero w' (map fst pi);
                     do p <- matvec zero add mul (transpose zero vi) wp;
                     matvec zero add mul v p) with Ok s => s | Err _ => [] end).
    intros u. unfold user_scores, ti_scores. destruct (dget u (ti_seq st)) as [d|]; [|reflexivity].
    rewrite EW. cbn [bind].
    set (us := filter (fun x => negb (x =? PAD_VALUE)%Z) (dq_items d)).
    destruct (positions_main us (mr w)) as [PL PN].
    set (pi := get_pos_items_arrays us (Z.of_nat (mr w))) in *.
    rewrite LV. unfold take_rows. pose proof (indices_cases (mr v) (map snd pi)) as K.
    rewrite forallb_map in K. destruct (indices (mr v) (map snd pi)) as [is|e]; cbn [bind].
    2:{ destruct K as [-> [K|K]]; [destruct pi; [reflexivity|discriminate]|]. rewrite K. destruct pi; reflexivity. }
    destruct K as (NE & -> & LI). destruct pi as [|p0 pi'] eqn:EPI; [exfalso; apply NE; reflexivity|]. rewrite <- EPI in *.
    unfold take_vec. rewrite indices_ok.
    2:{ rewrite EPI. discriminate. }
    2:{ intros x Hx. apply in_map_iff in Hx as (p & <- & Hp). apply In_nth_error in Hp as [t Ht].
        assert (t < Nat.min (length us) (mr w - 1)) by (rewrite <- PL; apply nth_error_Some; congruence).
        rewrite PN in Ht by auto. injection Ht as <-. cbn [fst]. lia. }
    cbn [bind]. set (vi := build (length is) (mc v) (fun t k => mget zero v (nth t is 0) k)).
    set (wp := map (fun i => nth i w' zero) (map Z.to_nat (map fst pi))).
    destruct (matvec_ok (transpose zero vi) wp) as (p & EP & LP & _).
    { unfold transpose, wp, vi. cbn [mc mr build]. rewrite LI, !map_length. reflexivity. }
    rewrite EP. cbn [bind]. destruct (matvec_ok v p) as (s & ES & _); [symmetry; exact LP|]. rewrite ES. reflexivity.
  Qed.
End Ring.
