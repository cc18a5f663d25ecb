(** Proofs about the attention matrix and sequential scores. *)
From Coq Require Import ZArith List Bool Lia Ring.
From Verif Require Import Prelude Prelude_proofs DataPrep_model History_model Tirec_model Tensor_model
  Tensor_spec Tensor_proofs Tensor_sums Tensor_project Matrix_model Matrix_main Attention_model Attention_spec.
Import ListNotations.
Open Scope nat_scope.

Lemma combine_map_seq {X Y} (f : nat -> X) (g : nat -> Y) l :
  combine (map f l) (map g l) = map (fun i => (f i, g i)) l.
Proof. induction l as [|x l IH]; [reflexivity|]. cbn [map combine]. rewrite IH. reflexivity. Qed.

Lemma find_map_seq {X} (f : nat -> X) (p : X -> bool) d : forall n s,
  (forall i, s <= i < s + n -> p (f i) = true <-> i = d) ->
  find p (map f (seq s n)) = if (s <=? d) && (d <? s + n) then Some (f d) else None.
Proof.
  induction n as [|n IH]; intros s H; cbn [seq map find].
  - destruct (s <=? d) eqn:E; [|reflexivity]. cbn [andb]. apply Nat.leb_le in E.
    destruct (d <? s + 0) eqn:F; [|reflexivity]. apply Nat.ltb_lt in F. lia.
  - destruct (p (f s)) eqn:E.
    + assert (s = d) as <- by (apply H; [lia|exact E]).
      rewrite Nat.leb_refl. cbn [andb]. destruct (s <? s + S n) eqn:F; [reflexivity|]. apply Nat.ltb_ge in F. lia.
    + assert (s <> d). { intros ->. assert (p (f d) = true) by (apply H; [lia|reflexivity]). congruence. }
      rewrite IH by (intros i Hi; apply H; lia).
      destruct (Nat.leb_spec (S s) d); destruct (Nat.leb_spec s d); destruct (Nat.ltb_spec d (S s + n));
        destruct (Nat.ltb_spec d (s + S n)); cbn [andb]; try reflexivity; lia.
Qed.

Lemma distinct_NoDup l : distinct l = true <-> NoDup l.
Proof.
  induction l as [|x l IH]; cbn [distinct].
  - split; [constructor|reflexivity].
  - rewrite andb_true_iff, negb_true_iff, memZ_false, IH. split; [intros []; constructor; auto|inversion 1; auto].
Qed.

Section Any.
  Context {A : Type} (zero : A).

  Lemma attention_cells_main (decay : nat -> A) n :
    match get_global_attention zero decay n with
    | Err e => e = IndexError /\ n = 0
    | Ok m => 1 <= n /\ mwf m /\ mr m = n /\ mc m = n
              /\ forall i j, i < n -> j < n ->
                   mget zero m i j = if j <=? i then decay (i - j + 1) else zero
    end.
  Proof.
    unfold get_global_attention. rewrite <- seq_shift, map_map.
    destruct n as [|n']; [split; reflexivity|]. set (n := S n').
    set (D := fun x => repeat (decay (S x)) (n - S x + 1)).
    set (F := fun i => (- Z.of_nat i)%Z).
    unfold diags. rewrite !map_length, Nat.eqb_refl.
    assert (E0 : exists d r o s, map D (seq 0 n) = d :: r /\ map F (seq 0 n) = o :: s /\ length d = n /\ o = 0%Z).
    { exists (D 0), (map D (seq 1 n')), (F 0), (map F (seq 1 n')). split; [reflexivity|]. split; [reflexivity|].
      split; [|reflexivity]. unfold D. rewrite repeat_length. subst n. lia. }
    destruct E0 as (d & r & o & s & E1 & E2 & E3 & E4). rewrite E1, E2, <- E1, <- E2, E3, E4.
    rewrite combine_map_seq.
    change (Z.abs 0) with 0%Z. rewrite Z.add_0_r, Nat2Z.id.
    rewrite (mapM_ext_Ok _ fst).
    2:{ intros p Hp. apply in_map_iff in Hp as (i & <- & Hi). apply in_seq in Hi. unfold F. cbn [fst snd].
        destruct (Z.ltb_spec (Z.min (Z.of_nat n + - Z.of_nat i) (Z.of_nat n - - Z.of_nat i)) 0); [lia|].
        unfold stretch, D. rewrite repeat_length.
        replace (Z.to_nat (Z.min (Z.of_nat n + - Z.of_nat i) (Z.of_nat n - - Z.of_nat i))) with (n - S i + 1) by lia.
        rewrite Nat.leb_refl, firstn_all2; [reflexivity|]. rewrite repeat_length. lia. }
    cbn [bind]. rewrite map_map. cbn [fst]. change (fun x : nat => D x) with D.
    assert (ND : distinct (map F (seq 0 n)) = true).
    { apply distinct_NoDup. apply FinFun.Injective_map_NoDup; [|apply seq_NoDup]. intros x y. unfold F. lia. }
    rewrite ND. rewrite combine_map_seq. split; [subst n; lia|]. split; [apply build_wf|]. split; [reflexivity|].
    split; [reflexivity|]. intros i j Hi Hj. rewrite build_get by auto.
    destruct (Nat.leb_spec j i) as [L|L].
    - rewrite (find_map_seq _ _ (i - j)).
      2:{ intros k Hk. unfold F. cbn [snd]. rewrite Z.eqb_eq. lia. }
      cbn [Nat.leb andb]. destruct (Nat.ltb_spec (i - j) (0 + n)); [|lia]. unfold F, D. cbn [fst snd].
      rewrite (nth_indep _ zero (decay (S (i - j)))) by (rewrite repeat_length; lia).
      rewrite nth_repeat. f_equal. lia.
    - destruct (find _ _) as [p|] eqn:EF; [|reflexivity]. apply find_some in EF as [HI HE].
      apply in_map_iff in HI as (k & <- & _). unfold F in HE. cbn [snd] in HE. apply Z.eqb_eq in HE. lia.
  Qed.

  Lemma transpose_get (m : mat A) i j : i < mc m -> j < mr m -> mget zero (transpose zero m) i j = mget zero m j i.
  Proof. intros. unfold transpose. rewrite build_get; auto. Qed.
End Any.

(** Positions and items. *)
Lemma pos_items_nth rseq : forall pos t,
  nth_error (pos_items_loop rseq pos) t
  = if (Z.of_nat t <=? pos)%Z then match nth_error rseq t with Some x => Some ((pos - Z.of_nat t)%Z, x) | None => None end
    else None.
Proof.
  induction rseq as [|x r IH]; intros pos t; cbn [pos_items_loop].
  - destruct t; cbn [nth_error]; destruct (_ <=? _)%Z; reflexivity.
  - destruct (Z.ltb_spec pos 0) as [H|H].
    + replace (nth_error [] t) with (@None (Z * Z)) by (destruct t; reflexivity).
      destruct (Z.leb_spec (Z.of_nat t) pos); [lia|reflexivity].
    + destruct t as [|t]; cbn [nth_error].
      * destruct (Z.leb_spec (Z.of_nat 0) pos); [|lia]. do 2 f_equal. lia.
      * rewrite IH. destruct (Z.leb_spec (Z.of_nat t) (pos - 1)); destruct (Z.leb_spec (Z.of_nat (S t)) pos); try lia; [|reflexivity].
        destruct (nth_error r t); [|reflexivity]. do 2 f_equal. lia.
Qed.

Lemma pos_items_length rseq : forall pos,
  length (pos_items_loop rseq pos) = Nat.min (length rseq) (Z.to_nat (pos + 1)).
Proof.
  induction rseq as [|x r IH]; intros pos; cbn [pos_items_loop length]; [lia|].
  destruct (Z.ltb_spec pos 0) as [H|H]; cbn [length]; [lia|]. rewrite IH. lia.
Qed.

Lemma positions_main seq L :
  length (get_pos_items_arrays seq (Z.of_nat L)) = Nat.min (length seq) (L - 1)
  /\ forall t, t < Nat.min (length seq) (L - 1) ->
       nth_error (get_pos_items_arrays seq (Z.of_nat L)) t
       = Some (Z.of_nat (L - 2 - t), nth t (rev seq) 0%Z).
Proof.
  unfold get_pos_items_arrays. split.
  - rewrite pos_items_length, rev_length. lia.
  - intros t Ht. rewrite pos_items_nth. destruct (Z.leb_spec (Z.of_nat t) (Z.of_nat L - 2)); [|lia].
    destruct (nth_error (rev seq) t) as [x|] eqn:E.
    + rewrite (nth_error_nth _ _ 0%Z E). do 2 f_equal. lia.
    + apply nth_error_None in E. rewrite rev_length in E. lia.
Qed.

Section Ring.
  Context {A : Type} (zero one : A) (add mul sub : A -> A -> A) (opp : A -> A)
          (RT : ring_theory zero one add mul sub opp (@eq A)).
  Add Ring ARM : RT.
  Notation sum := (sum zero add).
  Notation sumn := (sumn zero add).

  Lemma sumn_0 f : sumn 0 f = zero.
  Proof. reflexivity. Qed.

  Lemma sumn_split n m f : sumn (n + m) f = add (sumn n f) (sumn m (fun k => f (n + k))).
  Proof.
    unfold Tensor_spec.sumn. rewrite seq_app, map_app, (sum_app zero one add mul sub opp RT). f_equal. f_equal.
    cbn [Nat.add]. rewrite <- (map_map (fun k => n + k) f). f_equal.
    assert (forall s, seq (n + s) m = map (fun k => n + k) (seq s m)) as K.
    { induction m as [|m IH]; intros s; [reflexivity|]. cbn [seq map]. rewrite <- IH. f_equal. f_equal. lia. }
    rewrite <- K. f_equal. lia.
  Qed.

  Lemma sumn_S n f : sumn (S n) f = add (sumn n f) (f n).
  Proof.
    replace (S n) with (n + 1) by lia. rewrite sumn_split. f_equal. unfold Tensor_spec.sumn. cbn [seq map].
    rewrite sum_cons, sum_nil, Nat.add_0_r. ring.
  Qed.

  Lemma sumn_Sl n f : sumn (S n) f = add (f 0) (sumn n (fun k => f (S k))).
  Proof.
    replace (S n) with (1 + n) by lia. rewrite sumn_split. f_equal. unfold Tensor_spec.sumn. cbn [seq map].
    rewrite sum_cons, sum_nil. ring.
  Qed.

  Lemma sumn_zero n f : (forall k, k < n -> f k = zero) -> sumn n f = zero.
  Proof. intros H. apply (sum_zero zero one add mul sub opp RT). intros x Hx. apply in_seq in Hx. apply H. lia. Qed.

  Lemma sumn_rev n f : sumn n f = sumn n (fun k => f (n - 1 - k)).
  Proof.
    induction n as [|n IH]; [reflexivity|]. rewrite sumn_S, sumn_Sl, IH.
    replace (S n - 1 - 0) with n by lia.
    match goal with |- add ?a ?b = add ?b ?c => transitivity (add b a); [ring|] end.
    f_equal. apply sumn_ext. intros k Hk. f_equal. lia.
  Qed.

  Lemma sumn_window n i j (g : nat -> A) : j <= i -> i < n ->
    sumn n (fun k => if (j <=? k) && (k <=? i) then g (k - j) else zero) = sumn (i - j + 1) g.
  Proof.
    intros H H'. replace n with (j + ((i - j + 1) + (n - i - 1))) by lia. rewrite sumn_split, sumn_split.
    rewrite (sumn_zero j). 2:{ intros k Hk. destruct (Nat.leb_spec j k); [lia|reflexivity]. }
    rewrite (sumn_zero (n - i - 1)).
    2:{ intros k Hk. destruct (Nat.leb_spec (j + (i - j + 1 + k)) i); [lia|]. rewrite andb_false_r. reflexivity. }
    match goal with |- add zero (add ?x zero) = ?y => transitivity x; [ring|] end.
    apply sumn_ext. intros k Hk. destruct (Nat.leb_spec j (j + k)); [|lia].
    destruct (Nat.leb_spec (j + k) i); [|lia]. cbn [andb]. f_equal. lia.
  Qed.

  (** Inverse of a unit lower triangular Toeplitz matrix, by coefficients. *)
  Section Toeplitz.
    Variable a : nat -> A.
    Hypothesis a0 : a 0 = one.

    Fixpoint coef (n : nat) : list A :=
      match n with
      | O => []
      | S n' => coef n' ++ [if n' =? 0 then one else opp (sumn n' (fun k => mul (a (n' - k)) (nth k (coef n') zero)))]
      end.
    Definition b (k : nat) : A := nth k (coef (S k)) zero.

    Lemma coef_length n : length (coef n) = n.
    Proof. induction n as [|n IH]; [reflexivity|]. cbn [coef]. rewrite app_length, IH. cbn. lia. Qed.

    Lemma coef_nth n k : k < n -> nth k (coef n) zero = b k.
    Proof.
      induction n as [|n IH]; intros H; [lia|]. destruct (Nat.eq_dec k n) as [->|D]; [reflexivity|].
      cbn [coef]. rewrite app_nth1 by (rewrite coef_length; lia). apply IH. lia.
    Qed.

    Lemma conv_right n : sumn (S n) (fun k => mul (a (n - k)) (b k)) = if n =? 0 then one else zero.
    Proof.
      rewrite sumn_S, Nat.sub_diag, a0. unfold b at 2. cbn [coef].
      rewrite app_nth2 by (rewrite coef_length; lia). rewrite coef_length, Nat.sub_diag. cbn [nth].
      destruct (n =? 0) eqn:E.
      - apply Nat.eqb_eq in E as ->. rewrite sumn_0. ring.
      - rewrite (sumn_ext zero add n (fun k => mul (a (n - k)) (nth k (coef n) zero)) (fun k => mul (a (n - k)) (b k))).
        2:{ intros k Hk. rewrite coef_nth by auto. reflexivity. }
        ring.
    Qed.

    Lemma conv_left n : sumn (S n) (fun k => mul (b (n - k)) (a k)) = if n =? 0 then one else zero.
    Proof.
      rewrite <- conv_right, sumn_rev. apply sumn_ext. intros k Hk.
      replace (n - (S n - 1 - k)) with k by lia. replace (S n - 1 - k) with (n - k) by lia. ring.
    Qed.

    Definition low (f : nat -> A) (i j : nat) : A := if j <=? i then f (i - j) else zero.

    Lemma low_product (f g : nat -> A) n i j : i < n -> j < n ->
      sumn n (fun k => mul (low f i k) (low g k j))
      = if j <=? i then sumn (S (i - j)) (fun k => mul (f (i - j - k)) (g k)) else zero.
    Proof.
      intros Hi Hj. unfold low. destruct (Nat.leb_spec j i) as [L|L].
      - transitivity (sumn n (fun k => if (j <=? k) && (k <=? i) then (fun t => mul (f (i - j - t)) (g t)) (k - j) else zero)).
        + apply sumn_ext. intros k Hk. destruct (Nat.leb_spec k i); destruct (Nat.leb_spec j k); cbn [andb]; try ring.
          f_equal. f_equal. lia.
        + rewrite (sumn_window n i j (fun t => mul (f (i - j - t)) (g t))) by auto. f_equal. lia.
      - apply sumn_zero. intros k Hk. destruct (Nat.leb_spec k i); destruct (Nat.leb_spec j k); try ring. lia.
    Qed.
  End Toeplitz.

  Lemma attention_invertible_main (decay : nat -> A) n m : decay 1 = one ->
    get_global_attention zero decay n = Ok m ->
    exists b, mwf b /\ mr b = n /\ mc b = n
      /\ (forall i j, i < n -> j < n -> i < j -> mget zero b i j = zero)
      /\ dot zero add mul m b = Ok (eye zero one n) /\ dot zero add mul b m = Ok (eye zero one n).
  Proof.
    intros D1 HM. pose proof (attention_cells_main zero decay n) as K. rewrite HM in K.
    destruct K as (N1 & W & R & C & P).
    set (a := fun d => decay (d + 1)). assert (a0 : a 0 = one) by exact D1.
    exists (build n n (low (b a))).
    split; [apply build_wf|]. split; [reflexivity|]. split; [reflexivity|]. split.
    { intros i j Hi Hj L. rewrite build_get by auto. unfold low. destruct (Nat.leb_spec j i); [lia|reflexivity]. }
    split; unfold dot; cbn [mr mc build]; rewrite ?C, ?R, Nat.eqb_refl; f_equal; unfold eye, build; f_equal;
      apply flat_map_ext_in; intros i Hi; apply map_ext_in; intros j Hj; apply in_seq in Hi; apply in_seq in Hj;
      rewrite (sum_upto_sumn zero one add mul sub opp RT).
    - transitivity (sumn n (fun k => mul (low a i k) (low (b a) k j))).
      + apply sumn_ext. intros k Hk. rewrite P by lia.
        change (mkMat n n (flat_map (fun i0 => map (low (b a) i0) (seq 0 n)) (seq 0 n))) with (build n n (low (b a))).
        rewrite build_get by lia. reflexivity.
      + rewrite low_product by lia. rewrite (conv_right a a0).
        destruct (Nat.leb_spec j i); destruct (Nat.eqb_spec i j); destruct (Nat.eqb_spec (i - j) 0); try reflexivity; lia.
    - transitivity (sumn n (fun k => mul (low (b a) i k) (low a k j))).
      + apply sumn_ext. intros k Hk. rewrite P by lia.
        change (mkMat n n (flat_map (fun i0 => map (low (b a) i0) (seq 0 n)) (seq 0 n))) with (build n n (low (b a))).
        rewrite build_get by lia. reflexivity.
      + rewrite low_product by lia. rewrite (conv_left a a0).
        destruct (Nat.leb_spec j i); destruct (Nat.eqb_spec i j); destruct (Nat.eqb_spec (i - j) 0); try reflexivity; lia.
  Qed.
End Ring.
