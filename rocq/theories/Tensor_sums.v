(** Finite sums over an arbitrary commutative ring. *)
From Coq Require Import ZArith List Bool Lia Permutation Ring ArithRing.
From Verif Require Import Prelude Prelude_proofs Tensor_model Tensor_spec Tensor_proofs.
Import ListNotations.
Open Scope nat_scope.

Section Sums.
  Context {A : Type} (zero one : A) (add mul sub : A -> A -> A) (opp : A -> A)
          (RT : ring_theory zero one add mul sub opp (@eq A)).
  Add Ring AR : RT.
  Notation sum := (sum zero add).
  Notation sumn := (sumn zero add).
  Infix "+r" := add (at level 50, left associativity).
  Infix "*r" := mul (at level 40, left associativity).

  Lemma sum_nil : sum [] = zero.
  Proof. reflexivity. Qed.

  Lemma sum_cons x l : sum (x :: l) = x +r sum l.
  Proof. reflexivity. Qed.

  Lemma sum_app l l' : sum (l ++ l') = sum l +r sum l'.
  Proof. induction l as [|x l IH]; [cbn [app map fold_left]; rewrite ?sum_nil; ring|]. cbn [app]. rewrite !sum_cons, IH. ring. Qed.

  Lemma fold_left_sum l : forall a, fold_left add l a = a +r sum l.
  Proof. induction l as [|x l IH]; intros a; [cbn [app map fold_left]; rewrite ?sum_nil; ring|]. cbn [fold_left]. rewrite IH, sum_cons. ring. Qed.

  Lemma sum_flat_map {X} (f : X -> list A) l : sum (flat_map f l) = sum (map (fun x => sum (f x)) l).
  Proof. induction l as [|x l IH]; [reflexivity|]. cbn [flat_map map]. rewrite sum_app, IH. reflexivity. Qed.

  Lemma sum_ext {X} (f g : X -> A) l : (forall x, In x l -> f x = g x) -> sum (map f l) = sum (map g l).
  Proof. intros H. f_equal. apply map_ext_in. exact H. Qed.

  Lemma sum_add {X} (f g : X -> A) l : sum (map (fun x => f x +r g x) l) = sum (map f l) +r sum (map g l).
  Proof. induction l as [|x l IH]; [cbn [app map fold_left]; rewrite ?sum_nil; ring|]. cbn [map]. rewrite !sum_cons, IH. ring. Qed.

  Lemma sum_scale_l {X} a (f : X -> A) l : sum (map (fun x => a *r f x) l) = a *r sum (map f l).
  Proof. induction l as [|x l IH]; [cbn [app map fold_left]; rewrite ?sum_nil; ring|]. cbn [map]. rewrite !sum_cons, IH. ring. Qed.

  Lemma sum_scale_r {X} a (f : X -> A) l : sum (map (fun x => f x *r a) l) = sum (map f l) *r a.
  Proof. induction l as [|x l IH]; [cbn [app map fold_left]; rewrite ?sum_nil; ring|]. cbn [map]. rewrite !sum_cons, IH. ring. Qed.

  Lemma sum_zero {X} (f : X -> A) l : (forall x, In x l -> f x = zero) -> sum (map f l) = zero.
  Proof.
    induction l as [|x l IH]; intros H; [reflexivity|]. cbn [map].
    rewrite sum_cons, IH, (H x (or_introl eq_refl)); [ring|]. intros; apply H; right; auto.
  Qed.

  Lemma sum_swap {X Y} (f : X -> Y -> A) l l' :
    sum (map (fun x => sum (map (f x) l')) l) = sum (map (fun y => sum (map (fun x => f x y) l)) l').
  Proof.
    induction l as [|x l IH].
    - cbn [map]. symmetry. apply sum_zero. reflexivity.
    - cbn [map]. rewrite sum_cons, IH, <- sum_add. apply sum_ext. reflexivity.
  Qed.

  Lemma sum_map_filter {X} (p : X -> bool) (f : X -> A) l :
    sum (map f (filter p l)) = sum (map (fun x => if p x then f x else zero) l).
  Proof.
    induction l as [|x l IH]; [reflexivity|]. cbn [filter map]. destruct (p x); cbn [map]; rewrite ?sum_cons, IH; ring.
  Qed.

  Lemma sum_pick {X} (eqb : X -> X -> bool) (f : X -> A) l d :
    (forall x y, eqb x y = true <-> x = y) -> NoDup l -> In d l ->
    sum (map (fun x => if eqb d x then f x else zero) l) = f d.
  Proof.
    intros EQ. induction l as [|x l IH]; intros N HI; [destruct HI|].
    inversion N as [|? ? N1 N2]; subst. cbn [map]. rewrite sum_cons. destruct HI as [->|HI].
    - replace (eqb d d) with true by (symmetry; apply EQ; auto).
      rewrite sum_zero; [ring|]. intros y Hy. destruct (eqb d y) eqn:E; auto.
      apply EQ in E. subst. contradiction.
    - destruct (eqb d x) eqn:E; [apply EQ in E; subst; contradiction|]. rewrite IH; auto. ring.
  Qed.

  Lemma cells_NoDup shape : NoDup (cells shape).
  Proof. apply NoDup_map_inv with (f := offset shape). rewrite cells_offset. apply seq_NoDup. Qed.

  (** Summing the entries is summing their totals over all cells. *)
  Lemma sum_entries shape (es : list (coord * A)) (g : coord -> A) :
    Forall (fun e => in_range shape (fst e)) es ->
    sum (map (fun e => snd e *r g (fst e)) es)
    = sum (map (fun c => sum (values_at c es) *r g c) (cells shape)).
  Proof.
    induction es as [|e es IH]; intros F.
    - cbn [map]. symmetry. apply sum_zero. intros c _. unfold values_at. cbn [filter map]. rewrite sum_nil. ring.
    - inversion F as [|? ? Fe F']; subst. cbn [map]. rewrite sum_cons, IH by auto.
      rewrite <- (sum_pick coord_eqb (fun c => snd e *r g c) (cells shape) (fst e) coord_eqb_eq (cells_NoDup _))
        by (apply cells_In; auto).
      rewrite <- sum_add. apply sum_ext. intros c _. unfold values_at. cbn [filter].
      destruct (coord_eqb (fst e) c); cbn [map]; rewrite ?sum_cons; ring.
  Qed.

  Lemma sumn_ext n f g : (forall i, i < n -> f i = g i) -> sumn n f = sumn n g.
  Proof. intros H. apply sum_ext. intros i Hi. apply in_seq in Hi. apply H. lia. Qed.

  Lemma for_sum n (f : nat -> A) s : for_ n (fun i s => s +r f i) s = s +r sumn n f.
  Proof.
    unfold for_, Tensor_spec.sumn. rewrite <- fold_left_sum. generalize (seq 0 n). intros l. revert s.
    induction l as [|i l IH]; intros s; [reflexivity|]. cbn [fold_left map]. apply IH.
  Qed.

  Lemma sum_upto_sumn n f : sum_upto zero add n f = sumn n f.
  Proof. unfold sum_upto. rewrite for_sum. ring. Qed.

  Lemma for_body_sum n (body : nat -> A -> A) (f : nat -> A) s :
    (forall i s, body i s = s +r f i) -> for_ n body s = s +r sumn n f.
  Proof.
    intros H. unfold for_, Tensor_spec.sumn. generalize (seq 0 n). intros l. revert s.
    induction l as [|i l IH]; intros s; [cbn [app map fold_left]; rewrite ?sum_nil; ring|]. cbn [fold_left map].
    rewrite IH, H, sum_cons. ring.
  Qed.

  Lemma sum_cells shape (f : coord -> A) :
    sum (map f (cells shape))
    = sumn (c0 shape) (fun i => sumn (c1 shape) (fun j => sumn (c2 shape) (fun k => f (i, j, k)))).
  Proof.
    unfold cells, Tensor_spec.sumn. rewrite map_flat_map, sum_flat_map. apply sum_ext. intros i _.
    rewrite map_flat_map, sum_flat_map. apply sum_ext. intros j _. rewrite map_map. reflexivity.
  Qed.

  Lemma sumn_pick n d f : d < n -> sumn n (fun i => if d =? i then f i else zero) = f d.
  Proof.
    intros H. apply (sum_pick Nat.eqb f (seq 0 n) d); [apply Nat.eqb_eq|apply seq_NoDup|apply in_seq; lia].
  Qed.

  Lemma sumn_scale_l n a f : sumn n (fun i => a *r f i) = a *r sumn n f.
  Proof. apply sum_scale_l. Qed.
  Lemma sumn_scale_r n a f : sumn n (fun i => f i *r a) = sumn n f *r a.
  Proof. apply (sum_scale_r a f). Qed.

  (** Sum over a product range. *)
  Lemma sumn_mul n m (f : nat -> A) :
    sumn (n * m) f = sumn n (fun i => sumn m (fun j => f (i * m + j))).
  Proof.
    unfold Tensor_spec.sumn. rewrite <- flat_map_blocks, map_flat_map, sum_flat_map.
    apply sum_ext. intros i _. rewrite map_map. reflexivity.
  Qed.
End Sums.
