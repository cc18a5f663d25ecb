(** Proofs about RandomRec. *)
From Coq Require Import ZArith QArith List Bool Permutation Lia.
From Coq Require FinFun.
From Verif Require Import Prelude DataPrep_model Recommend_model Recommend_spec Recommend_proofs Recommend_main Eval_model Eval_spec Eval_proofs
  Chance_model Chance_spec.
Import ListNotations.
Open Scope Z_scope.

(** * Sums of naturals *)
Definition nsum (l : list nat) : nat := fold_right Nat.add 0%nat l.
Lemma nsum_app l l' : nsum (l ++ l') = (nsum l + nsum l')%nat.
Proof. induction l as [|x l IH]; cbn [nsum fold_right app]; [reflexivity|]. change (x + nsum (l ++ l') = x + nsum l + nsum l')%nat. lia. Qed.
Lemma nsum_add {X} (f g : X -> nat) l : nsum (map (fun x => f x + g x)%nat l) = (nsum (map f l) + nsum (map g l))%nat.
Proof. induction l as [|x l IH]; cbn [map nsum fold_right]; [reflexivity|]. change (f x + g x + nsum (map (fun x => f x + g x)%nat l) = f x + nsum (map f l) + (g x + nsum (map g l)))%nat. lia. Qed.
Lemma nsum_swap {X Y} (f : X -> Y -> nat) (l : list X) (l' : list Y) :
  nsum (map (fun x => nsum (map (f x) l')) l) = nsum (map (fun y => nsum (map (fun x => f x y) l)) l').
Proof.
  induction l as [|x l IH]; cbn [map].
  - symmetry. induction l' as [|y l' IH']; [reflexivity|exact IH'].
  - change (nsum (map (f x) l') + nsum (map (fun x => nsum (map (f x) l')) l) = nsum (map (fun y => f x y + nsum (map (fun x => f x y) l))%nat l'))%nat.
    rewrite IH, nsum_add. reflexivity.
Qed.
Lemma nsum_const {X} (f : X -> nat) c l : (forall x, In x l -> f x = c) -> nsum (map f l) = (length l * c)%nat.
Proof.
  intro H. induction l as [|x l IH]; [reflexivity|]. cbn [map length]. change (f x + nsum (map f l) = S (length l) * c)%nat.
  rewrite IH by (intros y I; apply H; now right). rewrite (H x) by now left. lia.
Qed.
Lemma nsum_ext {X} (f g : X -> nat) l : (forall x, In x l -> f x = g x) -> nsum (map f l) = nsum (map g l).
Proof. intro H. f_equal. apply map_ext_in. exact H. Qed.
Lemma nsum_perm l l' : Permutation l l' -> nsum l = nsum l'.
Proof. induction 1; cbn [nsum fold_right] in *; unfold nsum in *; lia. Qed.
Definition b2n (b : bool) : nat := if b then 1%nat else 0%nat.
Lemma filter_count {X} (p : X -> bool) l : length (filter p l) = nsum (map (fun x => b2n (p x)) l).
Proof. induction l as [|x l IH]; [reflexivity|]. cbn [filter map]. change (length (if p x then x :: filter p l else filter p l) = b2n (p x) + nsum (map (fun x => b2n (p x)) l))%nat. rewrite <- IH. now destruct (p x). Qed.

(** * Exchanging two entries *)
Definition sw (a b j : nat) : nat := if Nat.eqb j a then b else if Nat.eqb j b then a else j.
Lemma sw_inv a b j : sw a b (sw a b j) = j.
Proof.
  unfold sw. destruct (Nat.eqb_spec j a) as [->|N1].
  - destruct (Nat.eqb_spec b a) as [->|N]; [reflexivity|]. now rewrite Nat.eqb_refl.
  - destruct (Nat.eqb_spec j b) as [->|N2]; [now rewrite Nat.eqb_refl|].
    destruct (Nat.eqb_spec j a); [congruence|]. destruct (Nat.eqb_spec j b); congruence.
Qed.
Lemma sw_lt a b j n : (a < n)%nat -> (b < n)%nat -> (j < n)%nat -> (sw a b j < n)%nat.
Proof. intros. unfold sw. destruct (Nat.eqb j a); [lia|]. destruct (Nat.eqb j b); lia. Qed.
Lemma nth_error_seq s n j : nth_error (seq s n) j = if (j <? n)%nat then Some (s + j)%nat else None.
Proof.
  revert s j. induction n as [|n IH]; intros s j; [now destruct j|]. destruct j as [|j]; cbn [seq nth_error]; [cbn; now rewrite Nat.add_0_r|].
  rewrite IH. change (S j <? S n)%nat with (j <? n)%nat. destruct (j <? n)%nat; [f_equal; lia|reflexivity].
Qed.
Lemma nth_error_combine {X Y} (l : list X) (l' : list Y) j :
  nth_error (combine l l') j = match nth_error l j, nth_error l' j with Some x, Some y => Some (x, y) | _, _ => None end.
Proof. revert l' j. induction l as [|x l IH]; intros [|y l'] [|j]; cbn; auto; destruct (nth_error l j); auto. Qed.
Lemma exchange_nth {A} (a b : nat) (s : list A) j : (a < length s)%nat -> (b < length s)%nat -> (j < length s)%nat ->
  nth_error (exchange a b s) j = nth_error s (sw a b j).
Proof.
  intros Ha Hb Hj. unfold exchange. destruct (nth_error s a) as [x|] eqn:Ea; [|apply nth_error_None in Ea; lia].
  destruct (nth_error s b) as [y|] eqn:Eb; [|apply nth_error_None in Eb; lia].
  rewrite nth_error_map, nth_error_combine, nth_error_seq. apply Nat.ltb_lt in Hj as Hj'. rewrite Hj'. cbn [plus].
  destruct (nth_error s j) as [z|] eqn:Ej; [|apply nth_error_None in Ej; lia]. cbn [option_map fst snd]. unfold sw.
  destruct (Nat.eqb j a); [now rewrite Eb|]. destruct (Nat.eqb j b); now rewrite ?Ea, ?Ej.
Qed.
Lemma exchange_length {A} (a b : nat) (s : list A) : length (exchange a b s) = length s.
Proof.
  unfold exchange. destruct (nth_error s a); [|reflexivity]. destruct (nth_error s b); [|reflexivity].
  rewrite map_length, combine_length, seq_length. lia.
Qed.
Lemma exchange_NoDup {A} (a b : nat) (s : list A) : (a < length s)%nat -> (b < length s)%nat -> NoDup s -> NoDup (exchange a b s).
Proof.
  intros Ha Hb N. apply NoDup_nth_error. intros i j Hi E. rewrite exchange_length in Hi.
  assert (Hj : (j < length s)%nat).
  { destruct (lt_dec j (length s)); [assumption|]. rewrite exchange_nth in E by assumption.
    assert (X : nth_error (exchange a b s) j = None) by (apply nth_error_None; rewrite exchange_length; lia).
    rewrite X in E. apply nth_error_None in E. assert (L := sw_lt a b i _ Ha Hb Hi). lia. }
  rewrite !exchange_nth in E by assumption. apply (proj1 (NoDup_nth_error s) N) in E; [|now apply sw_lt].
  rewrite <- (sw_inv a b i), E. apply sw_inv.
Qed.
Lemma on_entry_nth {X} i (f : X -> X) l dflt : (i < length l)%nat -> nth i (on_entry i f l) dflt = f (nth i l dflt).
Proof. revert i. induction l as [|x l IH]; intros [|i] H; cbn in *; try lia; [reflexivity|]. apply IH. lia. Qed.

Lemma map_NoDup_in {X Y} (f : X -> Y) l : (forall x y, In x l -> In y l -> f x = f y -> x = y) -> NoDup l -> NoDup (map f l).
Proof.
  intros H N. induction N as [|x l NI N IH]; [constructor|]. cbn [map]. constructor.
  - intro I. apply in_map_iff in I as (y & E & I). apply NI. rewrite <- (H y x); [exact I|now right|now left|exact E].
  - apply IH. intros. apply H; auto; now right.
Qed.
Lemma Forall2_length {X Y} (P : X -> Y -> Prop) l l' : Forall2 P l l' -> length l = length l'.
Proof. induction 1; cbn; congruence. Qed.
Section Chance.
  Context {A : Type} (leb : A -> A -> bool).
  Hypothesis leb_trans : forall x y z, leb x y = true -> leb y z = true -> leb x z = true.
  Hypothesis leb_anti : forall x y, leb x y = true -> leb y x = true -> x = y.
  Variable argpart : nat -> list A -> nat -> list nat.
  Hypothesis contract : argpartition_contract leb argpart.
  Variable st : rec_state A.
  Hypothesis wf : wf_state st.
  Notation n := (rs_n_items st).
  Notation name := (g_of (m_items (rs_mappings st))).
  Hypothesis inj : forall j j' x, name j = Some x -> name j' = Some x -> j = j'.
  Hypothesis two : (2 <= n)%nat.

  Definition vector (s : list A) : Prop := length s = n /\ NoDup s.
  Lemma wf_drawn s : vector s -> wf_state (drawn st s).
  Proof. intros [L _]. destruct wf as (W1 & W2 & W3 & W4). repeat split; cbn; auto; try (now apply W1 in H). - intros u _. exists s. auto. - now apply W3 in H. - now apply W3 in H. Qed.

  Section User.
    Variable u : Z.
    Hypothesis Hu : 0 <= u < Z.of_nat (rs_n_users st).
    Variable K : nat.
    Hypothesis HK : (1 <= K <= n)%nat.
    Notation U := (unseen_list (rs_history st) n u).
    Hypothesis HU : (K <= length U)%nat.
    Variable i : nat.

    Definition pick (s : list A) : list Z := match recommend_user argpart (drawn st s) true false K i u with Ok r => r | Err _ => [] end.
    Lemma name_of j : In j U -> exists x, name j = Some x.
    Proof using wf. intro I. apply unseen_list_In in I as [R _]. destruct wf as (_ & _ & _ & W). auto. Qed.
    Lemma pick_ok s : vector s -> exists irow, recommend_user argpart (drawn st s) true false K i u = Ok (pick s) /\
      is_top_k leb (drawn st s) true u s K irow /\ translated st irow (pick s).
    Proof.
      intro V. destruct (user_ok leb leb_trans argpart contract (drawn st s) true false K i u) as (row & E & R); auto.
      - now apply wf_drawn.
      - intros _. cbn [drawn rs_history rs_n_items]. rewrite n_unseen_length. exact HU.
      - destruct R as (sc & irow & Es & T & _ & Tr). cbn in Es. injection Es as <-. exists irow. unfold pick. rewrite E. auto.
    Qed.
    Lemma translated_In irow row j x : translated st irow row -> name j = Some x -> (In x row <-> In j irow).
    Proof.
      intros T E. induction T as [|j' x' irow row H T IH]; [easy|]. cbn [In]. split.
      - intros [->|I]; [left; now apply (inj j' j x)|right; now apply IH].
      - intros [->|I]; [left; congruence|right; now apply IH].
    Qed.
    Lemma top_swap s irow a b : vector s -> In a U -> In b U -> is_top_k leb (drawn st s) true u s K irow ->
      is_top_k leb (drawn st (exchange (Z.to_nat a) (Z.to_nat b) s)) true u (exchange (Z.to_nat a) (Z.to_nat b) s) K
        (map (fun j => Z.of_nat (sw (Z.to_nat a) (Z.to_nat b) (Z.to_nat j))) irow).
    Proof.
      intros [Ls Ns] Ia Ib (L & N & Cd & T). apply unseen_list_In in Ia as [Ra Sa]. apply unseen_list_In in Ib as [Rb Sb].
      set (a' := Z.to_nat a). set (b' := Z.to_nat b). assert (Ha : (a' < n)%nat) by lia. assert (Hb : (b' < n)%nat) by lia.
      set (f := fun j => Z.of_nat (sw a' b' (Z.to_nat j))).
      assert (Cf : forall j, 0 <= j < Z.of_nat n -> ~ In (u, j) (rs_history st) -> 0 <= f j < Z.of_nat n /\ ~ In (u, f j) (rs_history st)).
      { intros j R S. unfold f. split.
        - assert (X := sw_lt a' b' (Z.to_nat j) n Ha Hb ltac:(lia)). lia.
        - unfold sw. destruct (Nat.eqb (Z.to_nat j) a'); [unfold b'; rewrite Z2Nat.id by lia; exact Sb|].
          destruct (Nat.eqb (Z.to_nat j) b'); [unfold a'; rewrite Z2Nat.id by lia; exact Sa|]. rewrite Z2Nat.id by lia. exact S. }
      assert (ff : forall j, 0 <= j -> f (f j) = j).
      { intros j R. unfold f. rewrite Nat2Z.id, sw_inv. now apply Z2Nat.id. }
      repeat split.
      - now rewrite map_length.
      - apply map_NoDup_in; [|exact N]. intros x y Ix Iy E. apply Cd in Ix as [[Rx _] _]. apply Cd in Iy as [[Ry _] _].
        rewrite <- (ff x Rx), <- (ff y Ry). fold (f x) (f y) in E. now rewrite E.
      - apply in_map_iff in H as (j' & <- & I). apply Cd in I as [R S]. apply (Cf j' R (S eq_refl)).
      - apply in_map_iff in H as (j' & <- & I). apply Cd in I as [R S]. apply (Cf j' R (S eq_refl)).
      - intros _. apply in_map_iff in H as (j' & <- & I). apply Cd in I as [R S]. apply (Cf j' R (S eq_refl)).
      - intros p q x y Ip [Rq Sq] Nq Ex Ey. apply in_map_iff in Ip as (p' & <- & Ip). apply Cd in Ip as Cp. destruct Cp as [Rp Sp]. cbn in Rp, Rq, Sq, Sp.
        destruct (Cf q Rq (Sq eq_refl)) as [Rf Sf].
        assert (Hla : (a' < length s)%nat) by (rewrite Ls; exact Ha). assert (Hlb : (b' < length s)%nat) by (rewrite Ls; exact Hb).
        assert (Hp : (Z.to_nat p' < length s)%nat) by (rewrite Ls; lia). assert (Hq : (Z.to_nat q < length s)%nat) by (rewrite Ls; lia).
        fold a' b' in Ex, Ey. unfold f in Ex. rewrite Nat2Z.id in Ex. rewrite (exchange_nth a' b' s _ Hla Hlb (sw_lt _ _ _ _ Hla Hlb Hp)), sw_inv in Ex.
        rewrite (exchange_nth a' b' s _ Hla Hlb Hq) in Ey.
        apply (T p' (f q) x y Ip).
        + split; [exact Rf|intros _; exact Sf].
        + intro I. apply Nq. apply in_map_iff. exists (f q). split; [|exact I]. apply ff. lia.
        + exact Ex.
        + unfold f. rewrite Nat2Z.id. exact Ey.
    Qed.
    Lemma pick_swap s a b xa xb : vector s -> In a U -> In b U -> name a = Some xa -> name b = Some xb ->
      (In xb (pick (exchange (Z.to_nat a) (Z.to_nat b) s)) <-> In xa (pick s)).
    Proof.
      intros V Ia Ib Ea Eb. set (s' := exchange (Z.to_nat a) (Z.to_nat b) s).
      assert (Ra := Ia). assert (Rb := Ib). apply unseen_list_In in Ra as [Ra _]. apply unseen_list_In in Rb as [Rb _].
      assert (V' : vector s').
      { destruct V as [Ls Ns]. split; [unfold s'; now rewrite exchange_length|]. apply exchange_NoDup; auto; lia. }
      destruct (pick_ok s V) as (r & E & T & Tr). destruct (pick_ok s' V') as (r' & E' & T' & Tr').
      rewrite (translated_In _ _ _ _ Tr Ea), (translated_In _ _ _ _ Tr' Eb).
      assert (P := top_k_unique leb (drawn st s') true u s' K _ _ leb_anti (proj2 V') (proj1 V') T' (top_swap s r a b V Ia Ib T)).
      rewrite (Permutation_in' eq_refl P). rewrite in_map_iff. split.
      - intros (j & Ej & I). assert (Rj := proj1 (proj1 (proj2 (proj2 T)) j I)). cbn in Rj.
        replace a with j; [exact I|]. assert (X : sw (Z.to_nat a) (Z.to_nat b) (Z.to_nat j) = Z.to_nat b) by lia.
        apply (f_equal (sw (Z.to_nat a) (Z.to_nat b))) in X. rewrite sw_inv in X. unfold sw in X.
        destruct (Nat.eqb_spec (Z.to_nat b) (Z.to_nat a)); [lia|]. rewrite Nat.eqb_refl in X. lia.
      - intro I. exists a. split; [|exact I]. unfold sw. rewrite Nat.eqb_refl. lia.
    Qed.

    Lemma names_nodup : NoDup (new_to st u) /\ length (new_to st u) = length U /\ (forall x, In x (new_to st u) <-> exists j, In j U /\ name j = Some x).
    Proof using wf inj.
      clear HU. assert (NU : NoDup U).
      { unfold unseen_list. apply NoDup_filter. unfold zrange. apply FinFun.Injective_map_NoDup; [|apply seq_NoDup]. intros x y E. now apply Nat2Z.inj. }
      assert (NM := name_of). unfold new_to. fold (unseen_list (rs_history st) n u).
      assert (X : forall x l, In x (flat_map (fun j => match name j with Some x => [x] | None => [] end) l) <-> exists j, In j l /\ name j = Some x).
      { intros x l. rewrite in_flat_map. split; intros (j & I & H); exists j; (split; [exact I|]).
        - destruct (name j); [|easy]. destruct H as [->|[]]. reflexivity.
        - rewrite H. now left. }
      split; [|split].
      - induction U as [|j l IH]; [constructor|]. inversion NU as [|? ? NI ND]; subst. cbn [flat_map]. destruct (name j) as [x|] eqn:E.
        + cbn [app]. constructor; [|apply IH; auto; intros; apply NM; now right]. intro I. apply X in I as (j' & I & E'). rewrite (inj _ _ _ E E') in NI. contradiction.
        + apply IH; auto. intros; apply NM; now right.
      - induction U as [|j l IH]; [reflexivity|]. inversion NU as [|? ? NI ND]; subst. cbn [flat_map]. destruct (NM j (or_introl eq_refl)) as [x E]. rewrite E.
        cbn [app length]. f_equal. apply IH; auto. intros; apply NM; now right.
      - intro x. apply X.
    Qed.
    Lemma pick_props s : vector s -> length (pick s) = K /\ NoDup (pick s) /\ incl (pick s) (new_to st u).
    Proof.
      intro V. destruct (pick_ok s V) as (r & E & (L & N & Cd & _) & Tr). split; [|split].
      - rewrite <- L. symmetry. revert Tr. apply Forall2_length.
      - revert N. clear - Tr inj. induction Tr as [|j x irow row H T IH]; [constructor|]. intro N. inversion N; subst. constructor; [|now apply IH].
        intro I. apply (translated_In irow row j x T H) in I. contradiction.
      - intros x I. assert (I' := I). destruct names_nodup as (_ & _ & M). apply M.
        destruct (Forall2_In_r _ _ _ _ Tr I') as (j & Ij & Ej). exists j. split; [|exact Ej]. apply Cd in Ij as [R S]. apply unseen_list_In. split; [exact R|exact (S eq_refl)].
    Qed.

    (** Frequencies. *)
    Definition has (x : Z) (l : list Z) : bool := if in_dec Z.eq_dec x l then true else false.
    Definition freq (x : Z) (D : list (list (list A))) : nat := nsum (map (fun d => b2n (has x (pick (nth i d [])))) D).
    Lemma has_ext x y l l' : (In x l <-> In y l') -> has x l = has y l'.
    Proof. intro H. unfold has. destruct (in_dec _ x l), (in_dec _ y l'); tauto. Qed.
    Definition good (d : list (list A)) : Prop := (i < length d)%nat /\ vector (nth i d []).
    Lemma freq_same D x y : exchangeable n D -> Forall good D -> In x (new_to st u) -> In y (new_to st u) -> freq x D = freq y D.
    Proof.
      intros EX G Ix Iy. destruct names_nodup as (_ & _ & M). apply M in Ix as (a & Ia & Ea). apply M in Iy as (b & Ib & Eb).
      assert (Ra := Ia). assert (Rb := Ib). apply unseen_list_In in Ra as [Ra _]. apply unseen_list_In in Rb as [Rb _].
      assert (P := EX i (Z.to_nat a) (Z.to_nat b) ltac:(lia) ltac:(lia)).
      unfold freq. rewrite <- (nsum_perm _ _ (Permutation_map (fun d => b2n (has y (pick (nth i d [])))) P)). rewrite map_map.
      apply nsum_ext. intros d Id. apply (proj1 (Forall_forall _ _) G) in Id as [Hi V]. rewrite on_entry_nth by exact Hi.
      f_equal. apply has_ext. symmetry. now apply pick_swap.
    Qed.
    Lemma freq_total D : Forall good D -> nsum (map (fun x => freq x D) (new_to st u)) = (length D * K)%nat.
    Proof.
      intro G. unfold freq. rewrite nsum_swap. apply nsum_const. intros d Id. apply (proj1 (Forall_forall _ _) G) in Id as [_ V].
      destruct (pick_props _ V) as (L & N & I). destruct names_nodup as (NN & _ & _). rewrite <- L, <- filter_count.
      apply Permutation_length. apply NoDup_Permutation; [now apply NoDup_filter|exact N|]. intro x. rewrite filter_In. unfold has.
      destruct (in_dec Z.eq_dec x (pick (nth i d []))) as [H|H]; split; intros; try tauto; [split; auto|destruct H0; discriminate].
    Qed.
    Lemma freq_main D x : exchangeable n D -> Forall good D ->
      (In x (new_to st u) -> (length (new_to st u) * freq x D = length D * K)%nat) /\ (~ In x (new_to st u) -> freq x D = 0%nat).
    Proof.
      intros EX G. split.
      - intro I. rewrite <- (freq_total D G). symmetry. apply nsum_const. intros y Iy. now apply freq_same.
      - intro I. unfold freq. rewrite (nsum_const _ 0%nat); [lia|]. intros d Id. apply (proj1 (Forall_forall _ _) G) in Id as [_ V].
        unfold has. destruct (in_dec Z.eq_dec x (pick (nth i d []))) as [H|H]; [|reflexivity]. exfalso. apply I. now apply (proj2 (proj2 (pick_props _ V))).
    Qed.
  End User.

  (** * All users *)
  Section Users.
    Variables (K : nat).
    Hypothesis HK : (1 <= K <= n)%nat.
    Definition fits (u : Z) : Prop := 0 <= u < Z.of_nat (rs_n_users st) /\ (K <= length (unseen_list (rs_history st) n u))%nat.

    Fixpoint rows_from (i : nat) (us : list Z) (d : list (list A)) : list (list Z) :=
      match us, d with u :: us', s :: d' => pick u K i s :: rows_from (S i) us' d' | _, _ => [] end.
    Lemma loop_rows us : forall i d, Forall fits us -> length d = length us -> Forall vector d ->
      random_loop argpart st true false K i us d = Ok (rows_from i us d) /\ length (rows_from i us d) = length us.
    Proof.
      induction us as [|u us IH]; intros i d F L V; [now destruct d|]. destruct d as [|s d]; [discriminate|].
      inversion F as [|? ? [Hu HU] F']; subst. inversion V as [|? ? Vs V']; subst. injection L as L.
      cbn [random_loop rows_from]. destruct (pick_ok u Hu K HK HU i s Vs) as (ir & E & _). rewrite E. cbn [bind].
      destruct (IH (S i) d F' L V') as [E2 L2]. rewrite E2. cbn [bind length]. now rewrite L2.
    Qed.
    Lemma hits_sum us : forall i d test, length d = length us -> length test = length us ->
      hits (rows_from i us d) test = nsum (map (fun m => b2n (has (nth m test 0) (pick (nth m us 0) K (i + m)%nat (nth m d [])))) (seq 0 (length us))).
    Proof.
      unfold hits. induction us as [|u us IH]; intros i d test L Lt; [now destruct d, test|].
      destruct d as [|s d]; [discriminate|]. destruct test as [|t test]; [discriminate|]. injection L as L. injection Lt as Lt.
      cbn [rows_from combine filter fst snd length seq map]. rewrite <- seq_shift, map_map.
      change (length (if (if in_dec Z.eq_dec t (pick u K i s) then true else false) then (pick u K i s, t) :: filter (fun rt => if in_dec Z.eq_dec (snd rt) (fst rt) then true else false) (combine (rows_from (S i) us d) test)
                      else filter (fun rt => if in_dec Z.eq_dec (snd rt) (fst rt) then true else false) (combine (rows_from (S i) us d) test))
        = b2n (has (nth 0 (t :: test) 0%Z) (pick (nth 0 (u :: us) 0%Z) K (i + 0) (nth 0 (s :: d) []))) + nsum (map (fun m => b2n (has (nth (S m) (t :: test) 0%Z) (pick (nth (S m) (u :: us) 0%Z) K (i + S m) (nth (S m) (s :: d) [])))) (seq 0 (length us))))%nat.
      cbn [nth]. rewrite Nat.add_0_r. specialize (IH (S i) d test L Lt).
      assert (X : nsum (map (fun m => b2n (has (nth m test 0) (pick (nth m us 0) K (S i + m) (nth m d [])))) (seq 0 (length us)))
                = nsum (map (fun m => b2n (has (nth m test 0) (pick (nth m us 0) K (i + S m) (nth m d [])))) (seq 0 (length us)))).
      { apply nsum_ext. intros m _. now replace (S i + m)%nat with (i + S m)%nat by lia. }
      rewrite <- X, <- IH. unfold has. destruct (in_dec Z.eq_dec t (pick u K i s)); reflexivity.
    Qed.
  End Users.
End Chance.

Lemma Qsum_inject l c : Forall2 (fun (m : nat) q => q == inject_Z (Z.of_nat m) / c)%Q (fst l) (snd l) -> (Qsum (snd l) == inject_Z (Z.of_nat (nsum (fst l))) / c)%Q.
Proof.
  destruct l as [a b]. cbn [fst snd]. induction 1 as [|m q a b H F IH]; cbn [Qsum nsum fold_right]; [unfold Qdiv; ring|].
  rewrite H, IH. change (fold_right Nat.add 0%nat a) with (nsum a). rewrite Nat2Z.inj_add, inject_Z_plus. unfold Qdiv. ring.
Qed.

Theorem chance_main {A} (leb : A -> A -> bool) :
  (forall x y z, leb x y = true -> leb y z = true -> leb x z = true) ->
  (forall x y, leb x y = true -> leb y x = true -> x = y) ->
  forall argpart, argpartition_contract leb argpart ->
  forall (st : rec_state A) users test k outcomes,
    wf_state st -> (forall j j' x, g_of (m_items (rs_mappings st)) j = Some x -> g_of (m_items (rs_mappings st)) j' = Some x -> j = j') ->
    (2 <= rs_n_items st)%nat -> (1 <= k)%nat -> users <> [] -> length test = length users ->
    (forall uid, In uid users -> exists u, f_of (m_users (rs_mappings st)) uid = Some u /\ (Nat.min k (rs_n_items st) <= length (new_to st u))%nat) ->
    outcomes <> [] ->
    Forall (fun draws => length draws = length users /\ Forall (fun s => length s = rs_n_items st /\ NoDup s) draws) outcomes ->
    exchangeable (rs_n_items st) outcomes ->
    exists hs, Forall2 (fun draws h => exists rows, random_recommend argpart st draws users k true false = Ok rows /\ hr rows test = Ok h) outcomes hs /\
      (mean hs == mean (map (fun ut => chance st (Nat.min k (rs_n_items st)) (fst ut) (snd ut)) (combine users test)))%Q.
Proof.
  intros tr an argpart CT st users test k D W inj two Hk NE Lt KU ND FD EX.
  set (K := Nat.min k (rs_n_items st)). assert (HK : (1 <= K <= rs_n_items st)%nat) by (unfold K; lia).
  destruct (known_users st users) as (us & Em & Fu). { intros uid I. destruct (KU uid I) as (u & E & _). eauto. }
  assert (Lu : length us = length users) by (symmetry; eapply Forall2_length; exact Fu).
  assert (FT : Forall (fits st K) us).
  { apply Forall_forall. intros u I. destruct (Forall2_In_r _ _ _ _ Fu I) as (uid & Iu & E). destruct (KU uid Iu) as (u' & E' & H).
    rewrite E in E'. injection E' as <-. destruct W as (W1 & W2 & W3 & W4). assert (R := W3 _ _ E). split; [exact R|].
    destruct (names_nodup st (conj W1 (conj W2 (conj W3 W4))) inj u) as (_ & L & _). unfold K in *. now rewrite <- L. }
  set (c := inject_Z (Z.of_nat (length users))).
  assert (R : forall d, length d = length users /\ Forall (fun s => length s = rs_n_items st /\ NoDup s) d ->
    exists h, (exists rows, random_recommend argpart st d users k true false = Ok rows /\ hr rows test = Ok h) /\
      (h == inject_Z (Z.of_nat (nsum (map (fun m => b2n (has (nth m test 0%Z) (pick argpart st (nth m us 0%Z) K m (nth m d [])))) (seq 0 (length us))))) / c)%Q).
  { intros d [Ld Vd]. destruct (loop_rows leb tr argpart CT st W two K HK us 0%nat d FT ltac:(lia) Vd) as [E L].
    destruct (hr_ok (rows_from argpart st K 0 us d) test) as (h & Eh & Qh); [lia|destruct test; [destruct users; [congruence|discriminate]|discriminate]|].
    exists h. split.
    - exists (rows_from argpart st K 0 us d). split; [|exact Eh]. unfold random_recommend. rewrite Em. cbn [bind]. rewrite wf_history_fits by exact W. exact E.
    - rewrite Qh, Lt, (hits_sum argpart st) by lia. reflexivity. }
  assert (HS : exists hs, Forall2 (fun draws h => exists rows, random_recommend argpart st draws users k true false = Ok rows /\ hr rows test = Ok h) D hs /\
     Forall2 (fun (m : nat) q => q == inject_Z (Z.of_nat m) / c)%Q (map (fun d => nsum (map (fun m => b2n (has (nth m test 0%Z) (pick argpart st (nth m us 0%Z) K m (nth m d [])))) (seq 0 (length us)))) D) hs).
  { clear ND EX. induction D as [|d D IH]; [exists []; split; constructor|]. inversion FD as [|? ? H FD']; subst.
    destruct (R d H) as (h & Hr & Hq). destruct (IH FD') as (hs & F1 & F2). exists (h :: hs). split; constructor; auto. }
  destruct HS as (hs & F1 & F2). exists hs. split; [exact F1|].
  assert (S1 := Qsum_inject (_, hs) c F2). cbn [fst snd] in S1. unfold mean. rewrite S1. rewrite nsum_swap.
  replace (length hs) with (length D) by (eapply Forall2_length; exact F1). rewrite map_length, combine_length, Lt, Nat.min_id. fold c.
  assert (D0 : ~ (inject_Z (Z.of_nat (length D)) == 0)%Q). { destruct D; [congruence|]. discriminate. }
  assert (c0 : ~ (c == 0)%Q). { unfold c. destruct users; [congruence|]. discriminate. }
  assert (M : (inject_Z (Z.of_nat (nsum (map (fun m => nsum (map (fun d => b2n (has (nth m test 0%Z) (pick argpart st (nth m us 0%Z) K m (nth m d [])))) D)) (seq 0 (length us)))))
    == inject_Z (Z.of_nat (length D)) * Qsum (map (fun ut => chance st K (fst ut) (snd ut)) (combine users test)))%Q).
  { assert (G : forall m, (m < length us)%nat ->
      (inject_Z (Z.of_nat (nsum (map (fun d => b2n (has (nth m test 0%Z) (pick argpart st (nth m us 0%Z) K m (nth m d [])))) D)))
       == inject_Z (Z.of_nat (length D)) * chance st K (nth m users 0%Z) (nth m test 0%Z))%Q).
    { intros m Hm. assert (Iu : In (nth m us 0%Z) us) by (apply nth_In; exact Hm).
      destruct (proj1 (Forall_forall _ _) FT _ Iu) as [Ru HU].
      assert (GD : Forall (good st m) D).
      { apply Forall_forall. intros d Id. destruct (proj1 (Forall_forall _ _) FD _ Id) as [Ld Vd]. split; [lia|].
        apply (proj1 (Forall_forall _ _) Vd). apply nth_In. lia. }
      destruct (freq_main leb tr an argpart CT st W inj two (nth m us 0%Z) Ru K HK HU m D (nth m test 0%Z) EX GD) as [X1 X2].
      fold (freq argpart st (nth m us 0%Z) K m (nth m test 0%Z) D).
      assert (E : f_of (m_users (rs_mappings st)) (nth m users 0%Z) = Some (nth m us 0%Z)).
      { clear - Fu Hm Lu. revert m Hm. induction Fu as [|a b l l' H F IH]; intros m Hm; [cbn in Hm; lia|]. destruct m as [|m]; [exact H|]. cbn [nth]. apply IH; cbn in *; lia. }
      unfold chance. rewrite E. destruct (in_dec Z.eq_dec (nth m test 0%Z) (new_to st (nth m us 0%Z))) as [I|I].
      - specialize (X1 I). assert (L0 : ~ (inject_Z (Z.of_nat (length (new_to st (nth m us 0%Z)))) == 0)%Q).
        { destruct (new_to st (nth m us 0%Z)); [contradiction|]. discriminate. }
        apply (f_equal Z.of_nat) in X1. rewrite !Nat2Z.inj_mul in X1. apply (f_equal inject_Z) in X1. rewrite !inject_Z_mult in X1.
        field_simplify_eq; [|exact L0]. rewrite Qmult_comm. rewrite X1. ring.
      - rewrite (X2 I). unfold Qeq. cbn. ring. }
    assert (C1 : map (fun ut => chance st K (fst ut) (snd ut)) (combine users test) = map (fun m => chance st K (nth m users 0%Z) (nth m test 0%Z)) (seq 0 (length us))).
    { rewrite Lu. clear - Lt. revert test Lt. induction users as [|a l IH]; intros [|t test] Lt; try discriminate; [reflexivity|].
      cbn [combine map length seq]. rewrite <- seq_shift, map_map. cbn [nth fst snd]. f_equal. apply IH. now injection Lt. }
    rewrite C1. assert (G' : forall m, In m (seq 0 (length us)) -> (m < length us)%nat) by (intros m I; apply in_seq in I; lia).
    clear C1 S1 F1 F2 R. induction (seq 0 (length us)) as [|m l IH]; cbn [map Qsum nsum fold_right]; [ring|].
    match goal with |- (inject_Z (Z.of_nat (?x + ?y)) == _)%Q => change (inject_Z (Z.of_nat (x + nsum (map (fun m => nsum (map (fun d => b2n (has (nth m test 0%Z) (pick argpart st (nth m us 0%Z) K m (nth m d [])))) D)) l)) ) == inject_Z (Z.of_nat (length D)) * (chance st K (nth m users 0%Z) (nth m test 0%Z) + Qsum (map (fun m => chance st K (nth m users 0%Z) (nth m test 0%Z)) l)))%Q end.
    rewrite Nat2Z.inj_add, inject_Z_plus, (G m (G' m (or_introl eq_refl))), IH by (intros; apply G'; now right). ring. }
  rewrite M. field. split; auto.
Qed.
