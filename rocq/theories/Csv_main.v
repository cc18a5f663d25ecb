(** Proofs about the trip of names through CSV files. *)
From Coq Require Import ZArith QArith Lia List Bool Sorting.Sorted Sorting.Permutation String.
From Verif Require Import Prelude Prelude_proofs DataPrep_model DataPrep_spec DataPrep_main Pcore_model Pcore_spec Pcore_main Stream_model Stream_spec
  Stream_main Tables_model Tables_spec Tables_main Pipe_model Rawlog_spec Rawlog_main Stats_model Stats_spec Stats_main Csv_model Csv_spec.
Import ListNotations.
Open Scope Z_scope.
Local Notation length := List.length.
Local Notation concat := List.concat.

Lemma is_na_In s : is_na s = true <-> In s na_values.
Proof.
  unfold is_na. rewrite existsb_exists. split.
  - intros (x & I & E). apply String.eqb_eq in E. now subst.
  - intro I. exists s. split; [exact I|apply String.eqb_refl].
Qed.
Lemma cell_eqb_eq a b : cell_eqb a b = true <-> a = b.
Proof.
  destruct a, b; cbn; try (split; congruence).
  - rewrite Z.eqb_eq. split; congruence.
  - rewrite String.eqb_eq. split; congruence.
Qed.

(** * Codes *)
Lemma position_range c l : In c l -> 0 <= position c l < Z.of_nat (length l).
Proof.
  induction l as [|d l IH]; cbn [position length]; [easy|]. intro I. destruct (cell_eqb c d) eqn:E; [lia|].
  destruct I as [->|I]; [rewrite (proj2 (cell_eqb_eq _ _) eq_refl) in E; discriminate|]. specialize (IH I). lia.
Qed.
Lemma position_nonneg c l : 0 <= position c l.
Proof. induction l as [|d l IH]; cbn [position]; [lia|]. destruct (cell_eqb c d); lia. Qed.
Lemma position_inj c d l : In c l -> In d l -> position c l = position d l -> c = d.
Proof.
  induction l as [|e l IH]; [easy|]. intros Ic Id. cbn [position]. destruct (cell_eqb c e) eqn:E, (cell_eqb d e) eqn:F.
  - apply (proj1 (cell_eqb_eq _ _)) in E, F. congruence.
  - pose proof (position_nonneg d l). lia.
  - pose proof (position_nonneg c l). lia.
  - intro H. apply IH; [| |lia].
    + destruct Ic as [->|Ic]; [rewrite (proj2 (cell_eqb_eq _ _) eq_refl) in E; discriminate|exact Ic].
    + destruct Id as [->|Id]; [rewrite (proj2 (cell_eqb_eq _ _) eq_refl) in F; discriminate|exact Id].
Qed.
Lemma position_onto l k : NoDup l -> 0 <= k < Z.of_nat (length l) -> exists c, In c l /\ position c l = k.
Proof.
  intros N. revert k. induction N as [|d l NI N IH]; intros k K; cbn [length] in K; [lia|].
  destruct (Z.eq_dec k 0) as [->|H].
  - exists d. split; [now left|]. cbn [position]. now rewrite (proj2 (cell_eqb_eq _ _) eq_refl).
  - destruct (IH (k - 1)) as (c & I & E); [lia|]. exists c. split; [now right|]. cbn [position].
    destruct (cell_eqb c d) eqn:F; [|lia]. apply (proj1 (cell_eqb_eq _ _)) in F. congruence.
Qed.

Lemma code_inj cats l c d : categories cats -> In c l -> In d l -> code (cats l) c = code (cats l) d -> c = d.
Proof.
  intros C Ic Id. destruct (C l) as [_ H].
  destruct c as [|m|s] eqn:Ec, d as [|n|t] eqn:Ed; unfold code; cbn [is_missing]; auto; rewrite <- ?Ec, <- ?Ed in *; intro E;
    try (pose proof (position_nonneg c (cats l)); pose proof (position_nonneg d (cats l)); lia);
    apply (position_inj _ _ (cats l)); try exact E; apply H; split; auto; congruence.
Qed.
Lemma codes_main cats l : categories cats ->
  (forall i a, nth_error (codes cats l) i = Some a -> (a = -1 <-> nth_error l i = Some Missing)) /\
  ids_kept l (codes cats l) /\
  exists n : nat, forall k, 0 <= k < Z.of_nat n <-> In k (codes cats l) /\ k <> -1.
Proof.
  intros C. split; [|split].
  - intros i a E. unfold codes in E. rewrite nth_error_map in E. destruct (nth_error l i) as [c|]; [|discriminate]. cbn in E. injection E as <-.
    pose proof (position_nonneg c (cats l)) as PN. unfold code. destruct c; cbn [is_missing]; split; intro H; try congruence; lia.
  - split; [apply map_length|]. intros i j x y a b Ex Ey Ea Eb. unfold codes in Ea, Eb. rewrite nth_error_map, Ex in Ea. rewrite nth_error_map, Ey in Eb.
    cbn in Ea, Eb. injection Ea as <-. injection Eb as <-. split; [|congruence]. apply code_inj; auto; eapply nth_error_In; eauto.
  - exists (length (cats l)). intro k. destruct (C l) as [N H]. split.
    + intro K. destruct (position_onto _ _ N K) as (c & I & E). apply H in I as [I NM]. split; [|lia].
      apply in_map_iff. exists c. split; [|exact I]. unfold code. destruct c; [congruence|exact E|exact E].
    + intros [I NE]. apply in_map_iff in I as (c & E & I). unfold code in E. destruct c as [|m|s] eqn:Ec; cbn in E; [lia| |]; rewrite <- Ec in *;
        subst k; apply position_range, H; split; auto; congruence.
Qed.

(** * Columns *)
Definition occs {A} (chunks : list (list A)) : list (list A * A) := flat_map (fun c => map (fun x => (c, x)) c) chunks.
Lemma occs_In {A} (chunks : list (list A)) c x : In (c, x) (occs chunks) <-> In c chunks /\ In x c.
Proof.
  unfold occs. rewrite in_flat_map. split.
  - intros (d & I & J). apply in_map_iff in J as (y & E & J). injection E as -> ->. auto.
  - intros [I J]. exists c. split; auto. now apply (in_map (fun x => (c, x))).
Qed.
Lemma occs_snd {A} (chunks : list (list A)) : map snd (occs chunks) = concat chunks.
Proof.
  induction chunks as [|c l IH]; cbn; auto. unfold occs in *. rewrite map_app, IH, map_map. cbn. now rewrite map_id.
Qed.
Lemma read_occs number chunks : read_column number chunks = map (fun p => read_cell number (fst p) (snd p)) (occs chunks).
Proof.
  induction chunks as [|c l IH]; cbn; auto. unfold occs, read_column in *. now rewrite map_app, <- IH, map_map.
Qed.

Lemma kept_pairs {A P} (name : P -> A) (num : P -> Z) (l : list P) :
  ids_kept (map name l) (map num l) <-> forall p q, In p l -> In q l -> (num p = num q <-> name p = name q).
Proof.
  split.
  - intros [_ H] p q Ip Iq. apply In_nth_error in Ip as [i Ei], Iq as [j Ej].
    apply (H i j); rewrite nth_error_map, ?Ei, ?Ej; reflexivity.
  - intros H. split; [now rewrite !map_length|]. intros i j x y a b. rewrite !nth_error_map.
    destruct (nth_error l i) as [p|] eqn:Ei; [|discriminate]. destruct (nth_error l j) as [q|] eqn:Ej; [|discriminate]. cbn.
    intros E1 E2 E3 E4. injection E1 as <-. injection E2 as <-. injection E3 as <-. injection E4 as <-.
    apply H; eapply nth_error_In; eauto.
Qed.
Lemma kept_cells cats number chunks : categories cats ->
  (ids_kept (concat chunks) (codes cats (read_column number chunks)) <->
   forall c x d y, In c chunks -> In x c -> In d chunks -> In y d -> (read_cell number c x = read_cell number d y <-> x = y)).
Proof.
  intro C. unfold codes. rewrite <- occs_snd, read_occs, map_map, kept_pairs. split.
  - intros H c x d y Ic Ix Id Iy. rewrite <- (H (c, x) (d, y)); [|now apply occs_In|now apply occs_In]. cbn. split; [congruence|].
    apply code_inj; auto; apply in_map_iff; [exists (c, x)|exists (d, y)]; split; auto; now apply occs_In.
  - intros H [c x] [d y] Ip Iq. apply (proj1 (occs_In _ _ _)) in Ip as [Ic Ix], Iq as [Id Iy]. cbn. rewrite <- (H c x d y) by assumption. split; [|congruence].
    apply code_inj; auto; apply in_map_iff; [exists (c, x)|exists (d, y)]; split; auto; now apply occs_In.
Qed.

Lemma numeric_all number chunk : numeric number chunk = true <-> all_numbers number chunk.
Proof.
  unfold numeric, all_numbers. rewrite forallb_forall. split.
  - intros H s I N. specialize (H s I). apply orb_true_iff in H as [H|H]; [apply (proj1 (is_na_In _)) in H; contradiction|].
    destruct (number chunk s) as [n|]; [eauto|discriminate].
  - intros H s I. destruct (is_na s) eqn:E; auto. cbn. destruct (H s I) as [n ->]; auto. intro K. apply is_na_In in K. congruence.
Qed.
Lemma cell_na number c x : In x na_values -> read_cell number c x = Missing.
Proof. intro I. unfold read_cell. now rewrite (proj2 (is_na_In x) I). Qed.
Lemma cell_num number c x : In x c -> ~ In x na_values -> all_numbers number c -> exists n, number c x = Some n /\ read_cell number c x = Number n.
Proof.
  intros I N A. unfold read_cell. destruct (is_na x) eqn:E; [apply (proj1 (is_na_In _)) in E; contradiction|].
  rewrite (proj2 (numeric_all _ _) A). destruct (A x I N) as [n En]. exists n. now rewrite En.
Qed.
Lemma cell_text number c x : ~ In x na_values -> ~ all_numbers number c -> read_cell number c x = Text x.
Proof.
  intros N A. unfold read_cell. destruct (is_na x) eqn:E; [apply (proj1 (is_na_In _)) in E; contradiction|].
  destruct (numeric number c) eqn:F; [apply (proj1 (numeric_all _ _)) in F; contradiction|reflexivity].
Qed.
Lemma na_dec (x : string) : In x na_values \/ ~ In x na_values.
Proof. destruct (in_dec string_dec x na_values); auto. Qed.
Lemma all_dec number c : all_numbers number c \/ ~ all_numbers number c.
Proof. destruct (numeric number c) eqn:E; [left; now apply numeric_all|right; intro H; apply numeric_all in H; congruence]. Qed.

Lemma kept_main number cats chunks : categories cats ->
  (ids_kept (concat chunks) (codes cats (read_column number chunks)) <->
   (forall x y, In x (concat chunks) -> In y (concat chunks) -> In x na_values -> In y na_values -> x = y) /\
   (forall c d x y, In c chunks -> In d chunks -> In x c -> In y d -> ~ In x na_values -> ~ In y na_values ->
      all_numbers number c -> all_numbers number d -> (number c x = number d y <-> x = y)) /\
   (forall c d x, In c chunks -> In d chunks -> In x c -> In x d -> ~ In x na_values -> all_numbers number c -> all_numbers number d)).
Proof.
  intro C. rewrite (kept_cells cats number chunks C). split.
  - intro H. split; [|split].
    + intros x y Ix Iy Nx Ny. apply in_concat in Ix as (c & Ic & Ix), Iy as (d & Id & Iy). apply (H c x d y); auto. now rewrite !cell_na.
    + intros c d x y Ic Id Ix Iy Nx Ny Ac Ad. destruct (cell_num number c x Ix Nx Ac) as (m & Em & Rm), (cell_num number d y Iy Ny Ad) as (n & En & Rn).
      rewrite <- (H c x d y) by assumption. rewrite Em, En, Rm, Rn. split; congruence.
    + intros c d x Ic Id Ix Jx Nx Ac. destruct (all_dec number d) as [|Ad]; auto. exfalso.
      pose proof (proj2 (H c x d x Ic Ix Id Jx) eq_refl) as E. destruct (cell_num number c x Ix Nx Ac) as (m & _ & Rm).
      rewrite Rm, (cell_text number d x Nx Ad) in E. discriminate.
  - intros (H1 & H2 & H3) c x d y Ic Ix Id Iy. destruct (na_dec x) as [Nx|Nx], (na_dec y) as [Ny|Ny].
    + rewrite !cell_na by assumption. split; [|auto]. intros _. apply H1; auto; apply in_concat; eauto.
    + rewrite (cell_na number c x Nx). destruct (all_dec number d) as [A|A].
      * destruct (cell_num number d y Iy Ny A) as (n & _ & ->). split; [discriminate|congruence].
      * rewrite (cell_text number d y Ny A). split; [discriminate|congruence].
    + rewrite (cell_na number d y Ny). destruct (all_dec number c) as [A|A].
      * destruct (cell_num number c x Ix Nx A) as (n & _ & ->). split; [discriminate|congruence].
      * rewrite (cell_text number c x Nx A). split; [discriminate|congruence].
    + destruct (all_dec number c) as [Ac|Ac], (all_dec number d) as [Ad|Ad].
      * destruct (cell_num number c x Ix Nx Ac) as (m & Em & ->), (cell_num number d y Iy Ny Ad) as (n & En & ->).
        rewrite <- (H2 c d x y) by assumption. rewrite Em, En. split; congruence.
      * destruct (cell_num number c x Ix Nx Ac) as (m & _ & ->). rewrite (cell_text number d y Ny Ad). split; [discriminate|].
        intros <-. exfalso. apply Ad. exact (H3 c d x Ic Id Ix Iy Nx Ac).
      * destruct (cell_num number d y Iy Ny Ad) as (m & _ & ->). rewrite (cell_text number c x Nx Ac). split; [discriminate|].
        intros <-. exfalso. apply Ac. exact (H3 d c x Id Ic Iy Ix Nx Ad).
      * rewrite (cell_text number c x Nx Ac), (cell_text number d y Ny Ad). split; congruence.
Qed.
Lemma safe_main number cats chunks : categories cats ->
  (forall c, In c chunks -> exists s, In s c /\ ~ In s na_values /\ number c s = None) ->
  (forall x y, In x (concat chunks) -> In y (concat chunks) -> In x na_values -> In y na_values -> x = y) ->
  ids_kept (concat chunks) (codes cats (read_column number chunks)).
Proof.
  intros C W U. assert (NA : forall c, In c chunks -> ~ all_numbers number c).
  { intros c I A. destruct (W c I) as (s & Is & N & E). destruct (A s Is N) as [n En]. congruence. }
  apply (kept_main number cats chunks C). split; [exact U|]. split.
  - intros c d x y Ic _ _ _ _ _ A. destruct (NA c Ic A).
  - intros c d x Ic _ _ _ _ A. destruct (NA c Ic A).
Qed.

(** * The table *)
Definition rowsof (col : raw -> Z) (data : list raw) (u : Z) : nat := length (filter (fun r => col r =? u) data).
Definition inj_on (f : Z -> Z) (l : list Z) : Prop := forall x y, In x l -> In y l -> f x = f y -> x = y.

Lemma different_perm l l' : Permutation l l' -> different l = different l'.
Proof. intro Q. unfold different. f_equal. rewrite <- !(Permutation_length (np_unique_nodup _)). now rewrite (np_unique_perm l l' Q). Qed.
Lemma nodup_map f l : inj_on f l -> Permutation (nodup Z.eq_dec (map f l)) (map f (nodup Z.eq_dec l)).
Proof.
  intro J. apply NoDup_Permutation.
  - apply NoDup_nodup.
  - assert (JJ : forall x y, In x (nodup Z.eq_dec l) -> In y (nodup Z.eq_dec l) -> f x = f y -> x = y).
    { intros x y I K. apply nodup_In in I, K. now apply J. }
    pose proof (NoDup_nodup Z.eq_dec l) as N. revert JJ. induction N as [|x s NI N IH]; cbn; intro JJ; constructor.
    + intro I. apply in_map_iff in I as (y & E & I). apply NI. replace x with y; auto. 
    + apply IH. intros; apply JJ; auto.
  - intro x. rewrite nodup_In, !in_map_iff. split; intros (y & E & I); exists y; split; auto; now apply (nodup_In Z.eq_dec).
Qed.
Lemma different_map f l : inj_on f l -> different (map f l) = different l.
Proof. intro J. unfold different. now rewrite (Permutation_length (nodup_map f l J)), map_length. Qed.
Lemma sort_perm (l l' : list Z) : Permutation l l' -> sort_stable Z.leb l = sort_stable Z.leb l'.
Proof.
  intro P. assert (Q : Permutation (sort_stable Z.leb l) (sort_stable Z.leb l')) by (now rewrite <- !sort_stable_perm).
  assert (S := zsort_sorted l). assert (S' := zsort_sorted l'). revert Q S S'. generalize (sort_stable Z.leb l) (sort_stable Z.leb l').
  clear. intros l. induction l as [|x l IH]; intros [|y m] Q S S'; auto.
  - now apply Permutation_nil in Q.
  - symmetry in Q. now apply Permutation_nil in Q.
  - inversion S as [|? ? Sl Fx]; subst. inversion S' as [|? ? Sm Fy]; subst.
    assert (E : x = y).
    { apply Z.le_antisymm.
      - assert (I : In y (x :: l)) by (apply (Permutation_in _ (Permutation_sym Q)); now left). destruct I as [->|I]; [lia|]. rewrite Forall_forall in Fx. auto.
      - assert (I : In x (y :: m)) by (apply (Permutation_in _ Q); now left). destruct I as [->|I]; [lia|]. rewrite Forall_forall in Fy. auto. }
    subst y. f_equal. apply IH; auto. now apply Permutation_cons_inv in Q.
Qed.
Lemma median_perm l l' : Permutation l l' -> median l = median l'.
Proof. intro P. unfold median. now rewrite (sort_perm l l' P), (Permutation_length P). Qed.

Lemma counts_perm t f g data : Permutation (map content t) (map (by_codes f g) data) -> inj_on f (map raw_user data) ->
  Permutation (user_counts t) (map (fun u => Z.of_nat (rowsof raw_user data u)) (nodup Z.eq_dec (map raw_user data))).
Proof.
  intros P J.
  assert (PU : Permutation (map tb_user t) (map f (map raw_user data))).
  { apply (Permutation_map r_user) in P. rewrite !map_map in P. now rewrite map_map. }
  assert (R : forall u, In u (map raw_user data) -> rows_of t (f u) = rowsof raw_user data u).
  { intros u I. unfold rows_of, rowsof.
    assert (E1 : length (filter (fun r => tb_user r =? f u) t) = length (filter (fun y => r_user y =? f u) (map content t))).
    { clear. induction t as [|y t IH]; cbn; auto. destruct (tb_user y =? f u); cbn; congruence. }
    rewrite E1, (Permutation_length (filter_perm _ _ _ P)). clear - J I.
    assert (K : forall r, In r data -> (f (raw_user r) =? f u) = (raw_user r =? u)).
    { intros r Ir. destruct (Z.eqb_spec (raw_user r) u) as [->|N]; [apply Z.eqb_refl|]. apply Z.eqb_neq. intro E. apply N. apply J; auto. now apply in_map. }
    clear J I. induction data as [|r data IH]; cbn; auto. rewrite (K r (or_introl eq_refl)).
    specialize (IH (fun r I => K r (or_intror I))). destruct (raw_user r =? u); cbn; congruence. }
  rewrite counts_eq, (Permutation_map _ (np_unique_nodup (map tb_user t))).
  assert (PN : Permutation (nodup Z.eq_dec (map tb_user t)) (nodup Z.eq_dec (map f (map raw_user data)))).
  { rewrite <- !np_unique_nodup. now rewrite (np_unique_perm _ _ PU). }
  rewrite (Permutation_map _ PN), (Permutation_map _ (nodup_map f _ J)), map_map.
  erewrite map_ext_in; [reflexivity|]. intros u I. cbn. apply (proj1 (nodup_In Z.eq_dec _ _)) in I. now rewrite R.
Qed.
Lemma sum_perm l l' : Permutation l l' -> fold_right Z.add 0 l = fold_right Z.add 0 l'.
Proof. intro P. induction P; cbn; lia. Qed.

Lemma renamed_stats t t' f g f' g' data : dated t -> dated t' ->
  Permutation (map content t) (map (by_codes f g) data) -> Permutation (map content t') (map (by_codes f' g') data) ->
  inj_on f (map raw_user data) -> inj_on g (map raw_item data) -> inj_on f' (map raw_user data) -> inj_on g' (map raw_item data) ->
  print_recsys_df_stats t = print_recsys_df_stats t'.
Proof.
  intros D D' P P' Jf Jg Jf' Jg'.
  assert (GEN : forall t f g, dated t -> Permutation (map content t) (map (by_codes f g) data) -> inj_on f (map raw_user data) -> inj_on g (map raw_item data) ->
    different (map tb_user t) = different (map raw_user data) /\ different (map tb_item t) = different (map raw_item data) /\
    different (map tb_day t) = different (map (fun r => round_day (raw_time r)) data) /\ length t = length data).
  { clear. intros t f g D P Jf Jg.
    assert (PU : Permutation (map tb_user t) (map f (map raw_user data))).
    { apply (Permutation_map r_user) in P. rewrite !map_map in P. now rewrite map_map. }
    assert (PI : Permutation (map tb_item t) (map g (map raw_item data))).
    { apply (Permutation_map r_item) in P. rewrite !map_map in P. now rewrite map_map. }
    assert (PD : Permutation (map tb_day t) (map (fun r => round_day (raw_time r)) data)).
    { apply (Permutation_map (fun r => round_day (r_ts r))) in P. rewrite !map_map in P.
      rewrite (map_ext_in tb_day (fun x => round_day (r_ts (content x))) t D). exact P. }
    rewrite (different_perm _ _ PU), (different_perm _ _ PI), (different_perm _ _ PD), !different_map by assumption.
    apply Permutation_length in P. rewrite !map_length in P. auto. }
  destruct (GEN t f g D P Jf Jg) as (U & I & Y & L), (GEN t' f' g' D' P' Jf' Jg') as (U' & I' & Y' & L').
  assert (C : Permutation (user_counts t) (user_counts t')) by (rewrite (counts_perm t f g data P Jf), (counts_perm t' f' g' data P' Jf'); reflexivity).
  unfold print_recsys_df_stats. rewrite !different_unique, U, I, Y, L, U', I', Y', L', (median_perm _ _ C), (sum_perm _ _ C), (Permutation_length C). reflexivity.
Qed.

(** The rows that are read, one for every row of the file. *)
Section Trip.
  Variables (su si : Z -> string) (number : list string -> string -> option Z).
  Definition ucell (p : list raw * raw) : cell := read_cell number (map (fun r => su (raw_user r)) (fst p)) (su (raw_user (snd p))).
  Definition icell (p : list raw * raw) : cell := read_cell number (map (fun r => si (raw_item r)) (fst p)) (si (raw_item (snd p))).
  Lemma read_table_occs chunks : read_table number (map (map (spelled su si)) chunks) = map (fun p => (ucell p, icell p, raw_time (snd p))) (occs chunks).
  Proof.
    induction chunks as [|c l IH]; cbn; auto. unfold read_table in IH. rewrite IH. unfold occs. cbn [flat_map]. rewrite map_app. f_equal.
    rewrite !map_map. cbn. unfold ucell, icell. cbn [fst snd].
    set (fu := read_cell number _). set (fi := read_cell number _). clearbody fu fi.
    induction c as [|r c IHc]; cbn; auto. now rewrite IHc.
  Qed.
  Lemma read_users chunks : read_column number (map (map (fun r => su (raw_user r))) chunks) = map ucell (occs chunks).
  Proof.
    induction chunks as [|c l IH]; cbn; auto. unfold read_column in IH. rewrite IH. unfold occs. cbn [flat_map]. rewrite map_app. f_equal.
    rewrite !map_map. reflexivity.
  Qed.
  Lemma read_items chunks : read_column number (map (map (fun r => si (raw_item r))) chunks) = map icell (occs chunks).
  Proof.
    induction chunks as [|c l IH]; cbn; auto. unfold read_column in IH. rewrite IH. unfold occs. cbn [flat_map]. rewrite map_app. f_equal.
    rewrite !map_map. reflexivity.
  Qed.
End Trip.

(** A function that gives the code of some occurrence of an id. *)
Definition lookup (key : list raw * raw -> Z) (cell : list raw * raw -> cell) (dict : list Csv_model.cell) (l : list (list raw * raw)) (u : Z) : Z :=
  match find (fun p => key p =? u) l with Some p => code dict (cell p) | None => 0 end.
Lemma lookup_In key cell dict l p : (forall p q, In p l -> In q l -> key p = key q -> cell p = cell q) -> In p l ->
  lookup key cell dict l (key p) = code dict (cell p).
Proof.
  intros H I. unfold lookup. destruct (find _ l) as [q|] eqn:F.
  - apply find_some in F as [J E]. apply Z.eqb_eq in E. f_equal. now apply H.
  - exfalso. apply (find_none _ _ F) in I. now rewrite Z.eqb_refl in I.
Qed.

Lemma table_codes (cu ci : cell -> Z) (rows : list crow) :
  map content (table_of (map cu (map (fun r : crow => fst (fst r)) rows)) (map ci (map (fun r : crow => snd (fst r)) rows)) (map (fun r : crow => (0, 0, snd r)) rows))
  = map (fun r : crow => mkRow (cu (fst (fst r))) (ci (snd (fst r))) (snd r) 1) rows.
Proof.
  unfold table_of. rewrite !map_map.
  assert (G : forall n, map (fun x => content (let '(i, (u, j, r)) := x in mkT i u j (raw_time r) (round_day (raw_time r)) 1))
    (enumerate n (combine (combine (map (fun x : crow => cu (fst (fst x))) rows) (map (fun x : crow => ci (snd (fst x))) rows)) (map (fun r : crow => (0, 0, snd r)) rows)))
    = map (fun r : crow => mkRow (cu (fst (fst r))) (ci (snd (fst r))) (snd r) 1) rows); [|apply G].
  induction rows as [|r rows IH]; intro n; cbn; auto. f_equal. apply IH.
Qed.
Lemma trip_main su si number cats (sort : list crow -> list crow) (sort' : list raw -> list raw) (chunks : list (list raw)) :
  categories cats -> sorts_by (fun r : crow => snd r) sort -> sorts_by raw_time sort' ->
  ids_kept (map raw_user (concat chunks)) (codes cats (read_column number (map (map (fun r => su (raw_user r))) chunks))) ->
  ids_kept (map raw_item (concat chunks)) (codes cats (read_column number (map (map (fun r => si (raw_item r))) chunks))) ->
  print_recsys_df_stats (prepare_read number cats sort (map (map (spelled su si)) chunks)) = print_recsys_df_stats (prepare_encoded sort' (concat chunks)).
Proof.
  intros C S S' KU KI. set (data := concat chunks) in *. set (l := occs chunks).
  assert (ED : map snd l = data) by apply occs_snd.
  rewrite read_users in KU. rewrite read_items in KI. fold l in KU, KI. unfold codes in KU, KI.
  rewrite <- ED, !map_map in KU. rewrite <- ED, !map_map in KI. rewrite kept_pairs in KU, KI.
  set (uc := ucell su number) in *. set (ic := icell si number) in *.
  assert (U1 : forall p q, In p l -> In q l -> (uc p = uc q <-> raw_user (snd p) = raw_user (snd q))).
  { intros p q Ip Iq. rewrite <- (KU p q Ip Iq). split; [congruence|]. apply code_inj; auto; now apply in_map. }
  assert (I1 : forall p q, In p l -> In q l -> (ic p = ic q <-> raw_item (snd p) = raw_item (snd q))).
  { intros p q Ip Iq. rewrite <- (KI p q Ip Iq). split; [congruence|]. apply code_inj; auto; now apply in_map. }
  unfold prepare_read. rewrite (read_table_occs su si number chunks). fold l uc ic.
  set (R := map (fun p => (uc p, ic p, raw_time (snd p))) l). destruct (S R) as [PS SS]. set (rows := sort R) in *.
  set (du := cats (map (fun r : crow => fst (fst r)) rows)). set (di := cats (map (fun r : crow => snd (fst r)) rows)).
  set (f := lookup (fun p => raw_user (snd p)) uc du l). set (g := lookup (fun p => raw_item (snd p)) ic di l).
  unfold codes. fold du di.
  set (t := table_of _ _ _).
  assert (CT : map content t = map (fun r : crow => mkRow (code du (fst (fst r))) (code di (snd (fst r))) (snd r) 1) rows).
  { unfold t. change (code (cats (map (fun r : cell * cell * Z => fst (fst r)) rows))) with (code du). change (code (cats (map (fun r : cell * cell * Z => snd (fst r)) rows))) with (code di).
    apply table_codes. }
  assert (Fu : forall p, In p l -> f (raw_user (snd p)) = code du (uc p)).
  { intros p I. unfold f. apply (lookup_In (fun p => raw_user (snd p)) uc du l p); auto. intros p' q' Ip Iq E. now apply U1. }
  assert (Gi : forall p, In p l -> g (raw_item (snd p)) = code di (ic p)).
  { intros p I. unfold g. apply (lookup_In (fun p => raw_item (snd p)) ic di l p); auto. intros p' q' Ip Iq E. now apply I1. }
  assert (PT : Permutation (map content t) (map (by_codes f g) data)).
  { rewrite CT, <- (Permutation_map _ PS). unfold R. rewrite map_map. rewrite <- ED, map_map.
    erewrite map_ext_in; [reflexivity|]. intros p I. cbn. unfold by_codes. now rewrite Fu, Gi. }
  assert (INu : forall p, In p l -> In (uc p) (map (fun r : crow => fst (fst r)) rows)).
  { intros p I. apply in_map_iff. exists (uc p, ic p, raw_time (snd p)). split; auto. apply (Permutation_in _ PS). unfold R.
    now apply (in_map (fun p => (uc p, ic p, raw_time (snd p)))). }
  assert (INi : forall p, In p l -> In (ic p) (map (fun r : crow => snd (fst r)) rows)).
  { intros p I. apply in_map_iff. exists (uc p, ic p, raw_time (snd p)). split; auto. apply (Permutation_in _ PS). unfold R.
    now apply (in_map (fun p => (uc p, ic p, raw_time (snd p)))). }
  apply (renamed_stats _ _ f g (code_of (map raw_user data)) (code_of (map raw_item data)) data).
  - intros r I. unfold t, table_of in I. apply in_map_iff in I as ([i [[u j] x]] & <- & I). reflexivity.
  - now apply encoded_dated.
  - exact PT.
  - rewrite encoded_contents by assumption. cbn [skipn]. rewrite <- (Permutation_map _ (proj1 (S' data))). reflexivity.
  - intros x y Ix Iy E. rewrite <- ED, map_map in Ix, Iy. apply in_map_iff in Ix as (p & <- & Ip), Iy as (q & <- & Iq). apply U1; auto.
    rewrite !Fu in E by assumption. revert E. apply code_inj; auto.
  - intros x y Ix Iy E. rewrite <- ED, map_map in Ix, Iy. apply in_map_iff in Ix as (p & <- & Ip), Iy as (q & <- & Iq). apply I1; auto.
    rewrite !Gi in E by assumption. revert E. apply code_inj; auto.
  - intros x y. apply code_of_inj.
  - intros x y. apply code_of_inj.
Qed.
Lemma steam_trip_main su si number cats (sort : list crow -> list crow) data fuel chunks s :
  categories cats -> sorts_by (fun r : crow => snd r) sort -> (length data < fuel)%nat -> steam_table raw_user raw_item fuel data = Ok (concat chunks) ->
  ids_kept (map raw_user (concat chunks)) (codes cats (read_column number (map (map (fun r => su (raw_user r))) chunks))) ->
  ids_kept (map raw_item (concat chunks)) (codes cats (read_column number (map (map (fun r => si (raw_item r))) chunks))) ->
  print_recsys_df_stats (prepare_read number cats sort (map (map (spelled su si)) chunks)) = Ok s ->
  (5 <= s_median s)%Q /\ (5 <= s_mean s)%Q /\ (0 <= s_density s <= 100)%Q.
Proof.
  intros C S F E KU KI P. rewrite (trip_main su si number cats sort time_sort chunks C S time_sorts KU KI) in P.
  exact (steam_stats_main time_sort data fuel (concat chunks) s time_sorts F E P).
Qed.
