(** Proofs about sampling configurations. *)
From Coq Require Import ZArith QArith List Bool Lia ArithRing.
From Verif Require Import Prelude Prelude_proofs Search_model Search_spec.
Import ListNotations.
Open Scope Z_scope.

Lemma config_eqb_eq c : forall d, config_eqb c d = true <-> c = d.
Proof.
  induction c as [|x c IH]; intros [|y d]; cbn; split; intro H; try discriminate; auto.
  - apply andb_true_iff in H as [E1 E2]. apply Z.eqb_eq in E1. apply IH in E2. now subst.
  - injection H as -> ->. apply andb_true_iff. split; [apply Z.eqb_refl|now apply IH].
Qed.

Lemma set_mem c s : existsb (config_eqb c) s = true <-> In c s.
Proof.
  rewrite existsb_exists. split.
  - intros (d & I & E). apply config_eqb_eq in E. now subst.
  - intro I. exists c. split; auto. now apply config_eqb_eq.
Qed.

Lemma set_add_In c s d : In d (set_add c s) <-> d = c \/ In d s.
Proof.
  unfold set_add. destruct (existsb _ s) eqn:E.
  - apply set_mem in E. intuition congruence.
  - rewrite in_app_iff. cbn. intuition.
Qed.
Lemma set_add_NoDup c s : NoDup s -> NoDup (set_add c s).
Proof.
  intro N. unfold set_add. destruct (existsb _ s) eqn:E; auto.
  assert (Nc : ~ In c s) by (rewrite <- set_mem; congruence).
  apply NoDup_rev in N. rewrite <- (rev_involutive (s ++ [c])), rev_app_distr. apply NoDup_rev. cbn.
  constructor; auto. now rewrite <- in_rev.
Qed.
Lemma set_add_len c s : (length s <= length (set_add c s) <= S (length s))%nat.
Proof. unfold set_add. destruct (existsb _ s); [lia|]. rewrite app_length. cbn. lia. Qed.

Lemma to_set_gen l : forall s, NoDup s ->
  NoDup (fold_left (fun s c => set_add c s) l s) /\
  forall d, In d (fold_left (fun s c => set_add c s) l s) <-> In d l \/ In d s.
Proof.
  induction l as [|c l IH]; intros s N; cbn [fold_left].
  - split; auto. cbn. tauto.
  - destruct (IH (set_add c s) (set_add_NoDup _ _ N)) as [A B]. split; auto.
    intro d. rewrite B, set_add_In. cbn. intuition.
Qed.
Lemma to_set_NoDup l : NoDup (to_set l).
Proof. apply to_set_gen. constructor. Qed.
Lemma to_set_In l d : In d (to_set l) <-> In d l.
Proof. unfold to_set. rewrite (proj2 (to_set_gen l [] (NoDup_nil _))). cbn. tauto. Qed.

Lemma product_In values c : In c (product values) <-> in_product values c.
Proof.
  revert c. induction values as [|v values IH]; intro c; cbn.
  - split; [intros [<-|[]]; constructor | intro H; inversion H; auto].
  - rewrite in_flat_map. split.
    + intros (x & I & J). apply in_map_iff in J as (d & <- & J). constructor; auto. now apply IH.
    + intro H. inversion H; subst. exists x. split; auto. apply in_map. now apply IH.
Qed.
Lemma product_length values : length (product values) = grid_size values.
Proof.
  induction values as [|v values IH]; cbn [product grid_size fold_right]; auto.
  change (fold_right _ _ values) with (grid_size values). rewrite <- IH.
  clear IH. induction v as [|x v IHv]; [reflexivity|]. cbn [flat_map]. rewrite app_length, map_length. unfold config in *. rewrite IHv. reflexivity.
Qed.
Lemma product_NoDup values : Forall (@NoDup Z) values -> NoDup (product values).
Proof.
  induction 1 as [|v values Nv F IH]; cbn; [repeat constructor; intros []|].
  induction Nv as [|x v Nx Nv IHv]; cbn; [constructor|].
  apply NoDup_app_intro.
  - apply FinFun.Injective_map_NoDup; auto. congruence.
  - auto.
  - intros c I J. apply in_map_iff in I as (d & <- & _). apply in_flat_map in J as (y & Iy & J).
    apply in_map_iff in J as (e & E & _). injection E as -> _. auto.
Qed.

Lemma max_n_size values : fold_left (fun p v => p * Z.of_nat (length v)) values 1 = Z.of_nat (grid_size values).
Proof.
  assert (G : forall l a, fold_left (fun p (v : list Z) => p * Z.of_nat (length v)) l a = a * Z.of_nat (grid_size l)).
  { induction l as [|v l IH]; intro a; cbn [fold_left]; [cbn; lia|].
    rewrite IH. change (grid_size (v :: l)) with (length v * grid_size l)%nat. rewrite Nat2Z.inj_mul. ring. }
  rewrite G. lia.
Qed.

(** What the loop returns. *)
Lemma grid_loop_sound n skip draws : forall grid skipped g,
  NoDup grid -> NoDup skipped -> grid_loop n skip draws grid skipped = Ok g ->
  NoDup g /\ (forall c, In c grid -> In c g) /\
  (forall c, In c g -> In c grid \/ (In c draws /\ skip c = false)) /\
  (n <= Z.of_nat (length grid) + Z.of_nat (length skipped) -> g = grid) /\
  exists sk, NoDup sk /\ (forall c, In c sk -> In c skipped \/ (In c draws /\ skip c = true)) /\
    n <= Z.of_nat (length g) + Z.of_nat (length sk) /\
    (Z.of_nat (length grid) + Z.of_nat (length skipped) <= n -> Z.of_nat (length g) + Z.of_nat (length sk) = n).
Proof.
  assert (Fin : forall grid skipped g, NoDup grid -> NoDup skipped ->
     Z.of_nat (length grid) >= n - Z.of_nat (length skipped) -> Ok grid = Ok g ->
     NoDup g /\ (forall c, In c grid -> In c g) /\
     (forall c, In c g -> In c grid \/ (In c draws /\ skip c = false)) /\
     (n <= Z.of_nat (length grid) + Z.of_nat (length skipped) -> g = grid) /\
     exists sk, NoDup sk /\ (forall c, In c sk -> In c skipped \/ (In c draws /\ skip c = true)) /\
       n <= Z.of_nat (length g) + Z.of_nat (length sk) /\
       (Z.of_nat (length grid) + Z.of_nat (length skipped) <= n -> Z.of_nat (length g) + Z.of_nat (length sk) = n)).
  { intros grid skipped g Ng Ns L E. injection E as <-. repeat split; auto.
    exists skipped. repeat split; auto; lia. }
  revert Fin. induction draws as [|d draws IH]; intros Fin grid skipped g Ng Ns E; cbn [grid_loop] in E;
    destruct (Z.ltb_spec (Z.of_nat (length grid)) (n - Z.of_nat (length skipped))) as [L|L]; try discriminate;
    try (apply Fin; auto; lia).
  assert (Fin' : forall grid skipped g, NoDup grid -> NoDup skipped ->
     Z.of_nat (length grid) >= n - Z.of_nat (length skipped) -> Ok grid = Ok g ->
     NoDup g /\ (forall c, In c grid -> In c g) /\
     (forall c, In c g -> In c grid \/ (In c draws /\ skip c = false)) /\
     (n <= Z.of_nat (length grid) + Z.of_nat (length skipped) -> g = grid) /\
     exists sk, NoDup sk /\ (forall c, In c sk -> In c skipped \/ (In c draws /\ skip c = true)) /\
       n <= Z.of_nat (length g) + Z.of_nat (length sk) /\
       (Z.of_nat (length grid) + Z.of_nat (length skipped) <= n -> Z.of_nat (length g) + Z.of_nat (length sk) = n)).
  { clear. intros grid skipped g Ng Ns L E. injection E as <-. repeat split; auto.
    exists skipped. repeat split; auto; lia. }
  destruct (skip d) eqn:Sd.
  - pose proof (set_add_len d skipped). apply IH in E as (A & B & C & D & sk & S1 & S2 & S3 & S4); auto using set_add_NoDup.
    split; auto. split; auto. split; [intros c I; destruct (C c I) as [|[]]; auto; right; split; auto; now right|].
    split; [lia|]. exists sk. split; auto. split; [|split; auto; intros; apply S4; lia].
    intros c I. destruct (S2 c I) as [J|[J1 J2]]; [|right; split; auto; now right].
    apply set_add_In in J as [->|J]; auto. right; split; auto; now left.
  - pose proof (set_add_len d grid). apply IH in E as (A & B & C & D & sk & S1 & S2 & S3 & S4); auto using set_add_NoDup.
    split; auto. split; [intros c I; apply B, set_add_In; auto|].
    split.
    { intros c I. destruct (C c I) as [J|[]]; [|right; split; auto; now right].
      apply set_add_In in J as [->|J]; auto. right; split; auto; now left. }
    split; [lia|]. exists sk. split; auto. split; [|split; auto; intros; apply S4; lia].
    intros c I. destruct (S2 c I) as [J|[J1 J2]]; auto. right; split; auto; now right.
Qed.

(** When the draws run out, all of them are in one of the two sets. *)
Lemma grid_loop_fuel n skip draws : forall grid skipped,
  (exists g, grid_loop n skip draws grid skipped = Ok g) \/
  (grid_loop n skip draws grid skipped = Err OutOfFuel /\
   exists g sk, Z.of_nat (length g) + Z.of_nat (length sk) < n /\
     (forall c, In c draws \/ In c grid \/ In c skipped -> In c g \/ In c sk)).
Proof.
  induction draws as [|d draws IH]; intros grid skipped; cbn [grid_loop];
    destruct (Z.ltb_spec (Z.of_nat (length grid)) (n - Z.of_nat (length skipped))) as [L|L]; eauto.
  - right. split; auto. exists grid, skipped. split; [lia|]. intros c [[]|H]; auto.
  - destruct (skip d).
    + destruct (IH grid (set_add d skipped)) as [?|(E & g & sk & Lg & H)]; auto. right. split; auto.
      exists g, sk. split; auto. intros c I. apply H. rewrite set_add_In. destruct I as [[->|I]|[I|I]]; auto.
    + destruct (IH (set_add d grid) skipped) as [?|(E & g & sk & Lg & H)]; auto. right. split; auto.
      exists g, sk. split; auto. intros c I. apply H. rewrite set_add_In. destruct I as [[->|I]|[I|I]]; auto.
Qed.

Lemma random_grid_unfold params n cache skip draws : 0 <= n -> params <> [] ->
  random_grid params n cache skip draws =
  do grid <- grid_loop (requested params n) skip draws (to_set cache) []; Ok (grid, map fst params).
Proof.
  intros Hn Np. unfold random_grid. destruct (Z.ltb_spec n 0) as [|_]; [lia|].
  destruct params as [|q params]; [congruence|]. rewrite max_n_size. cbv zeta. f_equal. f_equal.
  unfold requested. destruct (Z.eqb_spec n 0) as [->|]; [cbn [Z.ltb Z.compare]; lia|].
  destruct (Z.ltb_spec 0 n); lia.
Qed.

Lemma random_grid_errors params n cache skip draws :
  n < 0 \/ params = [] -> random_grid params n cache skip draws = Err ValueError.
Proof.
  unfold random_grid. intros [H| ->]; [|destruct (n <? 0); auto]. destruct (Z.ltb_spec n 0); auto; lia.
Qed.

Lemma random_grid_sound_main params n cache skip draws grid names :
  (forall c, In c draws -> in_product (map snd params) c) ->
  random_grid params n cache skip draws = Ok (grid, names) ->
  names = map fst params /\ NoDup grid /\
  (forall c, In c cache -> In c grid) /\
  (forall c, In c grid -> In c cache \/ (in_product (map snd params) c /\ skip c = false)) /\
  exists rejected, NoDup rejected /\ (forall c, In c rejected -> in_product (map snd params) c /\ skip c = true) /\
    let total := Z.of_nat (length grid) + Z.of_nat (length rejected) in
    requested params n <= total /\
    (forall cached, NoDup cached -> (forall c, In c cached <-> In c cache) ->
       (Z.of_nat (length cached) <= requested params n -> total = requested params n) /\
       (requested params n <= Z.of_nat (length cached) -> forall c, In c grid <-> In c cache)).
Proof.
  intros Hd E.
  destruct (Z_lt_le_dec n 0) as [L|L]; [rewrite random_grid_errors in E by auto; discriminate|].
  destruct params as [|q params]; [rewrite random_grid_errors in E by auto; discriminate|].
  rewrite random_grid_unfold in E by (auto; discriminate).
  destruct (grid_loop _ _ _ _ _) as [g|e] eqn:G; [|discriminate]. cbn [bind] in E. injection E as -> <-.
  split; auto.
  apply grid_loop_sound in G as (A & B & C & D & sk & S1 & S2 & S3 & S4); [|apply to_set_NoDup|constructor].
  split; auto. split; [intros c I; apply B; now apply to_set_In|].
  split; [intros c I; destruct (C c I) as [J|[J1 J2]]; [left; now apply to_set_In | right; auto]|].
  exists sk. split; auto. split; [intros c I; destruct (S2 c I) as [[]|[]]; auto|].
  cbv zeta. split; auto. intros cached Nc Hc.
  assert (Lc : length cached = length (to_set cache)).
  { apply Nat.le_antisymm; apply NoDup_incl_length; auto using to_set_NoDup; intros c; rewrite to_set_In; apply Hc. }
  cbn [length] in S4, D. split; [intro; apply S4; lia|]. intros Lr c. rewrite D by lia. apply to_set_In.
Qed.

Lemma random_grid_terminates_main params n cache skip draws :
  0 <= n -> params <> [] -> Forall (@NoDup Z) (map snd params) ->
  (forall c, in_product (map snd params) c -> In c draws) ->
  exists grid, random_grid params n cache skip draws = Ok (grid, map fst params).
Proof.
  intros Hn Np Nv Hd. rewrite random_grid_unfold by auto.
  destruct (grid_loop_fuel (requested params n) skip draws (to_set cache) []) as [[g E]|(E & g & sk & L & H)].
  - exists g. now rewrite E.
  - exfalso. assert (Lp : (grid_size (map snd params) <= length (g ++ sk))%nat).
    { rewrite <- product_length. apply NoDup_incl_length; [now apply product_NoDup|].
      intros c I. apply in_or_app. apply H. left. apply Hd. now apply product_In. }
    rewrite app_length in Lp. unfold requested in L. destruct (n =? 0); lia.
Qed.

Lemma random_grid_all_main params skip draws grid names :
  (forall c, In c draws -> in_product (map snd params) c) -> Forall (@NoDup Z) (map snd params) ->
  (forall c, in_product (map snd params) c -> skip c = false) ->
  random_grid params 0 [] skip draws = Ok (grid, names) ->
  forall c, In c grid <-> in_product (map snd params) c.
Proof.
  intros Hd Nv Hs E. apply random_grid_sound_main in E as (_ & Ng & _ & Hg & rej & _ & Hr & Ht & _); auto.
  assert (Er : rej = []).
  { destruct rej as [|c rej]; auto. exfalso. destruct (Hr c (or_introl eq_refl)) as [I S]. rewrite Hs in S; congruence. }
  subst rej. cbn [length] in Ht. unfold requested in Ht. cbn in Ht.
  assert (Inc : incl grid (product (map snd params))).
  { intros c I. apply product_In. destruct (Hg c I) as [[]|[]]; auto. }
  intro c. split; intro I; [apply product_In; auto|].
  assert (Inc' : incl (product (map snd params)) grid).
  { apply NoDup_length_incl; auto. rewrite product_length. lia. }
  apply Inc'. now apply product_In.
Qed.

(** Repeated values make the request larger than the number of configurations. *)
Lemma nodup_lt {A} (dec : forall x y : A, {x = y} + {x <> y}) l : ~ NoDup l -> (length (nodup dec l) < length l)%nat.
Proof.
  intro N. induction l as [|x l IH]; [elim N; constructor|]. cbn. destruct (in_dec dec x l) as [I|I].
  - pose proof (NoDup_incl_length (NoDup_nodup dec l) (fun y => proj1 (nodup_In dec l y))). lia.
  - cbn. apply -> Nat.succ_lt_mono. apply IH. intro M. apply N. now constructor.
Qed.

Lemma size_nodup_le values : (grid_size (map (nodup Z.eq_dec) values) <= grid_size values)%nat.
Proof.
  induction values as [|v values IH]; auto. cbn [map].
  change (length (nodup Z.eq_dec v) * grid_size (map (nodup Z.eq_dec) values) <= length v * grid_size values)%nat.
  apply Nat.mul_le_mono; auto. apply NoDup_incl_length; [apply NoDup_nodup|]. intro; apply nodup_In.
Qed.
Lemma size_pos values : (forall v, In v values -> v <> []) -> (0 < grid_size values)%nat.
Proof.
  induction values as [|v values IH]; intro H; [cbn; lia|].
  change (0 < length v * grid_size values)%nat. apply Nat.mul_pos_pos; [|apply IH; intros; apply H; now right].
  specialize (H v (or_introl eq_refl)). destruct v; [congruence|cbn; lia].
Qed.
Lemma size_nodup_lt values : (forall v, In v values -> v <> []) -> (exists v, In v values /\ ~ NoDup v) ->
  (grid_size (map (nodup Z.eq_dec) values) < grid_size values)%nat.
Proof.
  induction values as [|v values IH]; intros H (w & I & N); [destruct I|]. cbn [map].
  change (length (nodup Z.eq_dec v) * grid_size (map (nodup Z.eq_dec) values) < length v * grid_size values)%nat.
  assert (Lv : (length (nodup Z.eq_dec v) <= length v)%nat).
  { apply NoDup_incl_length; [apply NoDup_nodup|]. intro; apply nodup_In. }
  assert (Pv : (0 < length v)%nat) by (specialize (H v (or_introl eq_refl)); destruct v; [congruence|cbn; lia]).
  assert (Ps : (0 < grid_size values)%nat) by (apply size_pos; intros; apply H; now right).
  pose proof (size_nodup_le values) as Ls. destruct I as [->|I].
  - apply (nodup_lt Z.eq_dec) in N. nia.
  - assert (IH' : (grid_size (map (nodup Z.eq_dec) values) < grid_size values)%nat).
    { apply IH; [intros; apply H; now right | eauto]. }
    nia.
Qed.
Lemma in_product_nodup values c : in_product values c -> in_product (map (nodup Z.eq_dec) values) c.
Proof. induction 1; cbn; constructor; auto. now apply nodup_In. Qed.

Lemma random_grid_hangs_main params n skip draws :
  params <> [] -> (forall v, In v (map snd params) -> v <> []) -> (exists v, In v (map snd params) /\ ~ NoDup v) ->
  (forall c, In c draws -> in_product (map snd params) c) ->
  n = 0 \/ Z.of_nat (grid_size (map snd params)) <= n ->
  (forall c, in_product (map snd params) c -> skip c = false) ->
  random_grid params n [] skip draws = Err OutOfFuel.
Proof.
  intros Np Ne Dup Hd Hn Hs.
  assert (R : requested params n = Z.of_nat (grid_size (map snd params))).
  { unfold requested. destruct (Z.eqb_spec n 0); lia. }
  destruct (random_grid params n [] skip draws) as [[g names]|e] eqn:E.
  - exfalso. apply random_grid_sound_main in E as (_ & Ng & _ & Hg & rej & _ & Hr & Ht & _); auto.
    assert (Er : rej = []).
    { destruct rej as [|c rej]; auto. exfalso. destruct (Hr c (or_introl eq_refl)) as [I S]. rewrite Hs in S; congruence. }
    subst rej. cbn [length] in Ht. rewrite R in Ht.
    assert (L : (length g <= length (product (map (nodup Z.eq_dec) (map snd params))))%nat).
    { apply NoDup_incl_length; auto. intros c I. apply product_In, in_product_nodup.
      destruct (Hg c I) as [[]|[]]; auto. }
    rewrite product_length in L. pose proof (size_nodup_lt _ Ne Dup). lia.
  - f_equal. revert E. rewrite random_grid_unfold by (auto; lia).
    destruct (grid_loop_fuel (requested params n) skip draws (to_set []) []) as [[g G]|(G & _)]; rewrite G; cbn; congruence.
Qed.

Lemma full_grid_main params :
  (params <> [] -> exists grid, full_grid params = Ok (grid, map fst params) /\ NoDup grid /\
     forall c, In c grid <-> in_product (map snd params) c) /\
  (params = [] -> full_grid params = Err ValueError).
Proof.
  split; [|intros ->; reflexivity]. intro N. destruct params as [|q params]; [congruence|].
  exists (to_set (product (map snd (q :: params)))). split; auto. split; [apply to_set_NoDup|].
  intro c. rewrite to_set_In. apply product_In.
Qed.

Lemma random_grid_fewer_main : exists params n skip draws grid names,
  (forall c, In c draws -> in_product (map snd params) c) /\
  random_grid params n [] skip draws = Ok (grid, names) /\
  Z.of_nat (length grid) < n /\
  exists admissible, NoDup admissible /\ (forall c, In c admissible -> in_product (map snd params) c /\ skip c = false) /\
    n <= Z.of_nat (length admissible).
Proof.
  exists [(0, [1; 2; 3])], 2, (fun c => config_eqb c [1]), [[1]; [2]], [[2]], [0].
  split; [intros c [<-|[<-|[]]]; (constructor; [cbn; auto|constructor])|]. split; [vm_compute; reflexivity|].
  split; [vm_compute; reflexivity|]. exists [[2]; [3]]. split.
  - constructor; [intros [H|[]]; discriminate|]. constructor; [intros []|constructor].
  - split; [intros c [<-|[<-|[]]]; (split; [constructor; [cbn; auto|constructor]|reflexivity])|]. cbn. lia.
Qed.
