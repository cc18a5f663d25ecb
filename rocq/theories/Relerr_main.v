(** What the relative errors see. *)
From Verif Require Import Prelude Tensor_model Tensor_spec Tensor_proofs Tensor_sums Tensor_main Tensor_project Matrix_model Matrix_spec Matrix_main
  Hooi_model Relerr_model.
Set Warnings "-notation-overridden".
From mathcomp Require Import all_ssreflect all_algebra.
From Verif Require Import LinAlg_spec LinAlg_bridge Tucker_spec Tucker_bridge Hooi_spec Hooi_run Hooi_final Hooi_wit Relerr_spec.
Set Implicit Arguments.
Unset Strict Implicit.
Unset Printing Implicit Defensive.
Import GRing.Theory Order.Theory Num.Theory.
Local Open Scope ring_scope.

Section Main.
Variable R : realFieldType.
Implicit Types (inds : list cell) (vals : list R) (u v w : mat R) (core : ten R).

Lemma sum_big T (l : list T) (f : T -> R) : Tensor_spec.sum 0 +%R (List.map f l) = \sum_(x <- l) f x.
Proof. by elim: l => [|x l IH] /=; rewrite ?big_nil ?big_cons // -IH. Qed.

Lemma squares_fold (l : list R) : List.fold_left (fun r y => r + y * y) l 0 = squares l.
Proof.
  rewrite /squares. suff H x : List.fold_left (fun r y => r + y * y) l x = x + \sum_(y <- l) y ^+ 2 by rewrite H add0r.
  elim: l x => [|z l IH] x /=; first by rewrite big_nil addr0. by rewrite IH big_cons addrA expr2.
Qed.
Lemma squares_ge0 (l : list R) : 0 <= squares l.
Proof. by apply: sumr_ge0 => x _; exact: sqr_ge0. Qed.
Lemma sumsq_ge0 n0 n1 n2 (t : cell -> R) : 0 <= sumsq n0 n1 n2 t.
Proof. by do 3 (apply: sumr_ge0 => ? _); exact: sqr_ge0. Qed.

(** Sums of squares over any list of things. *)
Lemma sq_sum_eq0 T (l : list T) (f : T -> R) : \sum_(x <- l) f x ^+ 2 = 0 <-> forall x, List.In x l -> f x = 0.
Proof.
  elim: l => [|x l IH]; first by rewrite big_nil. rewrite big_cons.
  have N : 0 <= \sum_(y <- l) f y ^+ 2 by apply: sumr_ge0 => y _; exact: sqr_ge0.
  split.
    move/eqP. rewrite paddr_eq0 ?sqr_ge0 // => /andP [E1 /eqP/IH E2] y /= [<-|]; last exact: E2.
    by move: E1; rewrite sqrf_eq0 => /eqP.
  move=> H. rewrite (H x) ?expr0n ?add0r /=; last by left. by apply/IH => y I; apply: H; right.
Qed.

Section Root.
Variables (sqrt : R -> R) (eps : R).
Hypothesis ROOT : root_ok sqrt.
Hypothesis EPS : 0 < eps.

Lemma root_gt0 x : 0 < x -> 0 < sqrt x.
Proof. by case: ROOT => Z M H; rewrite -Z; apply: M. Qed.
Lemma root_ge0 x : 0 <= x -> 0 <= sqrt x.
Proof. by rewrite le_eqVlt => /orP [/eqP <-|/root_gt0 /ltW //]; case: ROOT => ->. Qed.
Lemma root_le x y : 0 <= x -> x <= y -> sqrt x <= sqrt y.
Proof. by move=> H; rewrite le_eqVlt => /orP [/eqP -> //|L]; apply: ltW; case: ROOT => _; apply. Qed.
Lemma root_inj x y : 0 <= x -> 0 <= y -> sqrt x = sqrt y -> x = y.
Proof.
  move=> Hx Hy E. case: (ltgtP x y) => // L; case: ROOT => _ /(_ _ _ _ L); [move/(_ Hx)|move/(_ Hy)]; by rewrite E ltxx.
Qed.
Lemma root_eq0 x : 0 <= x -> sqrt x = 0 <-> x = 0.
Proof. move=> H; split; last by move=> ->; case: ROOT. by case: ROOT => Z _; rewrite -{1}Z; apply: root_inj. Qed.

Lemma den_gt0 s : 0 <= s -> 0 < sqrt (s + eps).
Proof. by move=> H; apply: root_gt0; apply: ltr_paddl. Qed.

Lemma relative_main T (l : list T) (f : T -> R) vals e :
  e = relative 0 +%R *%R (fun x y => x / y) sqrt eps (\sum_(x <- l) f x ^+ 2) vals ->
  [/\ e = sqrt (\sum_(x <- l) f x ^+ 2) / sqrt (squares vals + eps), 0 <= e & e = 0 <-> forall x, List.In x l -> f x = 0].
Proof.
  rewrite /relative squares_fold => ->. have D := den_gt0 (squares_ge0 vals).
  have N : 0 <= \sum_(x <- l) f x ^+ 2 by apply: sumr_ge0 => y _; exact: sqr_ge0.
  split=> //; first by apply: divr_ge0; [exact: root_ge0|exact: ltW]. rewrite -sq_sum_eq0 -(root_eq0 N). split.
    by move/eqP; rewrite mulf_eq0 invr_eq0 (gt_eqF D) orbF => /eqP.
  by move=> ->; rewrite mul0r.
Qed.

Lemma error_main inds vals u v w core :
  ((exists e, tensor_error sqrt eps inds vals u v w core = Ok e)
   <-> ((length inds <= length vals)%coq_nat /\ List.Forall (in_range (mr u, mr v, mr w)) inds /\ (core_fits core u v w \/ inds = nil)))
  /\ forall e, tensor_error sqrt eps inds vals u v w core = Ok e ->
     [/\ e = sqrt (\sum_(x <- List.combine inds vals) (x.2 - rep u v w core x.1) ^+ 2) / sqrt (squares vals + eps), 0 <= e
       & e = 0 <-> forall x, List.In x (List.combine inds vals) -> rep u v w core x.1 = x.2].
Proof.
  have O := sq_err_outcome_main (0 : R) +%R *%R (fun x y => x - y) inds vals u v w core.
  have M := sq_err_main (0 : R) 1 +%R *%R (fun x y => x - y) -%R (RT R) inds vals u v w core.
  rewrite /sqrt_err_relative. split.
    rewrite core_covers_iff in O. rewrite /core_fits -O. by case: (sq_err _ _ _ _ _ _ _ _ _ _) => [x|x]; split=> -[y] //= H; eauto.
  case E: (sq_err _ _ _ _ _ _ _ _ _ _) => [x|//] e /= [<-]. rewrite (M _ E) sum_big.
  have -> : \sum_(e0 <- List.combine inds vals) (e0.2 - tucker 0 +%R *%R u v w core (c0 e0.1) (c1 e0.1) (c2 e0.1)) *
     (e0.2 - tucker 0 +%R *%R u v w core (c0 e0.1) (c1 e0.1) (c2 e0.1)) = \sum_(x0 <- List.combine inds vals) (x0.2 - rep u v w core x0.1) ^+ 2.
    by apply: eq_bigr => z _; rewrite expr2.
  have [E1 E2 E3] := relative_main (f := fun x => x.2 - rep u v w core x.1) (erefl (relative 0 +%R *%R (fun x y => x / y) sqrt eps
     (\sum_(x0 <- List.combine inds vals) (x0.2 - rep u v w core x0.1) ^+ 2) vals)).
  split=> //. rewrite E3. split=> H z /H.
    by move/eqP; rewrite subr_eq0 => /eqP.
  by move=> ->; rewrite subrr.
Qed.

Section Listing.
Variables (n0 n1 n2 : nat) (inds : list cell) (vals : list R).
Hypothesis LEN : length vals = length inds.
Hypothesis ND : List.NoDup inds.
Hypothesis RANGE : List.Forall (in_range (n0, n1, n2)) inds.
Notation box := (cells (n0, n1, n2)).
Notation es := (List.combine inds vals).
Notation t := (dense es).

Lemma in_mem (T : eqType) (x : T) (l : list T) : List.In x l <-> x \in l.
Proof. elim: l => [|y l IH] //=. rewrite in_cons -(rwP orP) -IH. split=> -[]; auto; [move=> ->; left|move/eqP; left]; auto. Qed.
Lemma nodup_uniq (T : eqType) (l : list T) : List.NoDup l -> uniq l.
Proof. elim=> //= x l' H _ ->. by rewrite andbT; apply/negP => /in_mem. Qed.
Lemma box_uniq : uniq box.
Proof. apply: nodup_uniq. exact: cells_NoDup. Qed.
Lemma inds_box : {subset inds <= box}.
Proof. move=> c /in_mem H. apply/in_mem/cells_In. by move/List.Forall_forall: RANGE; apply. Qed.

Lemma sum_box (F : cell -> R) : \sum_(i < n0) \sum_(j < n1) \sum_(k < n2) F (i : nat, j : nat, k : nat) = \sum_(c <- box) F c.
Proof.
  have := sum_cells (0 : R) 1 +%R *%R _ _ (RT R) (n0, n1, n2) F. rewrite sum_big => ->. rewrite sumn_big. apply: eq_bigr => i _.
  rewrite sumn_big. apply: eq_bigr => j _. by rewrite sumn_big.
Qed.
Lemma sum_split (F : cell -> R) : \sum_(c <- box) F c = \sum_(c <- inds) F c + \sum_(c <- box | c \notin inds) F c.
Proof.
  rewrite (bigID (mem inds)) /=. congr (_ + _). rewrite -big_filter. apply: perm_big. apply: uniq_perm.
  - by rewrite filter_uniq // box_uniq.
  - exact: nodup_uniq.
  - move=> c. rewrite mem_filter. case I: (c \in inds) => //=. exact: inds_box.
Qed.
Lemma map_fst_es : map fst es = inds.
Proof. by move: vals LEN; elim: inds => [|c l IH] [|x xs] //= [] /IH ->. Qed.
Lemma map_snd_es : map snd es = vals.
Proof. by move: vals LEN; elim: inds => [|c l IH] [|x xs] //= [] /IH ->. Qed.
Lemma dense_off c : c \notin inds -> t c = 0.
Proof.
  move=> H. rewrite /dense big_seq_cond big_pred0 // => x. apply/negbTE/negP => /andP [I /eqP E].
  case/negP: H. rewrite -map_fst_es. by apply/mapP; exists x.
Qed.
Lemma dense_at x : x \in es -> t x.1 = x.2.
Proof.
  have U : uniq (map fst es) by rewrite map_fst_es; apply: nodup_uniq.
  rewrite /dense. elim: (es) U => [|y l IH] //= /andP [N U]. rewrite in_cons big_cons => /orP [/eqP ->|I].
    rewrite eqxx big_seq_cond big_pred0 ?addr0 // => z. apply/negbTE/negP => /andP [I /eqP E].
    by case/negP: N; apply/mapP; exists z.
  rewrite ifN ?IH //. apply/negP => /eqP E. by case/negP: N; apply/mapP; exists x.
Qed.
Lemma sum_inds (F : cell -> R -> R) : \sum_(c <- inds) F c (t c) = \sum_(x <- es) F x.1 x.2.
Proof. rewrite -{1}map_fst_es big_map. apply: eq_big_seq => x I. by rewrite dense_at. Qed.

Lemma sumsq_data : sumsq n0 n1 n2 t = squares vals.
Proof.
  rewrite /sumsq (sum_box (fun c => t c ^+ 2)) sum_split (sum_inds (fun _ x => x ^+ 2)) [X in _ + X]big1 ?addr0.
    by rewrite /squares -[in RHS]map_snd_es big_map.
  by move=> c /dense_off ->; rewrite expr0n.
Qed.
Lemma sumsq_err (f : cell -> R) : sumsq n0 n1 n2 (fun c => t c - f c)
  = \sum_(x <- es) (x.2 - f x.1) ^+ 2 + \sum_(c <- box | c \notin inds) f c ^+ 2.
Proof.
  rewrite /sumsq (sum_box (fun c => (t c - f c) ^+ 2)) sum_split (sum_inds (fun c x => (x - f c) ^+ 2)). congr (_ + _).
  by apply: eq_bigr => c /dense_off ->; rewrite sub0r sqrrN.
Qed.

Lemma sparse_full_main u v w core e : (mr u, mr v, mr w) = (n0, n1, n2) ->
  tensor_error sqrt eps inds vals u v w core = Ok e ->
  let full := full_error sqrt eps n0 n1 n2 t (rep u v w core) in
  [/\ e <= full, e = full <-> (forall c, in_range (n0, n1, n2) c -> ~ List.In c inds -> rep u v w core c = 0)
    & (forall c, in_range (n0, n1, n2) c -> List.In c inds) -> e = full].
Proof.
  move=> S E full. have [_ /(_ _ E) [-> _ _]] := error_main inds vals u v w core.
  rewrite /full /full_error sumsq_err sumsq_data. have D := den_gt0 (squares_ge0 vals).
  set a := \sum_(x <- es) _. set b := \sum_(c <- box | _) _.
  have A0 : 0 <= a by apply: sumr_ge0 => x _; exact: sqr_ge0.
  have B0 : 0 <= b by apply: sumr_ge0 => x _; exact: sqr_ge0.
  have EQ : sqrt a / sqrt (squares vals + eps) = sqrt (a + b) / sqrt (squares vals + eps) <-> b = 0.
    split; last by move=> ->; rewrite addr0. move/(congr1 (fun x => x * sqrt (squares vals + eps))).
    rewrite !divfK ?gt_eqF // => /root_inj. move=> /(_ A0 (addr_ge0 A0 B0)) /eqP. by rewrite -{1}(addr0 a) (inj_eq (addrI a)) => /eqP <-.
  have BZ : b = 0 <-> (forall c, in_range (n0, n1, n2) c -> ~ List.In c inds -> rep u v w core c = 0).
    rewrite /b -big_filter sq_sum_eq0. split=> H c.
      move=> /cells_In /in_mem C /in_mem /negP N. by apply: H; apply/in_mem; rewrite mem_filter N C.
    move=> /in_mem; rewrite mem_filter => /andP [/negP N /in_mem /cells_In C]. by apply: H => // /in_mem.
  split.
  - rewrite ler_pmul2r ?invr_gt0 //. apply: root_le => //. by rewrite ler_addl.
  - by rewrite EQ BZ.
  - by move=> ALL; apply/EQ/BZ => c /ALL.
Qed.
End Listing.

(** rp_hooi. *)
Section Hooi.
Variables (qr : mat R -> res (mat R * mat R)) (rand : nat -> nat -> nat -> mat R).
Variable rsvd : nat -> mat R -> nat -> res (mat R * list R * mat R).
Hypothesis QR : qr_ok qr.
Hypothesis RAND : forall m, randn_ok (rand m).
Hypothesis INNER : inner_ok rsvd.
Variables (N : Type) (norm : ten R -> N) (norm0 : N) (grew : N -> N -> bool).

Lemma rp_error_main n0 r0 n1 r1 n2 r2 inds vals n_iter fs (core : option (ten R)) :
  hooi_args n0 r0 n1 r1 n2 r2 inds vals -> List.NoDup inds ->
  rp_hooi (0 : R) +%R *%R qr rand rsvd norm norm0 grew inds vals (n0, n1, n2) (r0, r1, r2) n_iter = Ok (fs, core) ->
  (0 < n_iter)%N ->
  exists g e, [/\ core = Some g,
    tensor_error sqrt eps inds vals (factor fs 0) (factor fs 1) (factor fs 2) g = Ok e,
    0 <= e < 1,
    e <= sqrt (squares vals - sumsq r0 r1 r2 (tget 0 g)) / sqrt (squares vals + eps)
    & (forall c, in_range (n0, n1, n2) c -> List.In c inds) ->
      e = sqrt (squares vals - sumsq r0 r1 r2 (tget 0 g)) / sqrt (squares vals + eps)
      /\ (e = 0 <-> sumsq r0 r1 r2 (tget 0 g) = squares vals)].
Proof.
  move=> ARGS ND E NI. have [_ [_ [LEN RANGE]]] := ARGS.
  have [g Eg [_ _ _ PY]] := rp_projects_main QR RAND INNER ARGS E NI.
  have := rp_run_main QR RAND INNER norm norm0 grew n_iter ARGS.
  rewrite E => -[k [F [G [S [_ [_ K SW _] [EF EC P]]]]]]. have K0 := K NI.
  have [[S0 S0'] [S1 S1'] [S2 S2'] _] := P K0.
  have SG : tshape g = (r0, r1, r2).
    have := SW k.-1. rewrite prednK // => /(_ (leqnn k)) [wa [m0 [m1 [m2 [m2' [_ _ _ _ [_ TS _]]]]]]].
    move: EC. rewrite Eg. case: (k) K0 TS => // k' _ TS [->]. exact: TS.
  have [[_ /(_ _) OUT] CH] := error_main inds vals (factor fs 0) (factor fs 1) (factor fs 2) g.
  case: OUT => [|e Ee].
    split; first by rewrite LEN. split; first by rewrite S0 S1 S2. left. right; right; right.
    by rewrite S0' S1' S2' SG.
  exists g, e. split=> //.
  - have [LE _ _] := sparse_full_main LEN ND RANGE (f_equal3 (fun a b c => (a, b, c)) S0 S1 S2) Ee.
    have [_ -> _] := CH _ Ee. apply: le_lt_trans LE _. rewrite /full_error sumsq_data //.
    have D := den_gt0 (squares_ge0 vals). rewrite ltr_pdivr_mulr // mul1r. case: ROOT => _; apply; first exact: sumsq_ge0.
    move: PY. rewrite sumsq_data // => ->. apply: ltr_spaddr => //. by rewrite ler_addr sumsq_ge0.
  - have [LE _ _] := sparse_full_main LEN ND RANGE (f_equal3 (fun a b c => (a, b, c)) S0 S1 S2) Ee.
    move: LE. rewrite /full_error sumsq_data //. move: PY. rewrite sumsq_data // => ->. by rewrite (addrC (sumsq _ _ _ (tget _ _))) addrK.
  - move=> ALL. have [_ _ /(_ ALL)] := sparse_full_main LEN ND RANGE (f_equal3 (fun a b c => (a, b, c)) S0 S1 S2) Ee.
    rewrite /full_error sumsq_data //. move: PY. rewrite sumsq_data // => PY EQ.
    have EX : squares vals - sumsq r0 r1 r2 (tget 0 g) = sumsq n0 n1 n2 (fun c => dense (List.combine inds vals) c - rep (factor fs 0) (factor fs 1) (factor fs 2) g c).
      by rewrite PY addrC addKr.
    rewrite EX. split=> //. have D := den_gt0 (squares_ge0 vals). rewrite EQ. split.
      move/eqP. rewrite mulf_eq0 invr_eq0 (gt_eqF D) orbF => /eqP/root_eq0. move=> /(_ (sumsq_ge0 _ _ _ _)) Z. by rewrite PY Z addr0.
    move=> X. move: EX. rewrite X subrr => <-. by case: ROOT => -> _; rewrite mul0r.
Qed.
End Hooi.

(** Matrices. *)
Lemma matrix_main (inds : list (nat * nat)) vals u (s : list R) vt :
  (forall e, matrix_error_1 sqrt eps inds vals u s vt = Ok e ->
     [/\ e = sqrt (\sum_(x <- List.combine inds vals) (x.2 - svd_cell u s vt x.1) ^+ 2) / sqrt (squares vals + eps), 0 <= e
       & e = 0 <-> forall x, List.In x (List.combine inds vals) -> svd_cell u s vt x.1 = x.2])
  /\ (forall d, is_diag 0 d s -> length s = mc u -> mc u = mr vt ->
       matrix_error_2 sqrt eps inds vals u d vt = matrix_error_1 sqrt eps inds vals u s vt).
Proof.
  split; last first.
    move=> d D L E. by rewrite /sqrt_err_relative_2 (sq_err_forms_main (0 : R) 1 +%R *%R (fun x y => x - y) -%R (RT R) _ _ _ _ _ _ D L E).
  move=> e. rewrite /sqrt_err_relative_1. case E: (sq_err_1 _ _ _ _ _ _ _ _ _) => [x|//] /= [<-].
  have [_ ->] := sq_err_1_main (0 : R) 1 +%R *%R (fun x y => x - y) -%R (RT R) _ _ _ _ _ _ E.
  have -> : forall l : list (nat * nat * R), Tensor_spec.sum 0 +%R (List.map (fun e0 => let d := e0.2 - Tensor_spec.sumn 0 +%R (mc u) (fun r =>
      mget 0 u e0.1.1 r * List.nth r s 0 * mget 0 vt r e0.1.2) in d * d) l) = \sum_(x0 <- l) (x0.2 - svd_cell u s vt x0.1) ^+ 2.
    move=> l. rewrite sum_big. apply: eq_bigr => z _. by rewrite sumn_big expr2.
  have [E1 E2 E3] := relative_main (f := fun x : nat * nat * R => x.2 - svd_cell u s vt x.1) (erefl (relative 0 +%R *%R (fun x y => x / y) sqrt eps
     (\sum_(x0 <- List.combine inds vals) (x0.2 - svd_cell u s vt x0.1) ^+ 2) vals)).
  split=> //. rewrite E3. split=> H z /H.
    by move/eqP; rewrite subr_eq0 => /eqP.
  by move=> ->; rewrite subrr.
Qed.

(** An error of 0 with a reconstruction far from the data. *)
Lemma in000 a b c : in_range (a.+1, b.+1, c.+1)%N (0, 0, 0)%N.
Proof. rewrite /in_range /c0 /c1 /c2 /=. split; [|split]; exact: PeanoNat.Nat.lt_0_succ. Qed.
Lemma rep_111 (a b c d : R) i : (i < 1)%N -> forall x, rep (mkMat 2 1 [:: a; x]) (mkMat 1 1 [:: b]) (mkMat 1 1 [:: c]) (mkTen (1, 1, 1)%N [:: d]) (i, 0, 0)%N = d * a * b * c.
Proof.
  case: i => // _ x. rewrite /rep /tucker /=. by do 3 rewrite sumn_big big_ord1.
Qed.
Lemma blind_main (M : R) : exists inds vals u v w core,
  [/\ hooi_args 2 1 1 1 1 1 inds vals /\ List.NoDup inds,
      tensor_error sqrt eps inds vals u v w core = Ok 0
    & full_error sqrt eps 2 1 1 (dense (List.combine inds vals)) (rep u v w core) = sqrt (M ^+ 2) / sqrt (1 + eps)].
Proof.
  exists [:: (0, 0, 0)%N], [:: 1], (mkMat 2 1 [:: 1; M]), (mkMat 1 1 [:: 1]), (mkMat 1 1 [:: 1]), (mkTen (1, 1, 1)%N [:: 1]).
  have R0 : rep (mkMat 2 1 [:: 1; M]) (mkMat 1 1 [:: 1]) (mkMat 1 1 [:: 1]) (mkTen (1, 1, 1)%N [:: 1]) (0, 0, 0)%N = 1 by rewrite rep_111 // !mul1r.
  have R1 : rep (mkMat 2 1 [:: 1; M]) (mkMat 1 1 [:: 1]) (mkMat 1 1 [:: 1]) (mkTen (1, 1, 1)%N [:: 1]) (1, 0, 0)%N = M.
    rewrite /rep /tucker /=. do 3 rewrite sumn_big big_ord1. by rewrite /Tensor_model.mget /tget /= !mulr1 mul1r.
  have IR : List.Forall (in_range (2, 1, 1)%N) [:: (0, 0, 0)%N] by apply: (List.Forall_cons _ (in000 _ _ _) (List.Forall_nil _)).
  split.
  - split; first by do !split. by apply: List.NoDup_cons; [case|exact: List.NoDup_nil].
  - set u := mkMat 2 1 _ in R0 R1 *. set v := mkMat 1 1 _ in R0 R1 *. set g := mkTen _ _ in R0 R1 *.
    have [[_ OUT] CH] := error_main [:: (0, 0, 0)%N] [:: 1] u v v g. case: OUT => [|e E].
      split=> //. split=> //. left. right; right; right. by rewrite /c0 /c1 /c2 /=.
    rewrite E. have [_ _ [_ ->]] := CH _ E; first by []. by move=> x [<-|[]].
  - rewrite /full_error /sumsq !big_ord_recl !big_ord0 /= !addr0 R0.
    have -> : bump 0 0 = 1%N by []. rewrite R1 /dense /= !big_cons !big_nil /= !addr0 sub0r sqrrN subrr expr0n add0r expr1n addr0. by [].
Qed.

(** A repeated coordinate: the data add up, the error compares one by one. *)
Lemma repeated_main : exists inds vals u v w core e,
  [/\ hooi_args 1 1 1 1 1 1 inds vals,
      forall c, in_range (1, 1, 1)%N c -> rep u v w core c = dense (List.combine inds vals) c,
      tensor_error sqrt eps inds vals u v w core = Ok e & e <> 0].
Proof.
  exists [:: (0, 0, 0)%N; (0, 0, 0)%N], [:: 1; 1], (mkMat 1 1 [:: 1]), (mkMat 1 1 [:: 1]), (mkMat 1 1 [:: 1]), (mkTen (1, 1, 1)%N [:: 2%:R]).
  have R0 : rep (mkMat 1 1 [:: 1]) (mkMat 1 1 [:: 1]) (mkMat 1 1 [:: 1]) (mkTen (1, 1, 1)%N [:: 2%:R]) (0, 0, 0)%N = 2%:R :> R.
    rewrite /rep /tucker /=. do 3 rewrite sumn_big big_ord1. by rewrite /Tensor_model.mget /tget /= !mulr1.
  have IR : List.Forall (in_range (1, 1, 1)%N) [:: (0, 0, 0)%N; (0, 0, 0)%N].
    by apply: (List.Forall_cons _ (in000 _ _ _) (List.Forall_cons _ (in000 _ _ _) (List.Forall_nil _))).
  set v := mkMat 1 1 _ in R0 *. set g := mkTen _ _ in R0 *.
  have [[_ OUT] CH] := error_main [:: (0, 0, 0)%N; (0, 0, 0)%N] [:: 1; 1] v v v g. case: OUT => [|e E].
    split=> //. split=> //. left. right; right; right. by rewrite /c0 /c1 /c2 /=.
  exists e. split=> //.
  - move=> [[i j] k] [/ssrnat.ltP Hi [/ssrnat.ltP Hj /ssrnat.ltP Hk]]. move: Hi Hj Hk. rewrite /c0 /c1 /c2 /= !ltnS !leqn0 => /eqP -> /eqP -> /eqP ->.
    by rewrite R0 /dense /= !big_cons big_nil /= addr0.
  - have [_ _ [H _]] := CH _ E => Z. have := H Z ((0, 0, 0)%N, 1). rewrite /= R0 => /(_ (or_introl erefl)) /eqP. by rewrite (eqr_nat R 2 1).
Qed.
End Root.

(** The Hilbert tensor. *)
Definition hilbert_cell (c : cell) : R := 1 / (c0 c + c1 c + c2 c + 1)%:R.
Lemma hilbert_cells sh : hilbert sh = (cells sh, List.map hilbert_cell (cells sh)).
Proof.
  have K l (s : list cell * list R) :
    List.fold_left (fun s c => ((fst s ++ [:: c])%list, (snd s ++ [:: hilbert_cell c])%list)) l s = ((fst s ++ l)%list, (snd s ++ List.map hilbert_cell l)%list).
    elim: l s => [|c l IH] [x y] /=; first by rewrite !List.app_nil_r. by rewrite IH /= -!List.app_assoc.
  rewrite /gen_hilbert_tensor.
  rewrite (for_actions (fun s c => ((fst s ++ [:: c])%list, (snd s ++ [:: hilbert_cell c])%list)) _
      (fun i => List.flat_map (fun j => List.map (fun k => (i, j, k)) (List.seq 0 (c2 sh))) (List.seq 0 (c1 sh)))).
    by rewrite K.
  move=> i s. apply: for_actions => j s'. rewrite -flat_map_singleton. by apply: for_actions => k s''.
Qed.
Lemma hilbert_main (sqrt : R -> R) eps n0 n1 n2 inds vals : root_ok sqrt -> 0 < eps ->
  hilbert (n0, n1, n2) = (inds, vals) ->
  let h (c : cell) := 1 / (c0 c + c1 c + c2 c + 1)%:R : R in
  [/\ length vals = length inds, List.NoDup inds, forall c, List.In c inds <-> in_range (n0, n1, n2) c,
      forall c, in_range (n0, n1, n2) c -> dense (List.combine inds vals) c = h c
    & forall u v w core e, (mr u, mr v, mr w) = (n0, n1, n2) -> tensor_error sqrt eps inds vals u v w core = Ok e ->
      e = full_error sqrt eps n0 n1 n2 h (rep u v w core)].
Proof.
  move=> ROOT EPS. rewrite hilbert_cells => -[<- <-] h.
  have L : length (List.map hilbert_cell (cells (n0, n1, n2))) = length (cells (n0, n1, n2)) by exact: List.map_length.
  have U := cells_NoDup (n0, n1, n2). have D c : in_range (n0, n1, n2) c -> dense (List.combine (cells (n0, n1, n2)) (List.map hilbert_cell (cells (n0, n1, n2)))) c = h c.
    move=> /cells_In H. have := dense_at L U (x := (c, hilbert_cell c)). apply. apply/in_mem.
    elim: (cells _) H => //= x l IH [->|/IH I]; [by left|by right].
  split=> //; first by move=> c; exact: cells_In.
  move=> u v w core e S E.
  have F : List.Forall (in_range (n0, n1, n2)) (cells (n0, n1, n2)) by apply/List.Forall_forall => c /cells_In.
  have [_ _ ->] := sparse_full_main ROOT EPS L U F S E; last by move=> c /cells_In.
  have B (i : 'I_n0) (j : 'I_n1) (k : 'I_n2) : in_range (n0, n1, n2) (i : nat, j : nat, k : nat).
    split; [|split]; rewrite /c0 /c1 /c2 /=; apply/ssrnat.ltP; exact: ltn_ord.
  rewrite /full_error /sumsq. congr (sqrt _ / sqrt (_ + _)); do 3 (apply: eq_bigr => ? _); by rewrite D.
Qed.
End Main.

Lemma p_nodup : List.NoDup Hooi_wit.p_inds.
Proof. rewrite /Hooi_wit.p_inds. repeat (apply: List.NoDup_cons; first (rewrite /=; intuition discriminate)). exact: List.NoDup_nil. Qed.
Lemma p_args222 : hooi_args 2 1 2 1 2 1 Hooi_wit.p_inds Hooi_wit.p_vals.
Proof.
  split=> //; split=> //; split=> //. rewrite /Hooi_wit.p_inds.
  by repeat (apply: List.Forall_cons; first by split; [|split]; apply/ssrnat.ltP).
Qed.
