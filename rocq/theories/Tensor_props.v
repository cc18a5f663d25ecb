(** Properties C28-C35: tensor unfoldings, conversions, cores, contractions and
    reconstruction (source/tensor_operations.py). *)
From Coq Require Import ZArith List Bool Lia Ring.
From Verif Require Import Prelude Tensor_model Tensor_spec.
From Verif Require Tensor_main Tensor_core Tensor_dot Tensor_project Tensor_extra.
Import ListNotations.
Open Scope nat_scope.

(** C28.  The unfolding along a mode puts cell [c] at row [c[mode]] and column
    [c[a] + shape[a]*c[b]], where [a < b] are the other modes. *)
Theorem unfold_dense_cells : forall (A : Type) (zero : A) (t : ten A) mode n a b,
  twf t -> modes mode n a b ->
  exists m, unfold_dense zero t mode = Ok m /\ mwf m
    /\ mr m = pick (tshape t) n /\ mc m = pick (tshape t) a * pick (tshape t) b
    /\ forall c, in_range (tshape t) c ->
         mget zero m (pick c n) (pick c a + pick (tshape t) a * pick c b) = tget zero t c.
Proof. intros A zero. exact (Tensor_main.unfold_dense_main zero). Qed.
Print Assumptions unfold_dense_cells.

(** C28.  Every matrix cell is the image of exactly one tensor cell. *)
Theorem unfold_cells_bijective : forall shape mode n a b,
  modes mode n a b ->
  (forall i j, i < pick shape n -> j < pick shape a * pick shape b ->
     exists c, in_range shape c /\ pick c n = i /\ pick c a + pick shape a * pick c b = j)
  /\ (forall c c', in_range shape c -> in_range shape c' -> pick c n = pick c' n ->
        pick c a + pick shape a * pick c b = pick c' a + pick shape a * pick c' b -> c = c').
Proof.
  exact (fun shape mode n a b M =>
    conj (fun i j => Tensor_core.cell_of shape mode n a b i j M)
         (fun c c' => Tensor_extra.cell_unique shape mode n a b c c' M)).
Qed.
Print Assumptions unfold_cells_bijective.

(** C28.  Folding an unfolding restores the tensor; a mode other than 0, 1, 2 raises. *)
Theorem fold_unfold : forall (A : Type) (zero : A) (t : ten A) mode,
  twf t ->
  (forall m, unfold_dense zero t mode = Ok m -> fold_dense zero m (tshape t) mode = Ok t)
  /\ ((mode < 0 \/ 3 <= mode)%Z ->
      unfold_dense zero t mode = Err ValueError
      /\ forall m shape, fold_dense zero m shape mode = Err ValueError).
Proof.
  exact (fun A zero t mode W =>
    conj (fun m => Tensor_main.fold_unfold_main zero t mode m W)
         (fun B => conj (proj1 (Tensor_main.dense_bad_mode zero mode B) t)
                        (proj2 (Tensor_main.dense_bad_mode zero mode B)))).
Qed.
Print Assumptions fold_unfold.

(** C28.  Unfolding a folded matrix restores it when its shape is that of an unfolding
    (otherwise the same buffer comes back in the unfolding's shape). *)
Theorem unfold_fold : forall (A : Type) (zero : A) (m : mat A) shape mode t,
  mwf m -> fold_dense zero m shape mode = Ok t ->
  exists m', unfold_dense zero t mode = Ok m' /\ mdat m' = mdat m
    /\ (forall n a b, modes mode n a b ->
          mr m' = pick shape n /\ mc m' = pick shape a * pick shape b
          /\ (mr m = pick shape n -> mc m = pick shape a * pick shape b -> m' = m)).
Proof. intros A zero. exact (Tensor_main.unfold_fold_main zero). Qed.
Print Assumptions unfold_fold.

(** C28.  Folding succeeds iff the sizes agree and gives the inverse placement. *)
Theorem fold_dense_cells : forall (A : Type) (zero : A) (m : mat A) shape mode n a b,
  mwf m -> modes mode n a b ->
  (mr m * mc m <> c0 shape * c1 shape * c2 shape -> fold_dense zero m shape mode = Err ValueError)
  /\ (mr m * mc m = c0 shape * c1 shape * c2 shape ->
      exists t, fold_dense zero m shape mode = Ok t /\ twf t /\ tshape t = shape
        /\ forall c, in_range shape c ->
             tget zero t c = nth (pick c n * (pick shape a * pick shape b)
                                  + (pick c a + pick shape a * pick c b)) (mdat m) zero).
Proof. intros A zero. exact (Tensor_main.fold_dense_main zero). Qed.
Print Assumptions fold_dense_cells.

(** C29.  Outcome of the sparse unfolding: RuntimeError for lists of different lengths
    or a bad mode; otherwise the entries are placed one by one if rows and columns
    fit, else ValueError. *)
Theorem unfold_sparse_outcome : forall (A : Type) (inds : list coord) (vals : list A) shape mode,
  (length inds <> length vals \/ (mode < 0 \/ 3 <= mode)%Z ->
   unfold_sparse inds vals shape mode = Err RuntimeError)
  /\ forall n a b, modes mode n a b -> length inds = length vals ->
     let row c := pick c n in
     let col c := pick c a + pick shape a * pick c b in
     ((exists m, unfold_sparse inds vals shape mode = Ok m)
      <-> Forall (fun c => row c < pick shape n /\ col c < pick shape a * pick shape b) inds)
     /\ ((exists m, unfold_sparse inds vals shape mode = Ok m) \/ unfold_sparse inds vals shape mode = Err ValueError)
     /\ forall m, unfold_sparse inds vals shape mode = Ok m ->
          coo_r m = pick shape n /\ coo_c m = pick shape a * pick shape b
          /\ coo_entries m = combine (map (fun c => (row c, col c)) inds) vals.
Proof.
  exact (fun A inds vals shape mode =>
    conj (Tensor_main.unfold_sparse_bad inds vals shape mode)
         (fun n a b => Tensor_main.unfold_sparse_main inds vals shape mode n a b)).
Qed.
Print Assumptions unfold_sparse_outcome.

(** C29.  The sparse unfolding of coordinates in range is the dense unfolding of the
    tensor in which entries at the same cell are added up. *)
Theorem unfold_sparse_is_dense_of_sum :
  forall (A : Type) (zero : A) (add : A -> A -> A) (inds : list coord) (vals : list A) shape mode m t d,
  Forall (in_range shape) inds -> twf t -> tshape t = shape ->
  (forall c, in_range shape c -> tget zero t c = sum zero add (values_at c (combine inds vals))) ->
  unfold_sparse inds vals shape mode = Ok m ->
  unfold_dense zero t mode = Ok d ->
  coo_r m = mr d /\ coo_c m = mc d
  /\ forall i j, i < mr d -> j < mc d -> coo_cell zero add m i j = mget zero d i j.
Proof. intros A zero add. exact (Tensor_extra.unfold_sum_main zero add). Qed.
Print Assumptions unfold_sparse_is_dense_of_sum.

(** C29.  With distinct coordinates it is the dense unfolding of [sparse_to_dense_tensor]. *)
Theorem unfold_sparse_agrees :
  forall (A : Type) (zero : A) (add : A -> A -> A) (inds : list coord) (vals : list A) shape mode m t d,
  (forall x, add x zero = x) ->
  NoDup inds -> Forall (in_range shape) inds ->
  unfold_sparse inds vals shape mode = Ok m ->
  sparse_to_dense_tensor zero inds vals shape = Ok t ->
  unfold_dense zero t mode = Ok d ->
  coo_r m = mr d /\ coo_c m = mc d
  /\ forall i j, i < mr d -> j < mc d -> coo_cell zero add m i j = mget zero d i j.
Proof. intros A zero add. exact (Tensor_core.unfold_agree_main zero add). Qed.
Print Assumptions unfold_sparse_agrees.

(** C29/C30.  With repeated coordinates the sparse unfolding adds the values, while
    the tensor built by [sparse_to_dense_tensor] holds the last one. *)
Theorem unfold_sparse_duplicates :
  forall (A : Type) (zero : A) (add : A -> A -> A) (inds : list coord) (vals : list A) shape mode n a b m t d c,
  modes mode n a b -> Forall (in_range shape) inds -> in_range shape c ->
  unfold_sparse inds vals shape mode = Ok m ->
  sparse_to_dense_tensor zero inds vals shape = Ok t ->
  unfold_dense zero t mode = Ok d ->
  coo_cell zero add m (pick c n) (pick c a + pick shape a * pick c b)
  = sum zero add (values_at c (combine inds vals))
  /\ mget zero d (pick c n) (pick c a + pick shape a * pick c b)
     = last (values_at c (combine inds vals)) zero.
Proof. intros A zero add. exact (Tensor_core.unfold_agree_cell_main zero add). Qed.
Print Assumptions unfold_sparse_duplicates.

(** C29.  A coordinate outside the shape is not always rejected: it can land on the
    cell of another coordinate. *)
Theorem unfold_sparse_aliasing_refuted :
  exists (inds : list coord) (vals : list Z) shape mode m,
    ~ Forall (in_range shape) inds
    /\ unfold_sparse inds vals shape mode = Ok m
    /\ unfold_sparse [(0, 0, 1)] vals shape mode = Ok m.
Proof.
  exists [(0, 2, 0)], [7%Z], (1, 2, 2), 0%Z, (mkCoo 1 4 [((0, 2), 7%Z)]).
  split; [intros H; inversion H as [|? ? [_ [H1 _]]]; cbn in H1; lia|]. split; reflexivity.
Qed.
Print Assumptions unfold_sparse_aliasing_refuted.

(** C30.  A dense tensor turned into a sparse one lists every cell once, and turning it
    back restores it. *)
Theorem dense_sparse_roundtrip : forall (A : Type) (zero : A) (t : ten A), twf t ->
  exists inds vals, dense_to_sparse_tensor zero t = (inds, vals)
    /\ length inds = c0 (tshape t) * c1 (tshape t) * c2 (tshape t) /\ length vals = length inds
    /\ NoDup inds /\ (forall c, In c inds <-> in_range (tshape t) c)
    /\ sparse_to_dense_tensor zero inds vals (tshape t) = Ok t.
Proof. intros A zero. exact (Tensor_main.dense_sparse_roundtrip_main zero). Qed.
Print Assumptions dense_sparse_roundtrip.

(** C30.  [sparse_to_dense_tensor] keeps the last value given for a cell, zero if there
    is none, and needs all used coordinates in range. *)
Theorem sparse_to_dense_last : forall (A : Type) (zero : A) (inds : list coord) (vals : list A) shape,
  (length vals <= length inds /\ Forall (in_range shape) (firstn (length vals) inds) ->
   exists t, sparse_to_dense_tensor zero inds vals shape = Ok t /\ twf t /\ tshape t = shape
     /\ forall c, in_range shape c -> tget zero t c = last (values_at c (combine inds vals)) zero)
  /\ (~ (length vals <= length inds /\ Forall (in_range shape) (firstn (length vals) inds)) ->
      sparse_to_dense_tensor zero inds vals shape = Err OutOfBounds).
Proof. intros A zero. exact (Tensor_main.sparse_to_dense_main zero). Qed.
Print Assumptions sparse_to_dense_last.

(** C31.  The parallel core: whatever the schedule, once every thread has finished the
    shared array is the core of the sequential routine, for arbitrary operations
    [add], [mul] and element [zero] (so also for floating-point arithmetic). *)
Theorem parallel_core_any_schedule :
  forall (A : Type) (zero : A) (add mul : A -> A -> A) inds (vals : list A) u1 u2 u3,
  ((exists core start, construct_core zero add mul inds vals u1 u2 u3 = Ok core
      /\ core_parallel_start zero mul inds vals u1 u2 u3 = Ok start
      /\ forall sched, finished (run zero add sched start) -> memory (run zero add sched start) = core)
   /\ length vals <= length inds
   /\ Forall (in_range (mr u1, mr u2, mr u3)) (firstn (length vals) inds))
  \/ (construct_core zero add mul inds vals u1 u2 u3 = Err OutOfBounds
      /\ core_parallel_start zero mul inds vals u1 u2 u3 = Err OutOfBounds
      /\ ~ (length vals <= length inds
            /\ Forall (in_range (mr u1, mr u2, mr u3)) (firstn (length vals) inds))).
Proof. intros A zero add mul. exact (Tensor_core.parallel_core_main zero add mul). Qed.
Print Assumptions parallel_core_any_schedule.

(** C31.  A schedule finishes iff it gives every thread at least two steps (a load and
    a store) for each of its additions; no thread can block another. *)
Theorem parallel_core_completes :
  forall (A : Type) (zero : A) (add mul : A -> A -> A) inds (vals : list A) u1 u2 u3 start sched,
  core_parallel_start zero mul inds vals u1 u2 u3 = Ok start ->
  (finished (run zero add sched start)
   <-> forall i, i < mc u1 -> 2 * (length vals * (mc u2 * mc u3)) <= steps_of i sched).
Proof. intros A zero add mul. exact (Tensor_core.parallel_core_completes_main zero add mul). Qed.
Print Assumptions parallel_core_completes.

(** C31.  The dense parallel routine is bit-identical to the sequential sparse one on
    the tensor's sparse form, for every schedule. *)
Theorem parallel_dense_any_schedule :
  forall (A : Type) (zero : A) (add mul : A -> A -> A) (t : ten A) (u1 u2 u3 : mat A) inds vals,
  dense_to_sparse_tensor zero t = (inds, vals) ->
  (c0 (tshape t) <= mr u1 /\ c1 (tshape t) <= mr u2 /\ c2 (tshape t) <= mr u3 ->
   exists core start, construct_core zero add mul inds vals u1 u2 u3 = Ok core
     /\ core_parallel_dense_start zero mul t u1 u2 u3 = Ok start
     /\ forall sched, finished (run zero add sched start) -> memory (run zero add sched start) = core).
Proof. intros A zero add mul. exact (Tensor_core.parallel_dense_main zero add mul). Qed.
Print Assumptions parallel_dense_any_schedule.

(** C31/C32.  Each cell of the core is the left-to-right sum, in entry order, of the
    products (val*u1*u2)*u3: the exact sequence of floating-point operations. *)
Theorem core_cells_in_order :
  forall (A : Type) (zero : A) (add mul : A -> A -> A) inds (vals : list A) u1 u2 u3 core,
  construct_core zero add mul inds vals u1 u2 u3 = Ok core ->
  twf core /\ tshape core = (mc u1, mc u2, mc u3)
  /\ forall i j k, i < mc u1 -> j < mc u2 -> k < mc u3 ->
     tget zero core (i, j, k)
     = fold_left add (map (fun e => mul (mul (mul (snd e) (mget zero u1 (c0 (fst e)) i))
                                            (mget zero u2 (c1 (fst e)) j))
                                       (mget zero u3 (c2 (fst e)) k)) (combine inds vals)) zero.
Proof. intros A zero add mul. exact (Tensor_core.core_bit_exact_main zero add mul). Qed.
Print Assumptions core_cells_in_order.

(** C32.  In exact arithmetic the core is the contraction of the summed tensor with the
    three factors. *)
Theorem core_is_contraction :
  forall (A : Type) (zero one : A) (add mul sub : A -> A -> A) (opp : A -> A),
  ring_theory zero one add mul sub opp (@eq A) ->
  forall inds (vals : list A) u1 u2 u3 core i j k,
  construct_core zero add mul inds vals u1 u2 u3 = Ok core ->
  i < mc u1 -> j < mc u2 -> k < mc u3 ->
  tget zero core (i, j, k)
  = sumn zero add (mr u1) (fun x => sumn zero add (mr u2) (fun y => sumn zero add (mr u3) (fun z =>
      mul (mul (mul (sum zero add (values_at (x, y, z) (combine inds vals))) (mget zero u1 x i))
               (mget zero u2 y j)) (mget zero u3 z k)))).
Proof. exact (fun A zero one add mul sub opp RT => Tensor_core.core_contraction_main zero one add mul sub opp RT). Qed.
Print Assumptions core_is_contraction.

(** C32.  Sparse and dense routines give the same core in exact arithmetic. *)
Theorem core_sparse_dense :
  forall (A : Type) (zero one : A) (add mul sub : A -> A -> A) (opp : A -> A),
  ring_theory zero one add mul sub opp (@eq A) ->
  forall inds (vals : list A) u1 u2 u3 core (t : ten A) start sched,
  construct_core zero add mul inds vals u1 u2 u3 = Ok core ->
  tshape t = (mr u1, mr u2, mr u3) ->
  (forall c, in_range (tshape t) c -> tget zero t c = sum zero add (values_at c (combine inds vals))) ->
  core_parallel_dense_start zero mul t u1 u2 u3 = Ok start ->
  finished (run zero add sched start) ->
  memory (run zero add sched start) = core.
Proof. exact (fun A zero one add mul sub opp RT => Tensor_core.core_sparse_dense_main zero one add mul sub opp RT). Qed.
Print Assumptions core_sparse_dense.

(** C33.  [tensordot2]: modes must be two distinct values of 0, 1, 2; the result has the
    remaining mode first and holds the double contraction, in entry order. *)
Theorem tensordot2_contracts :
  forall (A : Type) (zero : A) (add mul : A -> A -> A) inds (vals : list A) shape (u v : mat A) mode1 mode2,
  let m0 := Z.to_nat (3 - (mode1 + mode2)) in
  let m1 := Z.to_nat mode1 in
  let m2 := Z.to_nat mode2 in
  let fits := fun c => pick c m0 < pick shape m0 /\ pick c m1 < mr u /\ pick c m2 < mr v in
  let good := valid2 mode1 /\ valid2 mode2 /\ mode1 <> mode2 in
  let inside := length vals <= length inds /\ Forall fits (firstn (length vals) inds) in
  (~ good -> tensordot2 zero add mul inds vals shape u v mode1 mode2 = Err RuntimeError)
  /\ (good -> ~ inside -> tensordot2 zero add mul inds vals shape u v mode1 mode2 = Err OutOfBounds)
  /\ (good -> inside ->
      exists r, tensordot2 zero add mul inds vals shape u v mode1 mode2 = Ok r /\ twf r
        /\ tshape r = (pick shape m0, mc u, mc v)
        /\ forall x j k, x < pick shape m0 -> j < mc u -> k < mc v ->
             tget zero r (x, j, k)
             = fold_left add (map (fun e => mul (mul (snd e) (mget zero u (pick (fst e) m1) j))
                                                (mget zero v (pick (fst e) m2) k))
                                  (filter (fun e => pick (fst e) m0 =? x) (combine inds vals))) zero).
Proof. intros A zero add mul. exact (Tensor_dot.tensordot2_main zero add mul). Qed.
Print Assumptions tensordot2_contracts.

(** C33.  [tensordot]: the product with [u] along one mode, in entry order. *)
Theorem tensordot_mode_product :
  forall (A : Type) (zero : A) (add mul : A -> A -> A) inds (vals : list A) shape (u : mat A) mode n a b,
  modes mode n a b ->
  let fits := fun c => pick c n < mc u /\ pick c a < pick shape a /\ pick c b < pick shape b in
  let inside := mr u = 0 \/ (length vals <= length inds /\ Forall fits (firstn (length vals) inds)) in
  (~ inside -> tensordot zero add mul inds vals shape u mode = Err OutOfBounds)
  /\ (inside ->
      exists r, tensordot zero add mul inds vals shape u mode = Ok r /\ twf r
        /\ pick (tshape r) n = mr u /\ pick (tshape r) a = pick shape a /\ pick (tshape r) b = pick shape b
        /\ forall c, in_range (tshape r) c ->
             tget zero r c
             = fold_left add (map (fun e => mul (snd e) (mget zero u (pick c n) (pick (fst e) n)))
                                  (filter (fun e => (pick (fst e) a =? pick c a) && (pick (fst e) b =? pick c b))
                                          (combine inds vals))) zero).
Proof. intros A zero add mul. exact (Tensor_dot.tensordot_main zero add mul). Qed.
Print Assumptions tensordot_mode_product.

(** C33.  Three mode products with the transposed factors, passing the intermediate
    results on in sparse form, give the core. *)
Theorem core_is_three_products :
  forall (A : Type) (zero one : A) (add mul sub : A -> A -> A) (opp : A -> A),
  ring_theory zero one add mul sub opp (@eq A) ->
  forall inds (vals : list A) shape (u1 u2 u3 v1 v2 v3 : mat A) core r1 r2 r3 i1 w1 i2 w2,
  is_transpose zero v1 u1 -> is_transpose zero v2 u2 -> is_transpose zero v3 u3 ->
  shape = (mr u1, mr u2, mr u3) ->
  construct_core zero add mul inds vals u1 u2 u3 = Ok core ->
  tensordot zero add mul inds vals shape v1 0 = Ok r1 ->
  dense_to_sparse_tensor zero r1 = (i1, w1) ->
  tensordot zero add mul i1 w1 (tshape r1) v2 1 = Ok r2 ->
  dense_to_sparse_tensor zero r2 = (i2, w2) ->
  tensordot zero add mul i2 w2 (tshape r2) v3 2 = Ok r3 ->
  r3 = core.
Proof. exact (fun A zero one add mul sub opp RT => Tensor_extra.core_products_main zero one add mul sub opp RT). Qed.
Print Assumptions core_is_three_products.

(** C33.  Contracting the result of [tensordot2] with the first factor gives the core. *)
Theorem core_from_tensordot2 :
  forall (A : Type) (zero one : A) (add mul sub : A -> A -> A) (opp : A -> A),
  ring_theory zero one add mul sub opp (@eq A) ->
  forall inds (vals : list A) shape u1 u2 u3 core r i j k,
  construct_core zero add mul inds vals u1 u2 u3 = Ok core ->
  c0 shape = mr u1 ->
  tensordot2 zero add mul inds vals shape u2 u3 1 2 = Ok r ->
  i < mc u1 -> j < mc u2 -> k < mc u3 ->
  tget zero core (i, j, k)
  = sumn zero add (mr u1) (fun x => mul (mget zero u1 x i) (tget zero r (x, j, k))).
Proof. exact (fun A zero one add mul sub opp RT => Tensor_dot.core_tensordot2_main zero one add mul sub opp RT). Qed.
Print Assumptions core_from_tensordot2.

(** C34.  [sparse_tensor_double_tensor]: no entries raise ZeroDivisionError; otherwise
    only the first [processed 10000 n] of the [n] entries are checked and used, and each
    row collects the projected Kronecker products of its entries. *)
Theorem double_tensor_chunks :
  forall (A : Type) (zero one : A) (add mul sub : A -> A -> A) (opp : A -> A),
  ring_theory zero one add mul sub opp (@eq A) ->
  forall is_one inds (vals : list A) shape q mode n a b u1 u2,
  modes mode n a b -> (forall v, is_one v = true -> v = one) ->
  let p := processed (Z.to_nat 10000) (length inds) in
  let fits := fun c => pick c n < pick shape n /\ pick c a < mr u1 /\ pick c b < mr u2 in
  let run := sparse_tensor_double_tensor zero add mul is_one inds vals shape q mode u1 u2 in
  (inds = [] -> run = Err ZeroDivisionError)
  /\ (inds <> [] ->
      ((exists m, run = Ok m) <-> mc u2 * mc u1 = mr q /\ p <= length vals /\ Forall fits (firstn p inds))
      /\ forall m, run = Ok m ->
           mwf m /\ mr m = pick shape n /\ mc m = mc q
           /\ forall r j, r < pick shape n -> j < mc q ->
                mget zero m r j
                = sum zero add
                    (map (fun e => mul (snd e) (kron_q zero add mul q u1 u2 (pick (fst e) a) (pick (fst e) b) j))
                         (filter (fun e => pick (fst e) n =? r) (firstn p (combine inds vals))))).
Proof.
  exact (fun A zero one add mul sub opp RT is_one inds vals shape q mode n a b u1 u2 M =>
    Tensor_project.double_tensor_main zero one add mul sub opp RT (Z.to_nat 10000) is_one inds vals shape q
      mode n a b u1 u2 M ltac:(lia)).
Qed.
Print Assumptions double_tensor_chunks.

(** C34.  All entries are used iff there are at most 10000 or a multiple of 10000. *)
Theorem double_tensor_complete_iff : forall n,
  processed (Z.to_nat 10000) n = n <-> n <= Z.to_nat 10000 \/ exists k, n = Z.to_nat 10000 * k.
Proof. exact (fun n => Tensor_extra.processed_all_iff (Z.to_nat 10000) n ltac:(lia)). Qed.
Print Assumptions double_tensor_complete_iff.

(** C34.  The older variant with a cache uses every entry. *)
Theorem double_tensor_old_contracts :
  forall (A : Type) (zero one : A) (add mul sub : A -> A -> A) (opp : A -> A),
  ring_theory zero one add mul sub opp (@eq A) ->
  forall inds (vals : list A) shape q mode n a b u1 u2 m,
  modes mode n a b ->
  sparse_tensor_double_tensor_old zero add mul inds vals shape q mode u1 u2 = Ok m ->
  mwf m /\ mr m = pick shape n /\ mc m = mc q /\ length inds <= length vals
  /\ Forall (fun c => pick c n < pick shape n /\ pick c a < mr u1 /\ pick c b < mr u2) inds
  /\ forall r j, r < pick shape n -> j < mc q ->
       mget zero m r j
       = sum zero add
           (map (fun e => mul (snd e) (kron_q zero add mul q u1 u2 (pick (fst e) a) (pick (fst e) b) j))
                (filter (fun e => pick (fst e) n =? r) (combine inds vals))).
Proof. exact (fun A zero one add mul sub opp RT => Tensor_project.double_tensor_old_main zero one add mul sub opp RT). Qed.
Print Assumptions double_tensor_old_contracts.

(** C34.  The chunked variant is the cached one on the truncated lists. *)
Theorem double_tensor_is_old_on_prefix :
  forall (A : Type) (zero one : A) (add mul sub : A -> A -> A) (opp : A -> A),
  ring_theory zero one add mul sub opp (@eq A) ->
  forall is_one inds (vals : list A) shape q mode u1 u2 m m',
  (forall v, is_one v = true -> v = one) -> length vals = length inds ->
  sparse_tensor_double_tensor zero add mul is_one inds vals shape q mode u1 u2 = Ok m ->
  let p := processed (Z.to_nat 10000) (length inds) in
  sparse_tensor_double_tensor_old zero add mul (firstn p inds) (firstn p vals) shape q mode u1 u2 = Ok m' ->
  m = m'.
Proof.
  exact (fun A zero one add mul sub opp RT is_one inds vals shape q mode u1 u2 m m' =>
    Tensor_extra.chunked_eq_cached_main zero one add mul sub opp RT (Z.to_nat 10000) is_one inds vals shape q
      mode u1 u2 m m' ltac:(lia)).
Qed.
Print Assumptions double_tensor_is_old_on_prefix.

(** C34.  The two variants differ: with 10001 entries the last one is lost. *)
Theorem double_tensor_tail_dropped_refuted :
  exists (inds : list coord) (vals : list Z) shape q u1 u2 m m',
    length inds = length vals
    /\ sparse_tensor_double_tensor 0%Z Z.add Z.mul (Z.eqb 1) inds vals shape q 0 u1 u2 = Ok m
    /\ sparse_tensor_double_tensor_old 0%Z Z.add Z.mul inds vals shape q 0 u1 u2 = Ok m'
    /\ mget 0%Z m 0 0 = 10000%Z /\ mget 0%Z m' 0 0 = 10001%Z.
Proof.
  exists (repeat (0, 0, 0) Tensor_extra.many), (repeat 1%Z Tensor_extra.many), (1, 1, 1),
    Tensor_extra.one11, Tensor_extra.one11, Tensor_extra.one11, (mkMat 1 1 [10000%Z]), (mkMat 1 1 [10001%Z]).
  split; [rewrite !repeat_length; reflexivity|].
  split; [exact (proj1 Tensor_extra.tail_dropped_main)|].
  split; [exact (proj2 Tensor_extra.tail_dropped_main)|]. split; reflexivity.
Qed.
Print Assumptions double_tensor_tail_dropped_refuted.

(** C35.  [get_tucker_element] is the Tucker formula. *)
Theorem tucker_element_formula :
  forall (A : Type) (zero one : A) (add mul sub : A -> A -> A) (opp : A -> A),
  ring_theory zero one add mul sub opp (@eq A) ->
  forall u1 u2 u3 core i j k,
  get_tucker_element zero add mul i j k u1 u2 u3 core = tucker zero add mul u1 u2 u3 core i j k.
Proof. exact (fun A zero one add mul sub opp RT => Tensor_project.tucker_element_main zero one add mul sub opp RT). Qed.
Print Assumptions tucker_element_formula.

(** C35.  The full reconstruction: every cell is overwritten with the Tucker formula,
    whatever the uninitialised buffer held; it reads out of bounds iff the core is
    smaller than the factors. *)
Theorem tucker_reconstruction :
  forall (A : Type) (zero one : A) (add mul sub : A -> A -> A) (opp : A -> A),
  ring_theory zero one add mul sub opp (@eq A) ->
  forall garbage u1 u2 u3 core t,
  length garbage = mr u1 * mr u2 * mr u3 ->
  construct_tensor_from_tucker zero add mul garbage u1 u2 u3 core = Ok t ->
  twf t /\ tshape t = (mr u1, mr u2, mr u3)
  /\ forall i j k, i < mr u1 -> j < mr u2 -> k < mr u3 ->
       tget zero t (i, j, k) = tucker zero add mul u1 u2 u3 core i j k
       /\ tget zero t (i, j, k) = get_tucker_element zero add mul i j k u1 u2 u3 core.
Proof.
  exact (fun A zero one add mul sub opp RT garbage u1 u2 u3 core t L H =>
    match Tensor_project.reconstruction_main zero one add mul sub opp RT garbage u1 u2 u3 core t L H with
    | conj W (conj E P) => conj W (conj E (fun i j k Hi Hj Hk =>
        conj (P i j k Hi Hj Hk)
             (eq_trans (P i j k Hi Hj Hk)
                (eq_sym (Tensor_project.tucker_element_main zero one add mul sub opp RT u1 u2 u3 core i j k)))))
    end).
Qed.
Print Assumptions tucker_reconstruction.

Theorem tucker_reconstruction_outcome :
  forall (A : Type) (zero : A) (add mul : A -> A -> A) garbage (u1 u2 u3 : mat A) core,
  ((exists t, construct_tensor_from_tucker zero add mul garbage u1 u2 u3 core = Ok t)
   <-> (core_covers core u1 u2 u3 = true \/ mr u1 = 0 \/ mr u2 = 0 \/ mr u3 = 0))
  /\ (core_covers core u1 u2 u3 = true
      <-> mc u1 = 0 \/ mc u2 = 0 \/ mc u3 = 0
          \/ (mc u1 <= c0 (tshape core) /\ mc u2 <= c1 (tshape core) /\ mc u3 <= c2 (tshape core))).
Proof.
  exact (fun A zero add mul garbage u1 u2 u3 core =>
    conj (proj1 (Tensor_project.reconstruction_outcome_main zero add mul garbage u1 u2 u3 core))
         (Tensor_project.core_covers_iff core u1 u2 u3)).
Qed.
Print Assumptions tucker_reconstruction_outcome.

(** C35.  The squared error sums over the listed entries only, one term per entry. *)
Theorem tucker_error :
  forall (A : Type) (zero one : A) (add mul sub : A -> A -> A) (opp : A -> A),
  ring_theory zero one add mul sub opp (@eq A) ->
  forall inds (vals : list A) u1 u2 u3 core,
  ((exists x, sq_err zero add mul sub inds vals u1 u2 u3 core = Ok x)
   <-> (length inds <= length vals /\ Forall (in_range (mr u1, mr u2, mr u3)) inds
        /\ (core_covers core u1 u2 u3 = true \/ inds = [])))
  /\ forall x, sq_err zero add mul sub inds vals u1 u2 u3 core = Ok x ->
     x = sum zero add
           (map (fun e => let d := sub (snd e) (tucker zero add mul u1 u2 u3 core (c0 (fst e)) (c1 (fst e)) (c2 (fst e)))
                          in mul d d) (combine inds vals)).
Proof.
  exact (fun A zero one add mul sub opp RT inds vals u1 u2 u3 core =>
    conj (Tensor_project.sq_err_outcome_main zero add mul sub inds vals u1 u2 u3 core)
         (fun x => Tensor_project.sq_err_main zero one add mul sub opp RT inds vals u1 u2 u3 core x)).
Qed.
Print Assumptions tucker_error.

(** ** Concrete cases *)

Definition demo_t : ten Z := mkTen (2, 3, 2) [1; 2; 3; 4; 5; 6; 7; 8; 9; 10; 11; 12]%Z.

Example demo_t_wf : twf demo_t.
Proof. reflexivity. Qed.

Example demo_unfold :
  unfold_dense 0%Z demo_t 1 = Ok (mkMat 3 4 [1; 7; 2; 8; 3; 9; 4; 10; 5; 11; 6; 12]%Z)
  /\ fold_dense 0%Z (mkMat 3 4 [1; 7; 2; 8; 3; 9; 4; 10; 5; 11; 6; 12]%Z) (2, 3, 2) 1 = Ok demo_t
  /\ unfold_dense 0%Z demo_t 0 = Ok (mkMat 2 6 [1; 3; 5; 2; 4; 6; 7; 9; 11; 8; 10; 12]%Z)
  /\ unfold_dense 0%Z demo_t 3 = Err ValueError
  /\ fold_dense 0%Z (mkMat 2 2 [1; 2; 3; 4]%Z) (2, 3, 2) 0 = Err ValueError.
Proof. repeat split; vm_compute; reflexivity. Qed.

(** A repeated coordinate: 2 + 5 in the sparse unfolding, 5 in the dense tensor. *)
Definition demo_inds : list coord := [(0, 1, 0); (1, 0, 1); (0, 1, 0); (1, 2, 1)].
Definition demo_vals : list Z := [2; 3; 5; 4]%Z.

Example demo_duplicates :
  Forall (in_range (2, 3, 2)) demo_inds
  /\ exists m t d, unfold_sparse demo_inds demo_vals (2, 3, 2) 2 = Ok m
       /\ sparse_to_dense_tensor 0%Z demo_inds demo_vals (2, 3, 2) = Ok t
       /\ unfold_dense 0%Z t 2 = Ok d
       /\ coo_cell 0%Z Z.add m 0 2 = 7%Z /\ mget 0%Z d 0 2 = 5%Z.
Proof.
  split; [repeat constructor|].
  exists (mkCoo 2 6 [((0, 2), 2%Z); ((1, 1), 3%Z); ((0, 2), 5%Z); ((1, 5), 4%Z)]),
    (mkTen (2, 3, 2) [0; 0; 5; 0; 0; 0; 0; 3; 0; 0; 0; 4]%Z),
    (mkMat 2 6 [0; 0; 5; 0; 0; 0; 0; 3; 0; 0; 0; 4]%Z).
  repeat split; vm_compute; reflexivity.
Qed.

Example demo_no_duplicates :
  exists m t d, NoDup (tl demo_inds)
    /\ unfold_sparse (tl demo_inds) (tl demo_vals) (2, 3, 2) 0 = Ok m
    /\ sparse_to_dense_tensor 0%Z (tl demo_inds) (tl demo_vals) (2, 3, 2) = Ok t
    /\ unfold_dense 0%Z t 0 = Ok d /\ mget 0%Z d 0 1 = 5%Z.
Proof.
  exists (mkCoo 2 6 [((1, 3), 3%Z); ((0, 1), 5%Z); ((1, 5), 4%Z)]),
    (mkTen (2, 3, 2) [0; 0; 5; 0; 0; 0; 0; 3; 0; 0; 0; 4]%Z),
    (mkMat 2 6 [0; 5; 0; 0; 0; 0; 0; 0; 0; 3; 0; 4]%Z).
  split; [repeat constructor; cbn; intuition discriminate|].
  repeat split; vm_compute; reflexivity.
Qed.

Definition demo_u1 : mat Z := mkMat 2 2 [1; 2; 0; 1]%Z.
Definition demo_u2 : mat Z := mkMat 3 1 [1; -1; 2]%Z.
Definition demo_u3 : mat Z := mkMat 2 2 [1; 0; 3; 1]%Z.
Definition demo_core : ten Z := mkTen (2, 1, 2) [-7; 0; 19; 11]%Z.

Example demo_construct_core :
  construct_core 0%Z Z.add Z.mul demo_inds demo_vals demo_u1 demo_u2 demo_u3 = Ok demo_core.
Proof. vm_compute. reflexivity. Qed.

(** Two threads of 8 additions each; they run interleaved, the second one first. *)
Definition demo_start : machine :=
  match core_parallel_start 0%Z Z.mul demo_inds demo_vals demo_u1 demo_u2 demo_u3 with
  | Ok m => m | Err _ => mkMachine demo_core [] end.
Definition demo_schedule : list nat :=
  [1; 0; 1; 1; 0; 0; 1; 0] ++ flat_map (fun _ => [1; 0]) (seq 0 14).

Example demo_parallel :
  core_parallel_start 0%Z Z.mul demo_inds demo_vals demo_u1 demo_u2 demo_u3 = Ok demo_start
  /\ finished (run 0%Z Z.add demo_schedule demo_start)
  /\ memory (run 0%Z Z.add demo_schedule demo_start) = demo_core
  /\ ~ finished (run 0%Z Z.add (firstn 20 demo_schedule) demo_start).
Proof.
  split; [vm_compute; reflexivity|]. split; [vm_compute; repeat constructor|].
  split; [vm_compute; reflexivity|]. vm_compute. intros H. inversion H. discriminate.
Qed.

(** The schedule matters for a machine in which two threads share a cell: the guarantee
    rests on every thread owning its slice. *)
Example shared_cell_races :
  let start := mkMachine (mkTen (1, 1, 1) [0%Z])
    [mkThread [((0, 0, 0), 1%Z)] None; mkThread [((0, 0, 0), 1%Z)] None] in
  memory (run 0%Z Z.add [0; 0; 1; 1] start) = mkTen (1, 1, 1) [2%Z]
  /\ memory (run 0%Z Z.add [0; 1; 0; 1] start) = mkTen (1, 1, 1) [1%Z].
Proof. split; vm_compute; reflexivity. Qed.

Definition demo_v1 : mat Z := mkMat 2 2 [1; 0; 2; 1]%Z.
Definition demo_v2 : mat Z := mkMat 1 3 [1; -1; 2]%Z.
Definition demo_v3 : mat Z := mkMat 2 2 [1; 3; 0; 1]%Z.

Example demo_products :
  is_transpose 0%Z demo_v1 demo_u1 /\ is_transpose 0%Z demo_v2 demo_u2 /\ is_transpose 0%Z demo_v3 demo_u3
  /\ exists r1 r2,
       tensordot 0%Z Z.add Z.mul demo_inds demo_vals (2, 3, 2) demo_v1 0 = Ok r1
       /\ (let s := dense_to_sparse_tensor 0%Z r1 in
           tensordot 0%Z Z.add Z.mul (fst s) (snd s) (tshape r1) demo_v2 1 = Ok r2)
       /\ (let s := dense_to_sparse_tensor 0%Z r2 in
           tensordot 0%Z Z.add Z.mul (fst s) (snd s) (tshape r2) demo_v3 2 = Ok demo_core).
Proof.
  repeat (split; [split; [reflexivity|split; [reflexivity|]]; cbn; intros [|[|[|x]]] [|[|[|y]]] Hx Hy; try lia; reflexivity|]).
  exists (mkTen (2, 3, 2) [0; 0; 7; 0; 0; 0; 0; 3; 14; 0; 0; 4]%Z), (mkTen (2, 1, 2) [-7; 0; -14; 11]%Z).
  repeat split; vm_compute; reflexivity.
Qed.

Example demo_tensordot2 :
  tensordot2 0%Z Z.add Z.mul demo_inds demo_vals (2, 3, 2) demo_u2 demo_u3 1 2
  = Ok (mkTen (2, 1, 2) [-7; 0; 33; 11]%Z)
  /\ tensordot2 0%Z Z.add Z.mul demo_inds demo_vals (2, 3, 2) demo_u2 demo_u3 1 1 = Err RuntimeError.
Proof. split; vm_compute; reflexivity. Qed.

Definition demo_q : mat Z := mkMat 2 1 [1; 2]%Z.
Example demo_double_tensor :
  sparse_tensor_double_tensor 0%Z Z.add Z.mul (Z.eqb 1) demo_inds demo_vals (2, 3, 2) demo_q 0 demo_u2 demo_u3
  = sparse_tensor_double_tensor_old 0%Z Z.add Z.mul demo_inds demo_vals (2, 3, 2) demo_q 0 demo_u2 demo_u3
  /\ sparse_tensor_double_tensor_old 0%Z Z.add Z.mul demo_inds demo_vals (2, 3, 2) demo_q 0 demo_u2 demo_u3
     = Ok (mkMat 2 1 [-7; 55]%Z)
  /\ sparse_tensor_double_tensor 0%Z Z.add Z.mul (Z.eqb 1) [] [] (2, 3, 2) demo_q 0 demo_u2 demo_u3
     = Err ZeroDivisionError.
Proof. repeat split; vm_compute; reflexivity. Qed.

Example demo_reconstruction :
  exists t, construct_tensor_from_tucker 0%Z Z.add Z.mul (repeat 99%Z 12) demo_u1 demo_u2 demo_u3 demo_core = Ok t
    /\ tget 0%Z t (1, 2, 1) = 136%Z
    /\ sq_err 0%Z Z.add Z.mul Z.sub [(1, 2, 1)] [140%Z] demo_u1 demo_u2 demo_u3 demo_core = Ok 16%Z
    /\ construct_tensor_from_tucker 0%Z Z.add Z.mul (repeat 99%Z 12) demo_u1 demo_u2 demo_u3
         (mkTen (1, 1, 2) [1; 1]%Z) = Err OutOfBounds.
Proof.
  exists (match construct_tensor_from_tucker 0%Z Z.add Z.mul (repeat 99%Z 12) demo_u1 demo_u2 demo_u3 demo_core with
          | Ok t => t | Err _ => demo_t end).
  repeat split; vm_compute; reflexivity.
Qed.
