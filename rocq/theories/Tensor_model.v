(** Model of source/tensor_operations.py: dense arrays as C-ordered buffers, sparse
    tensors as parallel lists of coordinates and values.  Arithmetic is an arbitrary
    type with arbitrary operations.  Simplifications: coordinates are natural numbers
    (negative ones would wrap around); a numba-compiled function whose input makes it
    access an array out of range has no defined result ([Err OutOfBounds]). *)
From Coq Require Import ZArith List Bool Lia.
From Verif Require Import Prelude.
Import ListNotations.
Open Scope nat_scope.

Definition coord : Type := nat * nat * nat.
Definition c0 (c : coord) : nat := fst (fst c).
Definition c1 (c : coord) : nat := snd (fst c).
Definition c2 (c : coord) : nat := snd c.

(** Component [c[mode]] of a triple (numpy indexing with mode 0, 1 or 2). *)
Definition pick (c : coord) (mode : nat) : nat :=
  match mode with O => c0 c | 1 => c1 c | _ => c2 c end.

(** C-ordered two- and three-dimensional arrays. *)
Record mat (A : Type) : Type := mkMat { mr : nat; mc : nat; mdat : list A }.
Arguments mkMat {A}. Arguments mr {A}. Arguments mc {A}. Arguments mdat {A}.
Record ten (A : Type) : Type := mkTen { tshape : coord; tdat : list A }.
Arguments mkTen {A}. Arguments tshape {A}. Arguments tdat {A}.

(** [for i in range(n): body]. *)
Definition for_ {S} (n : nat) (body : nat -> S -> S) (s : S) : S :=
  fold_left (fun s i => body i s) (seq 0 n) s.
(** [for x in l: body]. *)
Definition foreach {S X} (l : list X) (body : X -> S -> S) (s : S) : S :=
  fold_left (fun s x => body x s) l s.

(** [modes = np.arange(3); mode_a, mode_b = modes[modes != mode]]
    (tensor_operations.py:28-29, 44-45, 57-58, 264-265, 311-312): the unpacking
    raises ValueError when three modes are left. *)
Definition other_modes (mode : Z) : res (nat * nat) :=
  match filter (fun m => negb (Z.of_nat m =? mode)%Z) [0; 1; 2] with
  | [a; b] => Ok (a, b)
  | _ => Err ValueError
  end.

Section Arrays.
  Context {A : Type} (zero : A).

  (** Position of a cell in the buffer of an array with the given shape. *)
  Definition offset (shape c : coord) : nat := (c0 c * c1 shape + c1 c) * c2 shape + c2 c.

  Definition size (shape : coord) : nat := c0 shape * c1 shape * c2 shape.

  (** [m[i, j]] and [t[i, j, k]] for indices in range. *)
  Definition mget (m : mat A) (i j : nat) : A := nth (i * mc m + j) (mdat m) zero.
  Definition tget (t : ten A) (c : coord) : A := nth (offset (tshape t) c) (tdat t) zero.

  (** [t[i, j, k] = v]. *)
  Definition tset (t : ten A) (c : coord) (v : A) : ten A :=
    mkTen (tshape t) (set_nth (offset (tshape t) c) v (tdat t)).
  Definition mset (m : mat A) (i j : nat) (v : A) : mat A :=
    mkMat (mr m) (mc m) (set_nth (i * mc m + j) v (mdat m)).

  (** [np.zeros(shape)]. *)
  Definition zeros3 (shape : coord) : ten A := mkTen shape (repeat zero (size shape)).
  Definition zeros2 (r c : nat) : mat A := mkMat r c (repeat zero (r * c)).

  (** All cells of a shape in C order. *)
  Definition cells (shape : coord) : list coord :=
    flat_map (fun i => flat_map (fun j => map (fun k => (i, j, k)) (seq 0 (c2 shape)))
                                (seq 0 (c1 shape)))
             (seq 0 (c0 shape)).

  (** [t.transpose(axes)]: axis [n] of the result is axis [axes[n]] of the source. *)
  Definition source_axis (axes c : coord) (a : nat) : nat :=
    if c0 axes =? a then c0 c else if c1 axes =? a then c1 c else c2 c.
  Definition transpose3 (axes : coord) (t : ten A) : ten A :=
    let shape := (pick (tshape t) (c0 axes), pick (tshape t) (c1 axes), pick (tshape t) (c2 axes)) in
    mkTen shape
      (map (fun c => tget t (source_axis axes c 0, source_axis axes c 1, source_axis axes c 2))
           (cells shape)).

  (** [a.reshape(...)]: the same C-ordered buffer with another shape; ValueError if
      the sizes differ. *)
  Definition reshape32 (t : ten A) (r c : nat) : res (mat A) :=
    if size (tshape t) =? r * c then Ok (mkMat r c (tdat t)) else Err ValueError.
  Definition reshape23 (m : mat A) (shape : coord) : res (ten A) :=
    if mr m * mc m =? size shape then Ok (mkTen shape (mdat m)) else Err ValueError.

  (** tensor_operations.py:37-47 [unfold_dense]. *)
  Definition unfold_dense (t : ten A) (mode : Z) : res (mat A) :=
    do ' (a, b) <- other_modes mode;
    let n := Z.to_nat mode in
    reshape32 (transpose3 (n, b, a) t) (pick (tshape t) n) (pick (tshape t) a * pick (tshape t) b).

  (** tensor_operations.py:49-60 [fold_dense]. *)
  Definition fold_dense (m : mat A) (shape : coord) (mode : Z) : res (ten A) :=
    do ' (a, b) <- other_modes mode;
    let n := Z.to_nat mode in
    let axes := if (mode =? 1)%Z then (b, a, n) else (n, b, a) in
    do t <- reshape23 m (pick shape n, pick shape b, pick shape a);
    Ok (transpose3 axes t).

  (** [scipy.sparse.coo_matrix]: entries (row, column, value) and a shape. *)
  Record coo : Type := mkCoo { coo_r : nat; coo_c : nat; coo_entries : list (nat * nat * A) }.

  (** tensor_operations.py:12-35 [unfold_sparse]; the constructor of coo_matrix raises
      ValueError when a row or column index exceeds the shape. *)
  Definition unfold_sparse (inds : list coord) (vals : list A) (shape : coord) (mode : Z) : res coo :=
    if negb (length inds =? length vals) then Err RuntimeError
    else if ((3 <=? mode) || (mode <? 0))%Z then Err RuntimeError
    else
      do ' (a, b) <- other_modes mode;
      let n := Z.to_nat mode in
      let rows := map (fun c => pick c n) inds in
      let cols := map (fun c => pick c a + pick shape a * pick c b) inds in
      let r := pick shape n in
      let c := pick shape a * pick shape b in
      if forallb (fun x => x <? r) rows && forallb (fun x => x <? c) cols
      then Ok (mkCoo r c (combine (combine rows cols) vals))
      else Err ValueError.

  (** tensor_operations.py:372-381 [dense_to_sparse_tensor]. *)
  Definition dense_to_sparse_tensor (t : ten A) : list coord * list A :=
    for_ (c0 (tshape t)) (fun i =>
      for_ (c1 (tshape t)) (fun j =>
        for_ (c2 (tshape t)) (fun k s =>
          (fst s ++ [(i, j, k)], snd s ++ [tget t (i, j, k)])))) ([], []).

  (** Coordinates of the entries visited by [for i in range(len(vals))] with the
      values; [None] if [inds] is shorter. *)
  Definition zip_entries (inds : list coord) (vals : list A) : option (list (coord * A)) :=
    if length vals <=? length inds then Some (combine inds vals) else None.

  Definition in_shape (shape c : coord) : bool :=
    (c0 c <? c0 shape) && (c1 c <? c1 shape) && (c2 c <? c2 shape).

  (** tensor_operations.py:384-389 [sparse_to_dense_tensor]. *)
  Definition sparse_to_dense_tensor (inds : list coord) (vals : list A) (shape : coord) : res (ten A) :=
    match zip_entries inds vals with
    | Some es =>
      if forallb (fun e => in_shape shape (fst e)) es
      then Ok (foreach es (fun e t => tset t (fst e) (snd e)) (zeros3 shape))
      else Err OutOfBounds
    | None => Err OutOfBounds
    end.
End Arrays.
Arguments mkCoo {A}. Arguments coo_r {A}. Arguments coo_c {A}. Arguments coo_entries {A}.

Section Ops.
  Context {A : Type} (zero : A) (add mul : A -> A -> A).

  (** [t[c] += x] and [m[i, j] += x]. *)
  Definition tadd (t : ten A) (c : coord) (x : A) : ten A := tset t c (add (tget zero t c) x).
  Definition madd (m : mat A) (i j : nat) (x : A) : mat A := mset m i j (add (mget zero m i j) x).

  (** The entries a compiled loop reads, if all its accesses [u[index]] are in range. *)
  Definition entries_in (inds : list coord) (vals : list A) (shape : coord) : res (list (coord * A)) :=
    match zip_entries inds vals with
    | Some es => if forallb (fun e => in_shape shape (fst e)) es then Ok es else Err OutOfBounds
    | None => Err OutOfBounds
    end.

  (** tensor_operations.py:63-95 [construct_core]. *)
  Definition construct_core (inds : list coord) (vals : list A) (u1 u2 u3 : mat A) : res (ten A) :=
    do es <- entries_in inds vals (mr u1, mr u2, mr u3);
    Ok (foreach es (fun e =>
          for_ (mc u1) (fun i =>
            let x := mul (snd e) (mget zero u1 (c0 (fst e)) i) in
            for_ (mc u2) (fun j =>
              let y := mul x (mget zero u2 (c1 (fst e)) j) in
              for_ (mc u3) (fun k core => tadd core (i, j, k) (mul y (mget zero u3 (c2 (fst e)) k))))))
          (zeros3 zero (mc u1, mc u2, mc u3))).

  (** One iteration [i] of the prange loop of construct_core_parallel
      (tensor_operations.py:115-129): the sequence of its [core[i, j, k] += x]. *)
  Definition core_iteration (es : list (coord * A)) (u1 u2 u3 : mat A) (i : nat) : list (coord * A) :=
    flat_map (fun e =>
      let x := mul (snd e) (mget zero u1 (c0 (fst e)) i) in
      flat_map (fun j =>
        let y := mul x (mget zero u2 (c1 (fst e)) j) in
        map (fun k => ((i, j, k), mul y (mget zero u3 (c2 (fst e)) k))) (seq 0 (mc u3)))
        (seq 0 (mc u2))) es.

  (** The same for construct_core_parallel_dense (tensor_operations.py:150-162). *)
  Definition dense_iteration (t : ten A) (u1 u2 u3 : mat A) (i : nat) : list (coord * A) :=
    flat_map (fun i1 => flat_map (fun i2 => flat_map (fun i3 =>
      let x := mul (tget zero t (i1, i2, i3)) (mget zero u1 i1 i) in
      flat_map (fun j =>
        let y := mul x (mget zero u2 i2 j) in
        map (fun k => ((i, j, k), mul y (mget zero u3 i3 k))) (seq 0 (mc u3)))
        (seq 0 (mc u2)))
      (seq 0 (c2 (tshape t)))) (seq 0 (c1 (tshape t)))) (seq 0 (c0 (tshape t))).

  (** Parallel execution of a prange loop (njit(parallel=True)).  Every iteration is
      a thread; [x += v] is a load into a private register followed by a store; the
      schedule picks the thread that makes the next step. *)
  Record thread : Type := mkThread { todo : list (coord * A); loaded : option A }.
  Record machine : Type := mkMachine { memory : ten A; threads : list thread }.

  Definition step (m : machine) (i : nat) : machine :=
    match nth_error (threads m) i with
    | Some (mkThread ((c, x) :: r) None) =>
      mkMachine (memory m)
        (set_nth i (mkThread ((c, x) :: r) (Some (tget zero (memory m) c))) (threads m))
    | Some (mkThread ((c, x) :: r) (Some v)) =>
      mkMachine (tset (memory m) c (add v x)) (set_nth i (mkThread r None) (threads m))
    | _ => m
    end.

  Definition run (schedule : list nat) (m : machine) : machine := fold_left step schedule m.

  Definition finished (m : machine) : Prop := Forall (fun t => todo t = []) (threads m).

  (** tensor_operations.py:98-130 [construct_core_parallel] up to the start of the
      parallel loop. *)
  Definition core_parallel_start (inds : list coord) (vals : list A) (u1 u2 u3 : mat A) : res machine :=
    do es <- entries_in inds vals (mr u1, mr u2, mr u3);
    Ok (mkMachine (zeros3 zero (mc u1, mc u2, mc u3))
          (map (fun i => mkThread (core_iteration es u1 u2 u3 i) None) (seq 0 (mc u1)))).

  (** tensor_operations.py:133-163 [construct_core_parallel_dense], likewise. *)
  Definition core_parallel_dense_start (t : ten A) (u1 u2 u3 : mat A) : res machine :=
    if (c0 (tshape t) <=? mr u1) && (c1 (tshape t) <=? mr u2) && (c2 (tshape t) <=? mr u3)
    then Ok (mkMachine (zeros3 zero (mc u1, mc u2, mc u3))
               (map (fun i => mkThread (dense_iteration t u1 u2 u3 i) None) (seq 0 (mc u1))))
    else Err OutOfBounds.

  (** tensor_operations.py:166-189 [_double_tensordot] on entries in range. *)
  Definition double_tensordot (es : list (coord * A)) (u v : mat A) (m0 m1 m2 : nat) (t : ten A) : ten A :=
    foreach es (fun e =>
      for_ (mc u) (fun j =>
        let x := mul (snd e) (mget zero u (pick (fst e) m1) j) in
        for_ (mc v) (fun k t =>
          tadd t (pick (fst e) m0, j, k) (mul x (mget zero v (pick (fst e) m2) k))))) t.

  (** tensor_operations.py:191-219 [tensordot2]. *)
  Definition tensordot2 (inds : list coord) (vals : list A) (shape : coord) (u v : mat A)
             (mode1 mode2 : Z) : res (ten A) :=
    let valid := fun m => ((m =? 0) || (m =? 1) || (m =? 2))%Z in
    if negb (valid mode1) then Err RuntimeError
    else if negb (valid mode2) then Err RuntimeError
    else if (mode1 =? mode2)%Z then Err RuntimeError
    else
      let m0 := Z.to_nat (3 - (mode1 + mode2)) in
      let m1 := Z.to_nat mode1 in
      let m2 := Z.to_nat mode2 in
      match zip_entries inds vals with
      | Some es =>
        if forallb (fun e => (pick (fst e) m0 <? pick shape m0) && (pick (fst e) m1 <? mr u)
                             && (pick (fst e) m2 <? mr v)) es
        then Ok (double_tensordot es u v m0 m1 m2 (zeros3 zero (pick shape m0, mc u, mc v)))
        else Err OutOfBounds
      | None => Err OutOfBounds
      end.

  (** The triple with component [mode] replaced. *)
  Definition with_mode (c : coord) (mode x : nat) : coord :=
    match mode with
    | O => (x, c1 c, c2 c)
    | 1 => (c0 c, x, c2 c)
    | _ => (c0 c, c1 c, x)
    end.

  (** tensor_operations.py:222-253 [tensordot]; for another mode the shape is an
      undefined variable of compiled code. *)
  Definition tensordot (inds : list coord) (vals : list A) (shape : coord) (u : mat A) (mode : Z)
    : res (ten A) :=
    if ((mode =? 0) || (mode =? 1) || (mode =? 2))%Z then
      let n := Z.to_nat mode in
      match zip_entries inds vals with
      | Some es =>
        if (mr u =? 0) || forallb (fun e => in_shape (with_mode shape n (mc u)) (fst e)) es
        then Ok (for_ (mr u) (fun j => foreach es (fun e t =>
                   tadd t (with_mode (fst e) n j) (mul (snd e) (mget zero u j (pick (fst e) n)))))
                   (zeros3 zero (with_mode shape n (mr u))))
        else Err OutOfBounds
      | None => if mr u =? 0 then Ok (zeros3 zero (with_mode shape n (mr u))) else Err OutOfBounds
      end
    else Err OutOfBounds.

  (** Sum in index order, starting from zero ([np.dot] of two vectors). *)
  Definition sum_upto (n : nat) (f : nat -> A) : A := for_ n (fun i s => add s (f i)) zero.

  (** tensor_operations.py:291-299 [kron_vec_jit]. *)
  Definition kron_vec (a b : list A) : list A := flat_map (fun x => map (mul x) b) a.

  (** Row [i] of a matrix. *)
  Definition mrow (m : mat A) (i : nat) : list A := map (mget zero m i) (seq 0 (mc m)).

  (** [q.T.dot(v)], ValueError when the sizes differ. *)
  Definition project (q : mat A) (v : list A) : list A :=
    map (fun c => sum_upto (mr q) (fun k => mul (mget zero q k c) (nth k v zero))) (seq 0 (mc q)).

  (** [result[r] += f(vec)] for one row. *)
  Definition add_row (m : mat A) (r : nat) (vec : list A) : mat A :=
    for_ (mc m) (fun c m => madd m r c (nth c vec zero)) m.

  (** Constants of tensor_operations.py:270. *)
  Definition max_points : nat := Z.to_nat 10000.

  (** tensor_operations.py:255-288 [sparse_tensor_double_tensor]; [is_one] is the
      test [val == 1.0]; [cap] is the constant 10000.  khatri_rao of the gathered rows
      is the Kronecker product of the rows, column by column. *)
  Definition sparse_tensor_double_tensor_cap (cap : nat) (is_one : A -> bool) (inds : list coord)
             (vals : list A) (shape : coord) (q : mat A) (mode : Z) (u1 u2 : mat A) : res (mat A) :=
    do ' (a, b) <- other_modes mode;
    let md := Z.to_nat mode in
    let result := zeros2 zero (pick shape md) (mc q) in
    let n := length inds in
    let per_step := Nat.min cap n in
    if per_step =? 0 then Err ZeroDivisionError
    else
      fold_left (fun acc stp =>
        do result <- acc;
        let st := stp * per_step in
        let chunk := firstn per_step (skipn st inds) in
        if negb (forallb (fun c => (pick c a <? mr u1) && (pick c b <? mr u2)) chunk) then Err IndexError
        else if negb (mc u2 * mc u1 =? mr q) then Err ValueError
        else
          let vec_all := map (fun c => project q (kron_vec (mrow u2 (pick c b)) (mrow u1 (pick c a)))) chunk in
          fold_left (fun acc li =>
            do result <- acc;
            let c := nth (st + li) inds (0, 0, 0) in
            match nth_error vals (st + li) with
            | None => Err IndexError
            | Some v =>
              if negb (pick c md <? pick shape md) then Err IndexError
              else
                let vec := nth li vec_all [] in
                Ok (add_row result (pick c md) (if is_one v then vec else map (mul v) vec))
            end) (seq 0 per_step) (Ok result))
        (seq 0 (n / per_step)) (Ok result).
  Definition sparse_tensor_double_tensor := sparse_tensor_double_tensor_cap max_points.

  (** tensor_operations.py:302-329 [sparse_tensor_double_tensor_old]; the cache of
      projected vectors is read and filled as in the code. *)
  Definition pair_eqb (x y : nat * nat) : bool := (fst x =? fst y) && (snd x =? snd y).
  Definition cache_get (k : nat * nat) (cache : list ((nat * nat) * list A)) : option (list A) :=
    option_map snd (find (fun kv => pair_eqb (fst kv) k) cache).
  Definition sparse_tensor_double_tensor_old (inds : list coord) (vals : list A) (shape : coord)
             (q : mat A) (mode : Z) (u1 u2 : mat A) : res (mat A) :=
    do ' (a, b) <- other_modes mode;
    let md := Z.to_nat mode in
    if (length inds <=? length vals)
       && forallb (fun c => (pick c a <? mr u1) && (pick c b <? mr u2) && (pick c md <? pick shape md)) inds
    then
      if negb (mc u2 * mc u1 =? mr q) && negb (length inds =? 0) then Err ValueError
      else
        Ok (fst (foreach (combine inds vals) (fun e s =>
              let i1 := pick (fst e) a in
              let i2 := pick (fst e) b in
              let cache := match cache_get (i2, i1) (snd s) with
                           | Some _ => snd s
                           | None => ((i2, i1), project q (kron_vec (mrow u2 i2) (mrow u1 i1))) :: snd s
                           end in
              let vec := match cache_get (i2, i1) cache with Some w => w | None => [] end in
              (add_row (fst s) (pick (fst e) md) (map (mul (snd e)) vec), cache))
              (zeros2 zero (pick shape md) (mc q), [])))
    else Err OutOfBounds.

  (** tensor_operations.py:333-354 [get_tucker_element] for indices in range. *)
  Definition get_tucker_element (i j k : nat) (u1 u2 u3 : mat A) (core : ten A) : A :=
    for_ (mc u1) (fun i1 =>
      let x := mget zero u1 i i1 in
      for_ (mc u2) (fun i2 =>
        let y := mul x (mget zero u2 j i2) in
        for_ (mc u3) (fun i3 r =>
          add r (mul (mul (tget zero core (i1, i2, i3)) y) (mget zero u3 k i3))))) zero.

  (** The core is accessed at (i1, i2, i3) below the factors' column counts. *)
  Definition core_covers (core : ten A) (u1 u2 u3 : mat A) : bool :=
    (mc u1 * mc u2 * mc u3 =? 0)
    || ((mc u1 <=? c0 (tshape core)) && (mc u2 <=? c1 (tshape core)) && (mc u3 <=? c2 (tshape core))).

  (** tensor_operations.py:357-369 [construct_tensor_from_tucker]; [garbage] is the
      content of the buffer returned by np.empty. *)
  Definition construct_tensor_from_tucker (garbage : list A) (u1 u2 u3 : mat A) (core : ten A)
    : res (ten A) :=
    if core_covers core u1 u2 u3 || (mr u1 * mr u2 * mr u3 =? 0) then
      let shape := (mr u1, mr u2, mr u3) in
      Ok (for_ (mr u1) (fun i => for_ (mr u2) (fun j => for_ (mr u3) (fun k t =>
            tset t (i, j, k) (get_tucker_element i j k u1 u2 u3 core))))
            (mkTen shape garbage))
    else Err OutOfBounds.

  (** tensor_operations.py:405-414: the sum below the square root of [_sqrt_err]. *)
  Definition sq_err (sub : A -> A -> A) (inds : list coord) (vals : list A) (u1 u2 u3 : mat A)
             (core : ten A) : res A :=
    if (length inds <=? length vals) && forallb (in_shape (mr u1, mr u2, mr u3)) inds
       && (core_covers core u1 u2 u3 || (length inds =? 0))
    then Ok (foreach (combine inds vals) (fun e s =>
               let d := sub (snd e) (get_tucker_element (c0 (fst e)) (c1 (fst e)) (c2 (fst e)) u1 u2 u3 core) in
               add s (mul d d)) zero)
    else Err OutOfBounds.
End Ops.
Arguments mkThread {A}. Arguments todo {A}. Arguments loaded {A}.
Arguments mkMachine {A}. Arguments memory {A}. Arguments threads {A}.
