(** Shared vocabulary of the model: Python exceptions as values, insertion
    ordered dictionaries, and the small pandas/numpy list operations that
    several modules of /repo use.  Every model file imports this one. *)
From Coq Require Import ZArith List Bool Lia.
Import ListNotations.
Open Scope Z_scope.

(** Python exceptions that the modelled code can raise.  [OutOfBounds] is an
    unchecked out-of-range access in numba-compiled code (no defined result);
    [OutOfFuel] marks an exhausted loop bound of the model itself. *)
Inductive exn : Type :=
| KeyError | ValueError | IndexError | ZeroDivisionError
| RuntimeError | NotImplementedError | AttributeError | TypeError
| LinAlgError | UnboundLocalError | OutOfBounds | OutOfFuel.

(** A Python computation either returns a value or raises. *)
Inductive res (A : Type) : Type :=
| Ok (a : A)
| Err (e : exn).
Arguments Ok {A} a.
Arguments Err {A} e.

Definition bind {A B} (x : res A) (f : A -> res B) : res B :=
  match x with Ok a => f a | Err e => Err e end.
Notation "'do' x <- e ; f" := (bind e (fun x => f))
  (at level 200, x name, e at level 100, f at level 200).
Notation "'do' ' p <- e ; f" := (bind e (fun x => match x with p => f end))
  (at level 200, p pattern, e at level 100, f at level 200).

(** [Series.apply] / list comprehension with a body that may raise: stops at
    the first exception. *)
Fixpoint mapM {A B} (f : A -> res B) (l : list A) : res (list B) :=
  match l with
  | [] => Ok []
  | x :: r => do y <- f x; do ys <- mapM f r; Ok (y :: ys)
  end.

(** Python [dict] with integer keys: association list in insertion order;
    assigning an existing key overwrites in place. *)
Definition dict (V : Type) := list (Z * V).

Fixpoint dget {V} (k : Z) (d : dict V) : option V :=
  match d with
  | [] => None
  | (k', v) :: r => if k =? k' then Some v else dget k r
  end.

Fixpoint dset {V} (k : Z) (v : V) (d : dict V) : dict V :=
  match d with
  | [] => [(k, v)]
  | (k', v') :: r => if k =? k' then (k', v) :: r else (k', v') :: dset k v r
  end.

Definition dmem {V} (k : Z) (d : dict V) : bool :=
  match dget k d with Some _ => true | None => false end.

Definition dkeys {V} (d : dict V) : list Z := map fst d.

(** [dict] comprehension / [d.update(items)]: left-to-right assignments. *)
Definition dupdate {V} (d : dict V) (items : list (Z * V)) : dict V :=
  fold_left (fun acc kv => dset (fst kv) (snd kv) acc) items d.

(** [enumerate(values, start)]. *)
Fixpoint enumerate {A} (start : Z) (l : list A) : list (Z * A) :=
  match l with
  | [] => []
  | x :: r => (start, x) :: enumerate (start + 1) r
  end.

(** Membership of an integer in a list ([x in set], [np.isin]). *)
Definition memZ (x : Z) (l : list Z) : bool := existsb (Z.eqb x) l.

(** [Series.unique()]: distinct values in order of first appearance. *)
Fixpoint unique (l : list Z) : list Z :=
  match l with
  | [] => []
  | x :: r => x :: filter (fun y => negb (y =? x)) (unique r)
  end.

(** Stable sort by a boolean "less or equal" test (insertion sort); pandas
    multi-key [sort_values] and Python [sorted] are stable. *)
Section Sort.
  Context {A : Type} (leb : A -> A -> bool).
  Fixpoint insert_sorted (x : A) (l : list A) : list A :=
    match l with
    | [] => [x]
    | y :: r => if leb x y then x :: y :: r else y :: insert_sorted x r
    end.
  Fixpoint sort_stable (l : list A) : list A :=
    match l with
    | [] => []
    | x :: r => insert_sorted x (sort_stable r)
    end.
End Sort.

(** [np.unique]: sorted distinct values. *)
Definition np_unique (l : list Z) : list Z := sort_stable Z.leb (unique l).

(** The last [n] elements of a list. *)
Definition lastn {A} (n : nat) (l : list A) : list A := skipn (length l - n) l.

(** [range(n)] as a list of Python integers. *)
Definition zrange (n : nat) : list Z := map Z.of_nat (seq 0 n).

(** Boolean mask indexing [a[mask]]. *)
Fixpoint select {A} (mask : list bool) (l : list A) : list A :=
  match mask, l with
  | true :: m, x :: r => x :: select m r
  | false :: m, _ :: r => select m r
  | _, _ => []
  end.

(** In-place assignment [a[i] = v] for a valid index. *)
Fixpoint set_nth {A} (i : nat) (v : A) (l : list A) : list A :=
  match l, i with
  | [], _ => []
  | _ :: r, O => v :: r
  | x :: r, S j => x :: set_nth j v r
  end.
