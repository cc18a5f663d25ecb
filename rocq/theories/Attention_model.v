(** Model of the attention matrix and of the scoring of sequential models,
    source/models/tdrec.py.  Arithmetic is an arbitrary type with arbitrary operations;
    arrays are those of Tensor_model.  Simplification: [inv] is any function. *)
From Coq Require Import ZArith List Bool Lia.
From Verif Require Import Prelude DataPrep_model History_model Tirec_model Tensor_model Matrix_model.
Import ListNotations.
Open Scope nat_scope.

Section Attention.
  Context {A : Type} (zero one : A) (add mul : A -> A -> A).

  (** [data_arr[j, k:k+n] = d[:n]] inside scipy.sparse.diags: numpy stretches a single
      value, and raises ValueError when [d] is too short. *)
  Definition stretch (n : nat) (d : list A) : res (list A) :=
    if n <=? length d then Ok (firstn n d)
    else match d with [x] => Ok (repeat x n) | _ => Err ValueError end.

  (** A list without repetition. *)
  Fixpoint distinct (l : list Z) : bool :=
    match l with [] => true | x :: r => negb (memZ x r) && distinct r end.

  (** [scipy.sparse.diags(ds, offs).A] without a shape: the size is read off the first
      diagonal; the value of column j of a diagonal with offset o is at j - max(0, o). *)
  Definition diags (ds : list (list A)) (offs : list Z) : res (mat A) :=
    if length ds =? length offs then
      match ds, offs with
      | d0 :: _, o0 :: _ =>
        let m := (Z.of_nat (length d0) + Z.abs o0)%Z in
        do filled <- mapM (fun p =>
          let len := Z.min (m + snd p) (m - snd p) in
          if (len <? 0)%Z then Err ValueError else stretch (Z.to_nat len) (fst p)) (combine ds offs);
        if distinct offs then
          Ok (build (Z.to_nat m) (Z.to_nat m) (fun i j =>
                match find (fun p => (snd p =? Z.of_nat j - Z.of_nat i)%Z) (combine filled offs) with
                | Some p => nth (Z.to_nat (Z.of_nat j - Z.max 0 (snd p))) (fst p) zero
                | None => zero
                end))
        else Err ValueError
      | _, _ => Err IndexError
      end
    else Err ValueError.

  (** tdrec.py:21-45 [get_global_attention]; [decay i] is 1 / i**power. *)
  Definition get_global_attention (decay : nat -> A) (size : nat) : res (mat A) :=
    let diag_list := map (fun i => repeat (decay i) (size - i + 1)) (seq 1 size) in
    let offsets := map (fun i => (- Z.of_nat i)%Z) (seq 0 size) in
    diags diag_list offsets.

  (** [np.eye(n)] and [m.T]. *)
  Definition eye (n : nat) : mat A := build n n (fun i j => if i =? j then one else zero).
  Definition transpose (m : mat A) : mat A := build (mc m) (mr m) (fun i j => mget zero m j i).

  (** [m.dot(x)] for a vector. *)
  Definition matvec (m : mat A) (x : list A) : res (list A) :=
    if mc m =? length x
    then Ok (map (fun i => sum_upto zero add (mc m) (fun k => mul (mget zero m i k) (nth k x zero))) (seq 0 (mr m)))
    else Err ValueError.

  (** [m[-1]]. *)
  Definition last_row (m : mat A) : res (list A) :=
    if mr m =? 0 then Err IndexError else Ok (map (mget zero m (mr m - 1)) (seq 0 (mc m))).

  (** tdrec.py:149-156: the attention matrix and its inverse; [att_f] absent gives the
      identity twice. *)
  Definition attention_pair (inv : mat A -> res (mat A)) (att : option (nat -> A)) (seq_len : nat)
    : res (mat A * mat A) :=
    match att with
    | None => Ok (eye seq_len, eye seq_len)
    | Some decay =>
      do a <- get_global_attention decay seq_len;
      do b <- inv a;
      Ok (a, b)
    end.

  (** tdrec.py:218-219 (also tirec.py:312-313, tirec_accelerated.py:384-385,
      tdrec_reinit.py:168-169): [aw] and [last_pos_emb]. *)
  Definition position_embeddings (a ainv w : mat A) : res (mat A * list A) :=
    do aw <- dot zero add mul a w;
    do x <- dot zero add mul (transpose ainv) w;
    do l <- last_row x;
    Ok (aw, l).

  (** numpy integer indexing [m[idx]] and [x[idx]]: negative indices wrap around, an
      index out of range or an empty (hence float) index array is an IndexError. *)
  Definition norm_index (n : nat) (i : Z) : res nat :=
    if ((0 <=? i) && (i <? Z.of_nat n))%Z then Ok (Z.to_nat i)
    else if ((- Z.of_nat n <=? i) && (i <? 0))%Z then Ok (Z.to_nat (i + Z.of_nat n))
    else Err IndexError.
  Definition indices (n : nat) (idx : list Z) : res (list nat) :=
    match idx with [] => Err IndexError | _ => mapM (norm_index n) idx end.
  Definition take_rows (m : mat A) (idx : list Z) : res (mat A) :=
    do is <- indices (mr m) idx;
    Ok (build (length is) (mc m) (fun t k => mget zero m (nth t is 0) k)).
  Definition take_vec (x : list A) (idx : list Z) : res (list A) :=
    do is <- indices (length x) idx;
    Ok (map (fun i => nth i x zero) is).

  (** tdrec.py:252-264 [_recommend_user]. *)
  Definition user_scores (seqs : seq_history) (v w aw : mat A) (last_pos_emb : list A) (u : Z)
    : res (list A) :=
    match dget u seqs with
    | None => Err KeyError
    | Some d =>
      let user_seq := filter (fun x => negb (x =? PAD_VALUE)%Z) (dq_items d) in
      let pi := get_pos_items_arrays user_seq (Z.of_nat (mr w)) in
      do w' <- matvec aw last_pos_emb;
      do vi <- take_rows v (map snd pi);
      do wp <- take_vec w' (map fst pi);
      do p <- matvec (transpose vi) wp;
      matvec v p
    end.
End Attention.
