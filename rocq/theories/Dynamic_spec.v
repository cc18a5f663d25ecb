(** Independent vocabulary for the dynamic experiment. *)
From Coq Require Import ZArith QArith List Bool.
From Verif Require Import Prelude DataPrep_model Eval_model Tensor_model Matrix_model LinAlg_model Dynamic_model.
Import ListNotations.
Open Scope Z_scope.

(** Number of processed chunks out of [n]. *)
Definition n_steps (how_many : Z) (n : nat) : nat :=
  if 0 <? how_many then Nat.min (Z.to_nat how_many) n else n.

Section Trace.
  Context {S D A V T : Type} (zero : A) (sub : A -> A -> A).
  Variable norm : mat A -> V.
  Variable div : V -> V -> V.
  Variable minus_one : V.
  Variable clock : nat -> T.
  Variable m : api S D A.
  Variable grow : D -> list row -> res D.
  Variable test_users : list Z.
  Variable chunk_mode : bool.

  (** Change of embeddings between two steps: [n / d] where [d] is the norm of the
      difference, the older rows padded with zeros, and [n] that of (difference - new). *)
  Definition user_change (old new : mat A) (x : V) : Prop :=
    exists old' diff rest, pad_rows zero old new = Ok old' /\ msub zero sub new old' = Ok diff /\
      msub zero sub diff new = Ok rest /\ x = div (norm rest) (norm diff).
  (** For items fewer rows than before count as -1, except between the first two steps. *)
  Definition item_change (t : nat) (old new : mat A) (y : V) : Prop :=
    if (0 <? t)%nat && (mr new <? mr old)%nat then y = minus_one
    else user_change old new y.

  (** A history of the experiment: before chunk [t] the model is in state [st t] and the
      concatenated table is [table t]; in that state the test users get the lists [stab t],
      the embeddings are [emb_u t], [emb_v t], and the chunk is evaluated to [hits t] and
      [ranks t]; [agree t], [du t], [dv t] compare steps [t] and [t+1]. *)
  Record history := mkHistory {
    st : nat -> S; table : nat -> D; stab : nat -> list (list Z);
    emb_u : nat -> mat A; emb_v : nat -> mat A;
    hits : nat -> Q; ranks : nat -> Q; agree : nat -> Q; du : nat -> V; dv : nat -> V }.

  (** The users of the chunk and their items, both known to the model in state [s]. *)
  Definition tests (chunk : list row) (s : S) : list Z * list Z := get_users_to_recommend_test_items chunk (maps m s).

  (** Evaluation of the chunk in state [s]. *)
  Definition evaluates (s : S) (chunk : list row) (h r : Q) : Prop :=
    exists rec, recommend m s (fst (tests chunk s)) false = Ok rec /\
      hr rec (snd (tests chunk s)) = Ok h /\ mrr rec (snd (tests chunk s)) = Ok r.

  (** Updating state and table with a chunk. *)
  Definition updates (s : S) (d : D) (chunk : list row) (s' : S) (d' : D) : Prop :=
    if chunk_mode then d' = d /\ update m s (inl chunk) = Ok s'
    else grow d chunk = Ok d' /\ update m s (inr d') = Ok s'.

  (** [H] describes the first [n] steps over [stream]. *)
  Definition runs (st0 : S) (initial : D) (stream : list (list row)) (n : nat) (H : history) : Prop :=
    train m st0 initial = Ok (st H 0) /\ table H 0 = initial /\
    (forall t chunk, (t < n)%nat -> nth_error stream t = Some chunk ->
       evaluates (st H t) chunk (hits H t) (ranks H t) /\
       recommend m (st H t) test_users true = Ok (stab H t) /\
       get_u m (st H t) = Ok (emb_u H t) /\ get_v m (st H t) = Ok (emb_v H t) /\
       updates (st H t) (table H t) chunk (st H (Datatypes.S t)) (table H (Datatypes.S t))) /\
    (forall t, (Datatypes.S t < n)%nat ->
       wji_sim (stab H t) (stab H (Datatypes.S t)) (width (stab H t)) (n_items m (st H (Datatypes.S t))) = Ok (agree H t) /\
       user_change (emb_u H t) (emb_u H (Datatypes.S t)) (du H t) /\
       item_change t (emb_v H t) (emb_v H (Datatypes.S t)) (dv H t)).

  (** The reported series of [n] steps. *)
  Definition series {X} (n : nat) (f : nat -> X) : list X := map f (seq 0 n).
  Definition reported (n : nat) (H : history) : dynamics T V :=
    mkDyn (series (n + 1) clock) (series n (hits H)) (series n (ranks H)) (series (n - 1) (agree H))
          (series (n - 1) (du H)) (series (n - 1) (dv H))
          (series n (fun t => norm (emb_u H t))) (series n (fun t => norm (emb_v H t))).
End Trace.
Arguments mkHistory {S D A V}.
Arguments st {S D A V}. Arguments table {S D A V}. Arguments stab {S D A V}. Arguments emb_u {S D A V}.
Arguments emb_v {S D A V}. Arguments hits {S D A V}. Arguments ranks {S D A V}. Arguments agree {S D A V}.
Arguments du {S D A V}. Arguments dv {S D A V}.

(** Sums over windows. *)
Definition window_total (arr : list Q) (i w : nat) : Q :=
  fold_right Qplus 0%Q (map (fun j => nth (i + j) arr 0%Q) (seq 0 w)).

(** Older embeddings with zero rows for newcomers; difference; opposite. *)
Section Embeddings.
  Context {A : Type} (zero : A) (sub : A -> A -> A) (opp : A -> A).
  Definition padded (old new : mat A) : mat A :=
    Matrix_model.build (mr new) (mc new) (fun i j => if (i <? mr old)%nat then mget zero old i j else zero).
  Definition difference (a b : mat A) : mat A :=
    Matrix_model.build (mr a) (mc a) (fun i j => sub (mget zero a i j) (mget zero b i j)).
  Definition opposite (a : mat A) : mat A :=
    Matrix_model.build (mr a) (mc a) (fun i j => opp (mget zero a i j)).
End Embeddings.
(** Squared Frobenius norm. *)
Definition sum_squares (a : mat Q) : Q := fold_right (fun x s => (x * x + s)%Q) 0%Q (mdat a).
