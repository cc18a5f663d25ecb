(** Properties C36 and C37: the attention matrix and the scores of sequential models. *)
From Coq Require Import ZArith List Bool Lia Ring Reals.
From Verif Require Import Prelude DataPrep_model History_model Tirec_model Tensor_model Tensor_spec
  Matrix_model Attention_model Attention_spec.
From Verif Require Attention_proofs Attention_main.
Import ListNotations.
Open Scope nat_scope.

(** C36.  The matrix is lower triangular, with the decay at distance d below the diagonal
    in cell (i, i - d); only size 0 raises. *)
Theorem attention_cells :
  forall (A : Type) (zero : A) (decay : nat -> A) n,
  match get_global_attention zero decay n with
  | Err e => e = IndexError /\ n = 0
  | Ok m => 1 <= n /\ mwf m /\ mr m = n /\ mc m = n
            /\ forall i j, i < n -> j < n ->
                 mget zero m i j = if j <=? i then decay (i - j + 1) else zero
  end.
Proof. intros A zero. exact (Attention_proofs.attention_cells_main zero). Qed.
Print Assumptions attention_cells.

(** C36.  With the decay 1 / i**f over the reals: ones on the diagonal, weights fall
    with the distance (strictly for f > 0), equal weights for f = 0. *)
Theorem attention_power :
  forall f n m, 1 <= n -> get_global_attention 0%R (power_decay f) n = Ok m ->
  (forall i j, i < n -> j < n ->
     mget 0%R m i j = if j <=? i then (1 / Rpower (INR (i - j + 1)) f)%R else 0%R)
  /\ (forall i, i < n -> mget 0%R m i i = 1%R)
  /\ ((0 <= f)%R -> forall i j k, i < n -> j <= k -> k <= i ->
       (0 < mget 0%R m i j <= mget 0%R m i k)%R /\ (mget 0%R m i k <= 1)%R)
  /\ ((0 < f)%R -> forall i j k, i < n -> j < k -> k <= i -> (mget 0%R m i j < mget 0%R m i k)%R)
  /\ (f = 0%R -> forall i j, i < n -> j <= i -> mget 0%R m i j = 1%R).
Proof. exact Attention_main.attention_power_main. Qed.
Print Assumptions attention_power.

(** C36.  The matrix has a two-sided inverse, itself lower triangular. *)
Theorem attention_invertible :
  forall (A : Type) (zero one : A) (add mul sub : A -> A -> A) (opp : A -> A),
  ring_theory zero one add mul sub opp (@eq A) ->
  forall (decay : nat -> A) n m, decay 1 = one ->
  get_global_attention zero decay n = Ok m ->
  exists b, mwf b /\ mr b = n /\ mc b = n
    /\ (forall i j, i < n -> j < n -> i < j -> mget zero b i j = zero)
    /\ dot zero add mul m b = Ok (eye zero one n) /\ dot zero add mul b m = Ok (eye zero one n).
Proof. exact (fun A zero one add mul sub opp RT => Attention_proofs.attention_invertible_main zero one add mul sub opp RT). Qed.
Print Assumptions attention_invertible.

(** C36.  Whatever the attention, [last_pos_emb] is the last row of the position factor;
    row i of [aw] weighs the rows 0 .. i of the factor. *)
Theorem last_position_ignores_attention :
  forall (A : Type) (zero one : A) (add mul sub : A -> A -> A) (opp : A -> A),
  ring_theory zero one add mul sub opp (@eq A) ->
  forall inv (att : option (nat -> A)) n (a ainv w : mat A),
  (forall f, att = Some f -> f 1 = one) ->
  (forall m c, mr m = n -> mc m = n -> inv m = Ok c -> right_inverse zero one add mul n m c) ->
  attention_pair zero one inv att n = Ok (a, ainv) ->
  match position_embeddings zero add mul a ainv w with
  | Err e => (e = ValueError /\ mr w <> n) \/ (e = IndexError /\ mr w = n /\ n = 0)
  | Ok (aw, l) => mr w = n /\ 1 <= n /\ mwf aw /\ mr aw = n /\ mc aw = mc w
      /\ (forall i k, i < n -> k < mc w ->
            mget zero aw i k
            = match att with
              | None => mget zero w i k
              | Some f => sumn zero add (i + 1) (fun t => mul (f (i - t + 1)) (mget zero w t k))
              end)
      /\ l = map (mget zero w (n - 1)) (seq 0 (mc w))
  end.
Proof. exact (fun A zero one add mul sub opp RT => Attention_main.last_position_main zero one add mul sub opp RT). Qed.
Print Assumptions last_position_ignores_attention.

(** C37.  Positions and items: the t-th latest item is paired with position L - 2 - t;
    at most L - 1 items are used. *)
Theorem scored_positions :
  forall seq L,
  length (get_pos_items_arrays seq (Z.of_nat L)) = Nat.min (length seq) (L - 1)
  /\ forall t, t < Nat.min (length seq) (L - 1) ->
       nth_error (get_pos_items_arrays seq (Z.of_nat L)) t
       = Some (Z.of_nat (L - 2 - t), nth t (rev seq) 0%Z).
Proof. exact Attention_proofs.positions_main. Qed.
Print Assumptions scored_positions.

(** C37.  Outcome and value of [_recommend_user] for any [aw] and [last_pos_emb] of
    matching shapes. *)
Theorem sequence_scores :
  forall (A : Type) (zero one : A) (add mul sub : A -> A -> A) (opp : A -> A),
  ring_theory zero one add mul sub opp (@eq A) ->
  forall seqs (v w aw : mat A) l u,
  mr aw = mr w -> mc aw = length l ->
  (dget u seqs = None -> user_scores zero add mul seqs v w aw l u = Err KeyError)
  /\ forall d, dget u seqs = Some d ->
     let h := Nat.min (length (latest_first d)) (mr w - 1) in
     (h = 0 -> user_scores zero add mul seqs v w aw l u = Err IndexError)
     /\ (forall t, t < h -> ~ (- Z.of_nat (mr v) <= nth t (latest_first d) 0 < Z.of_nat (mr v))%Z ->
           user_scores zero add mul seqs v w aw l u = Err IndexError)
     /\ (0 < h -> (forall t, t < h -> (0 <= nth t (latest_first d) 0 < Z.of_nat (mr v))%Z) ->
         exists s, user_scores zero add mul seqs v w aw l u = Ok s /\ length s = mr v
           /\ forall j, j < mr v ->
                nth j s zero
                = sumn zero add h (fun t =>
                    mul (inner zero add mul (mc v) (mget zero v j)
                           (mget zero v (Z.to_nat (nth t (latest_first d) 0%Z))))
                        (inner zero add mul (mc aw) (mget zero aw (mr w - 2 - t)) (fun c => nth c l zero)))).
Proof. exact (fun A zero one add mul sub opp RT => Attention_main.user_scores_main zero one add mul sub opp RT). Qed.
Print Assumptions sequence_scores.

(** C36, C37.  Scores after training, in terms of the factors alone: the weight of the
    t-th latest item is the inner product of the attended position L - 2 - t and the last
    position. *)
Theorem trained_sequence_scores :
  forall (A : Type) (zero one : A) (add mul sub : A -> A -> A) (opp : A -> A),
  ring_theory zero one add mul sub opp (@eq A) ->
  forall inv att n (a ainv v w aw : mat A) l seqs u d,
  (forall f, att = Some f -> f 1 = one) ->
  (forall m c, mr m = n -> mc m = n -> inv m = Ok c -> right_inverse zero one add mul n m c) ->
  attention_pair zero one inv att n = Ok (a, ainv) ->
  position_embeddings zero add mul a ainv w = Ok (aw, l) ->
  dget u seqs = Some d ->
  let h := Nat.min (length (latest_first d)) (n - 1) in
  (h = 0 -> user_scores zero add mul seqs v w aw l u = Err IndexError)
  /\ (0 < h -> (forall t, t < h -> (0 <= nth t (latest_first d) 0 < Z.of_nat (mr v))%Z) ->
      exists s, user_scores zero add mul seqs v w aw l u = Ok s /\ length s = mr v
        /\ forall j, j < mr v ->
             nth j s zero
             = sumn zero add h (fun t =>
                 mul (inner zero add mul (mc v) (mget zero v j)
                        (mget zero v (Z.to_nat (nth t (latest_first d) 0%Z))))
                     (inner zero add mul (mc w)
                        (fun c => match att with
                                  | None => mget zero w (n - 2 - t) c
                                  | Some f => sumn zero add (n - 1 - t) (fun p => mul (f (n - 1 - t - p)) (mget zero w p c))
                                  end)
                        (mget zero w (n - 1))))).
Proof. exact (fun A zero one add mul sub opp RT => Attention_main.trained_scores_main zero one add mul sub opp RT). Qed.
Print Assumptions trained_sequence_scores.

(** C37.  The scores of the stream model of C21-C24 are these scores. *)
Theorem stream_scores_refine :
  forall (A : Type) (zero one : A) (add mul sub : A -> A -> A) (opp : A -> A),
  ring_theory zero one add mul sub opp (@eq A) ->
  forall (st : ti_state) (v w aw : mat A) l,
  mr aw = mr w -> mc aw = length l -> length (ti_irows st) = mr v ->
  exists sc, forall u, user_scores zero add mul (ti_seq st) v w aw l u = ti_scores (mr w) st sc u.
Proof. exact (fun A zero one add mul sub opp RT => Attention_main.scores_refine_main zero one add mul sub opp RT). Qed.
Print Assumptions stream_scores_refine.

(** Concrete cases: decay 1, 5, 7 over the integers, history with a pad. *)
Definition decay_ex (i : nat) : Z := nth i [0; 1; 5; 7]%Z 0%Z.
Definition inv_ex (m : mat Z) : res (mat Z) :=
  if forallb (fun p => fst p =? snd p)%Z (combine (mdat m) [1; 0; 0; 5; 1; 0; 7; 5; 1]%Z)
     && (length (mdat m) =? 9) && (mr m =? 3) && (mc m =? 3)
  then Ok (mkMat 3 3 [1; 0; 0; -5; 1; 0; 18; -5; 1]%Z) else Err LinAlgError.

Example attention_3 :
  get_global_attention 0%Z decay_ex 3 = Ok (mkMat 3 3 [1; 0; 0; 5; 1; 0; 7; 5; 1]%Z).
Proof. vm_compute. reflexivity. Qed.

Example attention_pair_3 :
  attention_pair 0%Z 1%Z inv_ex (Some decay_ex) 3
  = Ok (mkMat 3 3 [1; 0; 0; 5; 1; 0; 7; 5; 1]%Z, mkMat 3 3 [1; 0; 0; -5; 1; 0; 18; -5; 1]%Z)
  /\ dot 0%Z Z.add Z.mul (mkMat 3 3 [1; 0; 0; 5; 1; 0; 7; 5; 1]%Z) (mkMat 3 3 [1; 0; 0; -5; 1; 0; 18; -5; 1]%Z)
     = Ok (eye 0%Z 1%Z 3).
Proof. vm_compute. split; reflexivity. Qed.

(** [inv_ex] meets the contract of [inv]. *)
Example inv_ex_contract :
  forall m c, mr m = 3 -> mc m = 3 -> inv_ex m = Ok c -> right_inverse 0%Z 1%Z Z.add Z.mul 3 m c.
Proof.
  intros [r k l] c R K. cbn [mr mc] in R, K. subst r k. unfold inv_ex. cbn [mdat mr mc].
  do 9 (destruct l as [|? l]; [cbn; rewrite ?andb_false_r; discriminate|]).
  destruct l; [|cbn; rewrite ?andb_false_r; discriminate].
  cbn [combine forallb fst snd length Nat.eqb]. rewrite !andb_true_r.
  repeat match goal with |- context [(?x =? ?y)%Z] => destruct (Z.eqb_spec x y); cbn [andb]; [subst x|discriminate] end.
  intros H. injection H as <-. split; [reflexivity|]. split; [reflexivity|].
  intros i j Hi Hj. destruct i as [|[|[|i]]]; [| | |lia]; (destruct j as [|[|[|j]]]; [| | |lia]); vm_compute; reflexivity.
Qed.

Example position_embeddings_3 :
  position_embeddings 0%Z Z.add Z.mul (mkMat 3 3 [1; 0; 0; 5; 1; 0; 7; 5; 1]%Z)
    (mkMat 3 3 [1; 0; 0; -5; 1; 0; 18; -5; 1]%Z) (mkMat 3 2 [1; 2; 3; 4; 5; 6]%Z)
  = Ok (mkMat 3 2 [1; 2; 8; 14; 27; 40]%Z, [5; 6]%Z).
Proof. vm_compute. reflexivity. Qed.

Example scores_3 :
  user_scores 0%Z Z.add Z.mul [(4%Z, mkDeque 3 [(-1)%Z; 1%Z; 0%Z])] (mkMat 2 1 [2; 3]%Z)
    (mkMat 3 2 [1; 2; 3; 4; 5; 6]%Z) (mkMat 3 2 [1; 2; 8; 14; 27; 40]%Z) [5; 6]%Z 4%Z
  = Ok [598; 897]%Z.
Proof. vm_compute. reflexivity. Qed.

Example scores_length_1 :
  user_scores 0%Z Z.add Z.mul [(4%Z, mkDeque 1 [0%Z])] (mkMat 2 1 [2; 3]%Z)
    (mkMat 1 2 [1; 2]%Z) (mkMat 1 2 [1; 2]%Z) [5; 6]%Z 4%Z
  = Err IndexError.
Proof. vm_compute. reflexivity. Qed.
