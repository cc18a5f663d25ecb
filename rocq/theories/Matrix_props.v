(** Properties C35 (matrix part) and C54: elements of low-rank matrices, errors on
    listed entries, splitting into chunks. *)
From Coq Require Import ZArith QArith List Bool Lia Ring.
From Verif Require Import Prelude Tensor_model Tensor_spec Matrix_model Matrix_spec.
From Verif Require Matrix_main.
Import ListNotations.
Open Scope nat_scope.

(** C35.  [svd2mtx] with one singular value per column: every cell is what
    [get_svd_element] returns for it. *)
Theorem svd_element_is_cell :
  forall (A : Type) (zero one : A) (add mul sub : A -> A -> A) (opp : A -> A),
  ring_theory zero one add mul sub opp (@eq A) ->
  forall (u : mat A) s (vt m : mat A), length s = mc u ->
  svd2mtx zero add mul u s vt = Ok m ->
  mc u = mr vt /\ mwf m /\ mr m = mr u /\ mc m = mc vt
  /\ forall i j, i < mr u -> j < mc vt -> get_svd_element zero add mul i j u s vt = Ok (mget zero m i j).
Proof. exact (fun A zero one add mul sub opp RT => Matrix_main.svd2mtx_main zero one add mul sub opp RT). Qed.
Print Assumptions svd_element_is_cell.

(** C35.  [get_svd_element] and [get_mf_element]: exact domain and value. *)
Theorem svd_element_formula :
  forall (A : Type) (zero one : A) (add mul sub : A -> A -> A) (opp : A -> A),
  ring_theory zero one add mul sub opp (@eq A) ->
  forall i j (u : mat A) s (vt : mat A),
  ((exists x, get_svd_element zero add mul i j u s vt = Ok x)
   <-> i < mr u /\ j < mc vt /\ mc u <= length s /\ mc u <= mr vt)
  /\ forall x, get_svd_element zero add mul i j u s vt = Ok x ->
       x = sumn zero add (mc u) (fun r => mul (mul (mget zero u i r) (nth r s zero)) (mget zero vt r j)).
Proof. exact (fun A zero one add mul sub opp RT => Matrix_main.svd_element_main zero one add mul sub opp RT). Qed.
Print Assumptions svd_element_formula.

Theorem mf_element_formula :
  forall (A : Type) (zero one : A) (add mul sub : A -> A -> A) (opp : A -> A),
  ring_theory zero one add mul sub opp (@eq A) ->
  forall i j (u vt : mat A),
  ((exists x, get_mf_element zero add mul i j u vt = Ok x) <-> i < mr u /\ j < mc vt /\ mc u <= mr vt)
  /\ forall x, get_mf_element zero add mul i j u vt = Ok x ->
       x = sumn zero add (mc u) (fun r => mul (mget zero u i r) (mget zero vt r j)).
Proof. exact (fun A zero one add mul sub opp RT => Matrix_main.mf_element_main zero one add mul sub opp RT). Qed.
Print Assumptions mf_element_formula.

(** C35.  [get_mf_element] is the cell of the product of the factors. *)
Theorem mf_element_is_cell :
  forall (A : Type) (zero one : A) (add mul sub : A -> A -> A) (opp : A -> A),
  ring_theory zero one add mul sub opp (@eq A) ->
  forall (a b m : mat A), dot zero add mul a b = Ok m ->
  mc a = mr b /\ mwf m /\ mr m = mr a /\ mc m = mc b
  /\ forall i j, i < mr a -> j < mc b ->
       mget zero m i j = sumn zero add (mc a) (fun k => mul (mget zero a i k) (mget zero b k j))
       /\ get_mf_element zero add mul i j a b = Ok (mget zero m i j).
Proof. exact (fun A zero one add mul sub opp RT => Matrix_main.mf_cell_main zero one add mul sub opp RT). Qed.
Print Assumptions mf_element_is_cell.

(** C35.  When [svd2mtx] succeeds: numpy also broadcasts a single singular value or a
    single column. *)
Theorem svd2mtx_outcome :
  forall (A : Type) (zero : A) (add mul : A -> A -> A) (u : mat A) s (vt : mat A),
  (exists m, svd2mtx zero add mul u s vt = Ok m)
  <-> (length s = mc u /\ mc u = mr vt) \/ (length s = 1 /\ mc u = mr vt) \/ (mc u = 1 /\ length s = mr vt).
Proof. intros A zero add mul. exact (Matrix_main.svd2mtx_outcome_main zero add mul). Qed.
Print Assumptions svd2mtx_outcome.

(** C35.  Without the hypothesis on the number of singular values the two disagree. *)
Theorem svd_element_broadcast_refuted :
  exists (u : mat Z) s (vt m : mat Z) x,
    svd2mtx 0%Z Z.add Z.mul u s vt = Ok m
    /\ get_svd_element 0%Z Z.add Z.mul 0 0 u s vt = Ok x /\ x <> mget 0%Z m 0 0.
Proof.
  exists (mkMat 1 1 [1%Z]), [1; 1]%Z, (mkMat 2 1 [3; 4]%Z), (mkMat 1 1 [7%Z]), 3%Z.
  split; [reflexivity|]. split; [reflexivity|]. vm_compute. discriminate.
Qed.
Print Assumptions svd_element_broadcast_refuted.

(** C35.  The squared error of [_sqrt_err] has one term per listed entry, and giving the
    singular values as a vector or as a diagonal matrix makes no difference. *)
Theorem matrix_error :
  forall (A : Type) (zero one : A) (add mul sub : A -> A -> A) (opp : A -> A),
  ring_theory zero one add mul sub opp (@eq A) ->
  forall inds (vals : list A) (u : mat A) s (vt : mat A),
  (forall x, sq_err_1 zero add mul sub inds vals u s vt = Ok x ->
     length inds <= length vals
     /\ x = sum zero add (map (fun e => let d := sub (snd e) (sumn zero add (mc u) (fun r =>
                mul (mul (mget zero u (fst (fst e)) r) (nth r s zero)) (mget zero vt r (snd (fst e))))) in mul d d)
              (combine inds vals)))
  /\ forall d, is_diag zero d s -> length s = mc u -> mc u = mr vt ->
     sq_err_2 zero add mul sub inds vals u d vt = sq_err_1 zero add mul sub inds vals u s vt.
Proof.
  exact (fun A zero one add mul sub opp RT inds vals u s vt =>
    conj (fun x => Matrix_main.sq_err_1_main zero one add mul sub opp RT inds vals u s vt x)
         (fun d => Matrix_main.sq_err_forms_main zero one add mul sub opp RT inds vals u d vt s)).
Qed.
Print Assumptions matrix_error.

(** C54.  [split_matrix]: the first chunk has floor(n*ratio_first) slices, the others
    floor((n - first)*ratio_next) except a shorter last one; together they are the
    matrix.  A step of zero raises. *)
Theorem split_matrix_partitions : forall (X : Type) (slices : list X) rf rn,
  (0 <= rf)%Q -> (rf <= 1)%Q -> (0 <= rn)%Q ->
  exists i0 w, floor_of (inject_Z (Z.of_nat (length slices)) * rf) i0
    /\ floor_of (inject_Z (Z.of_nat (length slices - i0)) * rn) w
    /\ (w = 0 -> split_matrix slices rf rn = Err ZeroDivisionError)
    /\ (0 < w -> exists blocks k rest, split_matrix slices rf rn = Ok blocks
          /\ concat blocks = slices
          /\ map (@length X) blocks = i0 :: repeat w k ++ [rest]
          /\ 1 <= rest <= w).
Proof. exact @Matrix_main.split_matrix_main. Qed.
Print Assumptions split_matrix_partitions.

(** C54.  The block-diagonal split of a square matrix: full blocks only, in order along
    the diagonal; the remainder smaller than a step is left out. *)
Theorem block_diag_split : forall (A : Type) (zero : A) (m : mat A) rf rn,
  (0 <= rf)%Q -> (rf <= 1)%Q -> (0 <= rn)%Q -> mr m = mc m ->
  exists i0 w, floor_of (inject_Z (Z.of_nat (mc m)) * rf) i0
    /\ floor_of (inject_Z (Z.of_nat (mc m - i0)) * rn) w
    /\ (w = 0 -> split_mtx_block_diag zero m rf rn = Err ZeroDivisionError)
    /\ (0 < w -> exists blocks, split_mtx_block_diag zero m rf rn = Ok blocks
          /\ length blocks = 1 + (mc m - i0) / w
          /\ block_start i0 w (length blocks) <= mc m < block_start i0 w (length blocks) + w
          /\ (block_start i0 w (length blocks) = mc m <-> exists q, mc m = i0 + q * w)
          /\ forall k b, nth_error blocks k = Some b ->
               mwf b /\ mr b = block_size i0 w k /\ mc b = block_size i0 w k
               /\ forall x y, x < mr b -> y < mc b ->
                    mget zero b x y = mget zero m (block_start i0 w k + x) (block_start i0 w k + y)).
Proof. exact @Matrix_main.block_diag_main. Qed.
Print Assumptions block_diag_split.

(** C54.  The block-diagonal split can lose the last rows and columns. *)
Theorem block_diag_tail_refuted :
  exists (m : mat Z) rf rn blocks,
    mr m = mc m /\ split_mtx_block_diag 0%Z m rf rn = Ok blocks
    /\ (list_sum (map mr blocks) < mr m).
Proof.
  exists (mkMat 5 5 (map Z.of_nat (seq 0 25))), (2 # 5)%Q, (2 # 3)%Q,
    [mkMat 2 2 [0; 1; 5; 6]%Z; mkMat 2 2 [12; 13; 17; 18]%Z].
  split; [reflexivity|]. split; [vm_compute; reflexivity|]. cbn. lia.
Qed.
Print Assumptions block_diag_tail_refuted.

(** ** Concrete cases *)
Definition mdemo_u : mat Z := mkMat 3 2 [1; 2; 0; 1; -1; 3]%Z.
Definition mdemo_s : list Z := [5; 2]%Z.
Definition mdemo_vt : mat Z := mkMat 2 2 [1; -1; 2; 0]%Z.

Example mdemo_svd2mtx :
  svd2mtx 0%Z Z.add Z.mul mdemo_u mdemo_s mdemo_vt = Ok (mkMat 3 2 [13; -5; 4; 0; 7; 5]%Z)
  /\ get_svd_element 0%Z Z.add Z.mul 2 0 mdemo_u mdemo_s mdemo_vt = Ok 7%Z
  /\ get_svd_element 0%Z Z.add Z.mul 3 0 mdemo_u mdemo_s mdemo_vt = Err OutOfBounds.
Proof. repeat split; vm_compute; reflexivity. Qed.

Example mdemo_errors :
  is_diag 0%Z (mkMat 2 2 [5; 0; 0; 2]%Z) mdemo_s
  /\ sq_err_1 0%Z Z.add Z.mul Z.sub [(0, 0); (2, 1)] [10; 6]%Z mdemo_u mdemo_s mdemo_vt = Ok 10%Z
  /\ sq_err_2 0%Z Z.add Z.mul Z.sub [(0, 0); (2, 1)] [10; 6]%Z mdemo_u (mkMat 2 2 [5; 0; 0; 2]%Z) mdemo_vt = Ok 10%Z.
Proof.
  split; [|split; vm_compute; reflexivity].
  split; [reflexivity|]. split; [reflexivity|]. cbn. intros [|[|r]] [|[|t]] Hr Ht; try lia; reflexivity.
Qed.

Example mdemo_split :
  split_matrix (seq 0 10) (1 # 2) (2 # 5) = Ok [[0; 1; 2; 3; 4]; [5; 6]; [7; 8]; [9]]
  /\ split_matrix (seq 0 10) (1 # 2) (1 # 10) = Err ZeroDivisionError
  /\ split_matrix (seq 0 10) 1 (1 # 2) = Err ZeroDivisionError.
Proof. repeat split; vm_compute; reflexivity. Qed.
