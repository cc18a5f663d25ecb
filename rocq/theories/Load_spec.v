(** Vocabulary for the setup script. *)
From Coq Require Import List Bool String.
From Verif Require Import Prelude Load_model.
Import ListNotations.

(** The network and the parsers during one run. *)
Record world (C : Type) := mkWorld {
  w_fetch : string -> res C; w_unzip : C -> res (list (path * string * C)); w_amazon : C -> res C; w_steam : C -> res C }.
Arguments w_fetch {C}. Arguments w_unzip {C}. Arguments w_amazon {C}. Arguments w_steam {C}.

Definition run {C} (w : world C) : @step C := load_data (w_fetch w) (w_unzip w) (w_amazon w) (w_steam w).
Definition run_ml20m {C} (w : world C) : @step C := load_ml20m (w_fetch w) (w_unzip w).

(** [p] is [d] or lies in it. *)
Definition within (d p : path) : Prop := exists r, p = d ++ r.

(** The archive has a file in the directory ml-20m. *)
Definition archive {C} (w : world C) : Prop :=
  forall zip entries, w_fetch w "ml-20m.zip" = Ok zip -> w_unzip w zip = Ok entries ->
    exists sub name c, In ("ml-20m"%string :: sub, name, c) entries.

(** The directories for results that the configurations of the datasets name
    (configs/*/config.py:54-58) and the directories of the configurations. *)
Definition wanted_dirs : list path :=
  flat_map (fun d => ["configs"; d]%string :: map (fun k => ["results"; d; k]%string) ["hyperparams"; "metric_dynamics"; "graphics"; "ablation_study"]%string)
    ["ml_20m"; "amz_b"; "amz_g"; "steam"]%string.

(** The data directory of the README with the four datasets. *)
Definition data_tree {C} (ml20m : list (string * C)) (amz_b amz_g steam : C) : list (path * node C) :=
  [(["data"], Dir); (["data"; "ml_20m"], Dir); (["data"; "amz_b"], Dir); (["data"; "amz_g"], Dir); (["data"; "steam"], Dir);
   (["data"; "amz_b"; "amz_b.gz"], File amz_b); (["data"; "amz_g"; "amz_g.gz"], File amz_g); (["data"; "steam"; "steam.csv"], File steam)]%string
  ++ map (fun f => (["data"; "ml_20m"; fst f]%string, File (snd f))) ml20m.

(** What a tree has at a path. *)
Definition holds {C} (tree : list (path * node C)) (p : path) (n : option (node C)) : Prop :=
  match n with Some x => In (p, x) tree | None => ~ In p (map fst tree) end.
