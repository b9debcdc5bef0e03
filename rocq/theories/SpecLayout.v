(** Specification vocabulary: how the inserter leaves the features table and the pack file. *)
From Coq Require Import Permutation.
From Verif Require Import Base ModelTile SpecTile ModelPackFile ModelPack SpecInserter SpecRepack.
Open Scope N_scope.

(** an entry of the features table: an index tile and its packs, each with its place in the file and
    the serialized features it was made of *)
Notation entry := (tile * list (pack_record * list bytes))%type.
Definition entry_row (d : entry) : tile * N * list pack_record := (fst d, 0, map fst (snd d)).

(** the table consists of these entries; every pack is in the file; no two packs have a byte in common *)
Definition laid (z : N) (T : table) (s : pfile) (db : list entry) : Prop :=
  Forall2 stores (map entry_row db) T /\ table_sorted T /\
  Forall (fun d => index_tile z (fst d) /\ snd d <> [] /\
    Forall (fun p => exists B, pack_features (snd p) = Ok B /\ pf_get s (fst p) = Ok B) (snd d)) db /\
  valid_layout s (flat_map (fun d => snd (entry_row d)) db).

(** the features of a tile, pack after pack *)
Definition entry_values (db : list entry) (t : tile) : list bytes :=
  flat_map (fun d => if tile_eqb (fst d) t then concat (map snd (snd d)) else []) db.
