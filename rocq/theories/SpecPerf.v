(** Specification vocabulary for what the benchmark reports. *)
From Coq Require Import Permutation Sorting.Sorted.
From Verif Require Import Base ModelTile ModelPackFile ModelCodec ModelGeom ModelFeature ModelPack ModelPacker ModelBqTree ModelMvt ModelRender ModelPerf.
Open Scope N_scope.

(** what is read for tile [t]: for every pack the strings that may concern the tile, each read as a feature or skipped *)
Definition packs_of (x : rctx) (features : table) (s : pfile) (t : tile) (packs : list (list (option feature))) : Prop :=
  exists ps spec, foreach_pack features s t = Ok ps /\ make_tile_spec t = Ok spec /\ map_res (read_pack x t (draw_bounds spec)) ps = Ok packs.

Definition is_some {A} (o : option A) : bool := match o with Some _ => true | None => false end.
(** how many of all strings were read as a feature, how many not *)
Definition num_read (packs : list (list (option feature))) : nat := length (filter is_some (concat packs)).
Definition num_skipped (packs : list (list (option feature))) : nat := length (filter (fun o => negb (is_some o)) (concat packs)).
Definition answered (answers : list (option bytes)) : list bytes := flat_map (fun a => match a with Some z => [z] | None => [] end) answers.

(** a report's numbers: how many values, [q]: at least 95 percent of them are at most [q], at most 95 percent smaller, [m]: the greatest *)
Definition smaller (q : N) (vs : list N) : nat := length (filter (fun v => v <? q) vs).
Definition at_most (q : N) (vs : list N) : nat := length (filter (fun v => v <=? q) vs).
Definition q95_of (q : N) (vs : list N) : Prop := In q vs /\ (95 * length vs <= 100 * at_most q vs)%nat /\ (100 * smaller q vs <= 95 * length vs)%nat.
Definition greatest (m : N) (vs : list N) : Prop := In m vs /\ Forall (fun v => v <= m) vs.
Definition sum (vs : list N) : N := fold_right N.add 0 vs.
