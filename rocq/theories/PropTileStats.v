(** C87: what is printed about the layers of a tile. *)
From Coq Require Import Sorting.Sorted.
From Verif Require Import Base ModelTile ModelCodec ModelGeom SpecGeom ModelFeature ModelMvt SpecMvt PropMvt.
From Verif Require Import ModelServer ModelDebug SpecDebug ModelTileStats SpecTileStats ProofTileStats.
From Coq Require Import String.
From Coq Require Import List.
Import ListNotations.
Open Scope N_scope.

(** C87: counting changes nothing: the same tile, or the same failure, with the debug layer or without it. *)
Theorem c87_same : forall c t fs, (do r <- build_tile_stats c t false fs; Ok (fst r)) = build_tile c fs /\
  (do r <- build_tile_stats c t true fs; Ok (fst r)) = build_tile_debug c t fs.
Proof. intros c t fs. exact (conj (stats_same c t fs) (stats_same_debug c t fs)). Qed.
Print Assumptions c87_same.

(** One line is printed per layer of the tile, in the tile's order: with the layer's name, the size of its message in bytes, as many
    features written as the layer shows, and as many added as features with different id (per kind of geometry) were given for
    that layer, never fewer than are written.  The lines are in the order of the layers' indices. *)
Theorem c87_lines : forall c t fs buf lines, ctx_for c t -> Forall (fun f => f_id f < 2 ^ 64) fs -> aggregate_ok (c_aggregate c) ->
  build_tile_stats c t false fs = Ok (buf, lines) -> blen buf < 2 ^ 29 ->
  exists layers vls is, decode_tile buf = Some vls /\ layer_messages buf layers /\ lines_about lines layers vls /\
    StronglySorted N.lt is /\ Forall2 (line_counts (c_names c) fs) lines is.
Proof. exact tile_lines. Qed.
Print Assumptions c87_lines.

(** With the debug layer there is one line more. *)
Theorem c87_debug : forall c t fs buf lines, build_tile_stats c t true fs = Ok (buf, lines) ->
  exists buf0 lines0 layer, build_tile_stats c t false fs = Ok (buf0, lines0) /\ debug_layer (c_spec c) t = Ok layer /\
    buf = buf0 ++ field_bytes MT_LAYERS layer /\ lines = lines0 ++ [TLine (lit "tiles_debug_info") 0 0 (blen layer)].
Proof. intros c t fs buf lines H. destruct (debug_lines c t fs _ H) as (b & d & l & H1 & H2 & H3 & H4). exists b, l, d. exact (conj H1 (conj H2 (conj H3 H4))). Qed.
Print Assumptions c87_debug.

(** a tile with two layers: two points with the same id, a line, a line that is too short to be shown, and a feature without geometry *)
Definition c87_feats : list feature := ex_feats ++ [Feature 11 1 0 20 [] GNull].
Example c87_ex : exists buf, build_tile_stats ex_ctx (Tile 0 0 0) false c87_feats = Ok (buf, [TLine [114; 100] 3 1 44; TLine [112] 1 1 31]).
Proof. eexists. vm_compute. reflexivity. Qed.

(** But the line of the debug layer says that nothing was written; the layer shows two features. *)
Theorem c87_debug_refuted : ~ (forall c t fs buf lines, ctx_for c t -> build_tile_stats c t true fs = Ok (buf, lines) ->
  exists layers, read_tile buf = Some layers /\ map tl_written lines = map (fun l => num (al_features l)) layers).
Proof.
  intros H. destruct (build_tile_stats ex_ctx (Tile 0 0 0) true []) as [[buf lines]| | |] eqn:E; try discriminate E.
  destruct (H ex_ctx (Tile 0 0 0) [] buf lines (proj1 c26_ex_ctx) E) as (layers & H1 & H2). vm_compute in E. injection E as <- <-.
  vm_compute in H1. injection H1 as <-. discriminate H2.
Qed.
Print Assumptions c87_debug_refuted.
