(** The debug layer of a tile: src/mvt/tile_builder.cc:227-283 with render_ctx::tb_render_debug_info_ set
    (include/tiles/get_tile.h:34). *)
From Verif Require Import Base ModelTile ModelCodec ModelGeom ModelFeature ModelMvt.
From Verif Require Import ModelServer.
From Coq Require Import String.
From Coq Require Import List.
Import ListNotations.
Open Scope N_scope.

(** fmt (third party): a uint32_t in decimal; ten digits are enough *)
Fixpoint dec_digits (fuel : nat) (v : N) : bytes :=
  match fuel with
  | O => []
  | S f => if v <? 10 then [48 + v] else dec_digits f (v / 10) ++ [48 + v mod 10]
  end.
Definition fmt_u32 (v : N) : bytes := dec_digits 10 v.

(** tile_builder.cc:250-251 *)
Definition tile_label (t : tile) : bytes :=
  lit "[x=" ++ fmt_u32 (tx t) ++ lit ", y=" ++ fmt_u32 (ty t) ++ lit ", z=" ++ fmt_u32 (tz t) ++ lit "]".

(** tile_builder.cc:244-264: first the tags, then the geometry, no id *)
Definition debug_label (spec : tile_spec) : res bytes :=
  let b := px_bounds spec in
  do g <- encode_geometry spec (GPoint [((bminx b + Z.quot (bmaxx b - bminx b) 2)%Z, (bminy b + Z.quot (bmaxy b - bminy b) 2)%Z)]);
  Ok (field_packed_u64 MF_TAGS [0; 0] ++ g).
(** tile_builder.cc:265-277 *)
Definition debug_outline (spec : tile_spec) : res bytes :=
  let b := px_bounds spec in
  encode_geometry spec (GLine [[(bminx b, bminy b); (bminx b, bmaxy b); (bmaxx b, bmaxy b); (bmaxx b, bminy b); (bminx b, bminy b)]]).

(** tile_builder.cc:240-279: the layer with both features; the only key and the only value have index 0 in
    their tables *)
Definition debug_layer (spec : tile_spec) (t : tile) : res bytes :=
  let lb := layer_builder_init (lit "tiles_debug_info") in
  do f1 <- debug_label spec;
  do f2 <- debug_outline spec;
  lb_finish (LB (lb_nodes lb) (lb_lines lb) (lb_polys lb) (lb_line_buf lb) (lb_poly_buf lb) (lb_has lb)
    (lb_buf lb ++ field_bytes ML_FEATURES f1 ++ field_bytes ML_FEATURES f2) [lit "tile_id"] [2 :: tile_label t]).

(** tile_builder.cc:227-283 *)
Definition build_tile_debug (c : tctx) (t : tile) (fs : list feature) : res bytes :=
  do tb <- tb_add_features c [] fs;
  do b <- tb_finish c tb;
  do d <- debug_layer (c_spec c) t;
  Ok (b ++ field_bytes MT_LAYERS d).
