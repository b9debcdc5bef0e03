(** Rendering a tile from the database: include/tiles/get_tile.h. *)
From Verif Require Import Base ModelTile ModelPackFile ModelCodec ModelGeom ModelFeature ModelPack ModelPacker ModelBqTree ModelMvt.
Open Scope N_scope.

(** get_tile.h:25-42 render_ctx, plus the third party algorithms it is used with:
    [x_deflate] zlib (util.cc:12-26), [x_cut], [x_area], [x_aggregate] as in
    ModelMvt.tctx, [x_rd] reading of simplify masks.  [x_dec] is
    metadata_decoder_.  (tb_print_stats_ and tb_render_debug_info_ = false, the
    default, are not modelled.) *)
Record rctx := RCtx {
  x_max_prepared : Z; x_seaside : list N; x_names : list bytes; x_dec : N -> res meta;
  x_compress : bool; x_ignore_prepared : bool; x_ignore_seaside : bool;
  x_agg_lines : bool; x_agg_polys : bool; x_drop_subpixel : bool;
  x_deflate : bytes -> res bytes;
  x_cut : fbox -> geom -> res geom; x_area : geom -> Z;
  x_aggregate : list feature -> N -> res (list feature);
  x_rd : mask_reader }.

(** tile_builder.cc:214-217, 268-280: the builder for a tile; constructing the
    tile_spec throws for tiles that do not exist *)
Definition make_builder (x : rctx) (t : tile) : res tctx :=
  do spec <- make_tile_spec t;
  Ok (TCtx (x_names x) (x_agg_lines x) (x_agg_polys x) (x_drop_subpixel x) (tz t) spec (x_cut x) (x_area x) (x_aggregate x)).

(** "coastline" *)
Definition str_coastline : bytes := [99; 111; 97; 115; 116; 108; 105; 110; 101].

(** get_tile.h:66-83, the loop body of render_seaside.  The ring is closed and
    clockwise in boost's sense already, so boost::geometry::correct leaves it
    alone.  The metadata value has no type byte, but the key "layer" is never
    written into a tile. *)
Definition seaside_feature (t : tile) : res feature :=
  do spec <- make_tile_spec t;
  let b := draw_bounds spec in
  do key <- tile_to_key t 0;
  Ok (Feature key kLayerCoastlineIdx 0 (kMaxZoomLevel + 1) [(str_layer, str_coastline)]
       (GPoly [([(bminx b, bminy b); (bminx b, bmaxy b); (bmaxx b, bmaxy b); (bmaxx b, bminy b); (bminx b, bminy b)], [])])).
Definition seaside_features (x : rctx) (t : tile) : res (list feature) :=
  do ts <- bq_all_leafs (x_seaside x) t; map_res seaside_feature ts.

(** get_tile.h:113-141 render_features: the features added, in order, from the
    packs [ps] (index tile, pack).  Failing steps are reported in reading order:
    reading failures before failures of add_feature. *)
Definition pack_features_of (x : rctx) (t : tile) (box : fbox) (p : tile * bytes) : res (list feature) :=
  do strs <- unpack_features_for (fst p) (snd p) t;
  do fs <- map_res (deserialize_feature (x_dec x) (x_rd x) (Hints box (tz t))) strs;
  Ok (flat_map (fun o => match o with Some f => [f] | None => [] end) fs).
Definition render_features (x : rctx) (t : tile) (ps : list (tile * bytes)) : res (list feature) :=
  do spec <- make_tile_spec t;
  do fss <- map_res (pack_features_of x t (draw_bounds spec)) ps;
  Ok (concat fss).

(** get_tile.h:143-179 get_tile(ctx, tile, foreach_pack, pc) *)
Definition render_tile (x : rctx) (t : tile) (ps : list (tile * bytes)) : res (option bytes) :=
  do c <- make_builder x t;
  do sea <- seaside_features x t;
  do fs <- render_features x t ps;
  do skip <- (if x_ignore_seaside x then
                do b <- bq_contains (x_seaside x) t;
                Ok (b && match fs with [] => true | _ => false end)
              else Ok false);
  if skip then Ok None
  else
    do buf <- build_tile c (sea ++ fs);
    match buf with
    | [] => Ok None
    | _ => if x_compress x then do z <- x_deflate x buf; Ok (Some z) else Ok (Some buf)
    end.

(** lmdb::txn::get (third party) *)
Fixpoint table_get (t : table) (k : N) : option bytes :=
  match t with
  | [] => None
  | (k', v) :: t' => if k' =? k then Some v else table_get t' k
  end.

(** get_tile.h:213-218: the packs of the features table that concern the tile *)
Definition foreach_pack (features : table) (s : pfile) (t : tile) : res (list (tile * bytes)) :=
  do rs <- pack_records_foreach features t;
  map_res (fun tr => do b <- pf_get s (snd tr); Ok (fst tr, b)) rs.

(** get_tile.h:181-220 get_tile(handle, txn, cursor, pack_handle, ctx, tile, pc) *)
Definition get_tile (tiles features : table) (s : pfile) (x : rctx) (t : tile) : res (option bytes) :=
  do _ <- verify (tz t <=? kMaxZoomLevel);
  if negb (x_ignore_prepared x) && (Z.of_N (tz t) <=? x_max_prepared x)%Z then
    do key <- tile_to_key t 0;
    match table_get tiles key with
    | Some b => Ok (Some b)
    | None =>
        do sea <- bq_contains (x_seaside x) t;
        if sea then render_tile x t [] else Ok None
    end
  else
    do ps <- foreach_pack features s t;
    render_tile x t ps.
