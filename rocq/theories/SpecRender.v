(** Specification vocabulary for serving tiles from the database. *)
From Coq Require Import Permutation.
From Verif Require Import Base ModelTile SpecTile ModelPackFile ModelCodec ModelGeom SpecGeom ModelFeature SpecFeature
  ModelQuadTree SpecQuadTree ModelPack ModelPacker SpecPacker ModelBqTree SpecBqTree ModelMvt SpecMvt ModelRender.
Open Scope N_scope.

(** a row of the features table: index tile, running number, and its packs:
    where each is in the pack file and the features it holds *)
Record row := Row { row_tile : tile; row_n : N; row_packs : list (pack_record * list feature) }.
Definition row_index (r : row) : tile * N * list pack_record := (row_tile r, row_n r, map fst (row_packs r)).
Definition row_features (r : row) : list feature := flat_map snd (row_packs r).

(** the record leads to a pack holding exactly the features [fs]: [raw] one written by the
    inserter, otherwise one made by the packer from such packs or from others of its own *)
Definition record_holds (raw : bool) enc dec mk rd srt (s : pfile) (root : tile) (rf : pack_record * list feature) : Prop :=
  Forall plain_feature (snd rf) /\
  (if raw then
    exists strs B, Forall2 (fun f str => serialize_feature (fun _ => None) (fun _ => []) true f = Ok str /\ blen str < 2 ^ 32) (snd rf) strs /\
      pack_features strs = Ok B /\ pf_get s (fst rf) = Ok B
  else
    exists packs fss B, snd rf = concat fss /\ Forall2 (pack_holds dec) packs fss /\
      pack_features_quad enc dec mk rd srt root packs = Ok B /\ blen B < 2 ^ 30 /\ pf_get s (fst rf) = Ok B).

(** a database: as the inserter leaves it ([raw]) or packed *)
Definition database_ok (raw : bool) enc dec mk rd srt (s : pfile) (features : table) (rows : list row) : Prop :=
  Forall2 stores (map row_index rows) features /\ table_sorted features /\
  Forall (fun r => tz (row_tile r) = 10 /\ valid_tile (row_tile r) /\
                   Forall (record_holds raw enc dec mk rd srt s (row_tile r)) (row_packs r)) rows.

(** the features stored under index tiles that contain [t] or lie in [t] *)
Definition near_features (rows : list row) (t : tile) : list feature :=
  flat_map row_features (filter (fun r => relatedb (row_tile r) t) rows).

(** the area drawn for a tile: its own area and 4096 level-20 pixels around it *)
Definition draw_area (t : tile) : fbox :=
  let b := tile_area t in FBox (bminx b - 4096) (bminy b - 4096) (bmaxx b + 4096) (bmaxy b + 4096).

(** the geometry of [f] after simplification for zoom level [z]; the inserter does not store
    what is needed for simplification *)
Definition simplified (raw : bool) (mk : line -> bytes) (rd : mask_reader) (z : N) (f : feature) : geom :=
  if raw then f_geom f else select_geom rd z (make_masks mk (f_geom f)) (f_geom f).
Definition in_zoom_range (z : N) (f : feature) : Prop := f_minz f <= z <= f_maxz f.

(** [f] must be drawn on [t] / may be drawn on [t] *)
Definition must_draw raw mk rd (t : tile) (f : feature) : Prop :=
  in_zoom_range (tz t) f /\ touches (bounding_box (f_geom f)) (tile_area t) /\ simplified raw mk rd (tz t) f <> GNull.
Definition may_draw raw mk rd (t : tile) (f : feature) : Prop :=
  in_zoom_range (tz t) f /\ touches (bounding_box (f_geom f)) (draw_area t) /\ simplified raw mk rd (tz t) f <> GNull.

(** the renderer uses the decoder and masks the database was written with, and
    third party algorithms that do not fail *)
Definition renderer_ok (enc : meta -> option N) (mk : line -> bytes) (x : rctx) (z : N) : Prop :=
  coder_ok enc (x_dec x) /\ mask_ok mk (x_rd x) z /\
  cut_ok (x_cut x) /\ cuts_areas (x_cut x) /\ aggregate_ok (x_aggregate x) /\ joins_lines (x_aggregate x).

(** the seaside tree was made from the tiles [sea], none deeper
    than the deepest zoom level *)
Definition seaside_is (x : rctx) (sea : list tile) : Prop :=
  Forall (fun t => tz t <= 20 /\ valid_tile t) sea /\ tree_fits sea /\ make_bq_tree sea = Ok (x_seaside x).

Definition prepared (x : rctx) (t : tile) : Prop := x_ignore_prepared x = false /\ (Z.of_N (tz t) <= x_max_prepared x)%Z.

(** what is sent for a rendered tile: nothing for an empty one, otherwise the
    bytes, compressed if asked for *)
Definition sent (x : rctx) (buf : bytes) (r : option bytes) : Prop :=
  if (length buf =? 0)%nat then r = None
  else if x_compress x then exists z, x_deflate x buf = Ok z /\ r = Some z
  else r = Some buf.

(** around a box, starting at its [i]-th corner *)
Definition square_ring (b : fbox) (i : nat) : line :=
  let c := [(bminx b, bminy b); (bminx b, bmaxy b); (bmaxx b, bmaxy b); (bmaxx b, bminy b)] in
  let r := skipn i c ++ firstn i c in
  r ++ firstn 1 r.

(** the sea square drawn for a covered tile, relative to the tile's corner: the
    tile's 4096 pixels and the overdraw scaled down to its zoom level *)
Definition sea_box (z : N) : fbox :=
  let m := ((-4096) / 2 ^ (20 - Z.of_N z))%Z in
  let n := (4096 + 4096 / 2 ^ (20 - Z.of_N z))%Z in
  FBox m m n n.

(** the decoded feature [v] of a layer is the sea square *)
Definition is_sea (k : N) (z : N) (v : vfeature) : Prop :=
  exists i, (i < 4)%nat /\ v = VFeature k (VRings [square_ring (sea_box z) i]) [].

(** clipping a rectangle by itself changes nothing (but perhaps the corner its ring starts with) *)
Definition keeps_square (cut : fbox -> geom -> res geom) : Prop :=
  forall b, range_box b ->
    exists i, (i < 4)%nat /\ cut b (GPoly [(square_ring b 0, [])]) = Ok (GPoly [(square_ring b i, [])]).

(** metadata may be stored in another order *)
Definition shows_stored (raw : bool) (o : pt) (mk : line -> bytes) (x : rctx) (t : tile) (f : feature) (v : vfeature) : Prop :=
  v_id v = f_id f /\ (exists ms, Permutation ms (f_meta f) /\ tags_of ms (v_tags v)) /\
  exists g, clip (x_cut x) (draw_area t) (simplified raw mk (x_rd x) (tz t) f) = Ok g /\
    relative_geom o (shift_geom (tz t) g) = Some (v_geom v).
Definition tile_corner (t : tile) : pt := (Z.of_N (tx t) * 4096, Z.of_N (ty t) * 4096)%Z.
Definition total_deflate (x : rctx) : Prop := forall b, exists z, x_deflate x b = Ok z.
(** the square drawn for a tile of the sea *)
Definition sea_square (t : tile) : geom :=
  GPoly [(square_ring (draw_area t) 0, [])].
