(** Vector tile output: src/mvt/encode_geometry.cc and src/mvt/tile_builder.cc. *)
From Verif Require Import Base ModelTile ModelCodec ModelGeom ModelFeature.
Open Scope N_scope.

(** ** encode_geometry.cc *)

(** encode_geometry.cc:18, 20-22 encode_command: the count is a uint32_t *)
Definition MOVE_TO : N := 1.
Definition LINE_TO : N := 2.
Definition CLOSE_PATH : N := 7.
Definition encode_command (cmd count : N) : N :=
  N.lor (N.land cmd 7) (N.shiftl (count mod 2 ^ 32) 3 mod 2 ^ 32).

(** protozero::encode_zigzag32 (third party) takes an int32_t: the int64_t delta
    is narrowed (modulo 2^32) first *)
Definition to_i32 (z : Z) : Z :=
  let m := (z mod 2 ^ 32)%Z in if (m <? 2 ^ 31)%Z then m else (m - 2 ^ 32)%Z.
Definition zigzag32 (z : Z) : N := zigzag (to_i32 z).

(** encode_geometry.cc:42-45 and :62-68: deltas (delta.h:14-20) from the cursor
    [c]; [chk] is the "both deltas are zero" check, present for paths only *)
Fixpoint encode_deltas (chk : bool) (c : pt) (ps : list pt) : res (list N * pt) :=
  match ps with
  | [] => Ok ([], c)
  | p :: ps' =>
      do dx <- sub64 (fst p) (fst c);
      do dy <- sub64 (snd p) (snd c);
      do _ <- verify (negb chk || negb (dx =? 0)%Z || negb (dy =? 0)%Z);
      do (r, c') <- encode_deltas chk p ps';
      Ok (zigzag32 dx :: zigzag32 dy :: r, c')
  end.

(** encode_geometry.cc:50-72 encode_path *)
Definition encode_path (close : bool) (c : pt) (ps : list pt) : res (list N * pt) :=
  do _ <- verify (1 <? N.of_nat (length ps));
  do (r1, c1) <- encode_deltas false c (firstn 1 ps);
  let limit := if close then (length ps - 2)%nat else (length ps - 1)%nat in
  do (r2, c2) <- encode_deltas true c1 (firstn limit (skipn 1 ps));
  Ok (encode_command MOVE_TO 1 :: r1
      ++ encode_command LINE_TO (N.of_nat limit) :: r2
      ++ (if close then [encode_command CLOSE_PATH 1] else []), c2).

(** encode_geometry.cc:82-84 and :96-101: the delta encoders keep running *)
Fixpoint encode_paths (close : bool) (c : pt) (ls : list line) : res (list N * pt) :=
  match ls with
  | [] => Ok ([], c)
  | l :: ls' =>
      do (r1, c1) <- encode_path close c l;
      do (r2, c2) <- encode_paths close c1 ls';
      Ok (r1 ++ r2, c2)
  end.

(** src/mvt/tags.h *)
Definition MF_ID : N := 1.
Definition MF_TAGS : N := 2.
Definition MF_TYPE : N := 3.
Definition MF_GEOMETRY : N := 4.
Definition ML_NAME : N := 1.
Definition ML_FEATURES : N := 2.
Definition ML_KEYS : N := 3.
Definition ML_VALUES : N := 4.
Definition ML_EXTENT : N := 5.
Definition ML_VERSION : N := 15.
Definition MV_STRING : N := 1.
Definition MV_DOUBLE : N := 3.
Definition MV_SINT : N := 6.
Definition MV_BOOL : N := 7.
Definition MT_LAYERS : N := 3.

(** encode_geometry.cc:27-30 delta_encoders, :32-48, :74-104, :106-109: the
    fields written for a geometry; rings of a multi polygon are written outer
    ring first, then its inner rings *)
Definition encode_geometry (spec : tile_spec) (g : geom) : res bytes :=
  let c0 := (bminx (px_bounds spec), bminy (px_bounds spec)) in
  match g with
  | GNull => Ok []
  | GPoint ps =>
      do (r, _) <- encode_deltas false c0 ps;
      Ok (field_varint MF_TYPE 1
          ++ field_packed_u64 MF_GEOMETRY (encode_command MOVE_TO (N.of_nat (length ps)) :: r))
  | GLine ls =>
      do (r, _) <- encode_paths false c0 ls;
      Ok (field_varint MF_TYPE 2 ++ field_packed_u64 MF_GEOMETRY r)
  | GPoly ps =>
      do _ <- verify (match ps with [] => false | _ => true end);
      do (r, _) <- encode_paths true c0 (flat_map (fun p : poly => fst p :: snd p) ps);
      Ok (field_varint MF_TYPE 3 ++ field_packed_u64 MF_GEOMETRY r)
  end.

(** ** clip (src/fixed/algo/clip.cc) *)

(** clip.cc:21-36: points strictly inside the box (boost::geometry::within) *)
Definition within (b : fbox) (p : pt) : bool :=
  ((bminx b <? fst p) && (fst p <? bmaxx b) && (bminy b <? snd p) && (snd p <? bmaxy b))%Z.

(** clip.cc:17-19, 21-36, 116-118.  Lines (boost::geometry::intersection, :38-48)
    and polygons (clipper, :78-114) are cut by third party code: [cut]. *)
Definition clip (cut : fbox -> geom -> res geom) (b : fbox) (g : geom) : res geom :=
  match g with
  | GNull => Ok GNull
  | GPoint ps => Ok (match filter (within b) ps with [] => GNull | ps' => GPoint ps' end)
  | GLine _ | GPoly _ => cut b g
  end.

(** ** tile_builder.cc *)

(** what the builder needs from outside: include/tiles/get_tile.h:26-38
    render_ctx (layer names and tb_ flags; tb_print_stats_ only prints and
    tb_render_debug_info_ = false, the default; see ModelDebug for true), the tile, and
    the geometry algorithms [cut] (see [clip]), [area] (area.h, boost) and
    [aggregate] (aggregate_line_features.cc). *)
Record tctx := TCtx {
  c_names : list bytes;
  c_agg_lines : bool; c_agg_polys : bool; c_drop_subpixel : bool;
  c_z : N; c_spec : tile_spec;
  c_cut : fbox -> geom -> res geom;
  c_area : geom -> Z;
  c_aggregate : list feature -> N -> res (list feature) }.

(** tile_builder.cc:36-213 layer_builder: the three id sets, buffered features,
    bytes written so far, and the two string tables in index order. *)
Record layer_builder := LB {
  lb_nodes : list N; lb_lines : list N; lb_polys : list N;
  lb_line_buf : list feature; lb_poly_buf : list feature;
  lb_has : bool; lb_buf : bytes;
  lb_keys : list bytes; lb_vals : list bytes }.

(** tile_builder.cc:30 kVectorTileExtend, :32-34 kScreenPixelArea *)
Definition kVectorTileExtend : N := 4096.
Definition kScreenPixelArea : Z := 256.

(** tile_builder.cc:37-47 constructor *)
Definition layer_builder_init (name : bytes) : layer_builder :=
  LB [] [] [] [] [] false
     (field_varint ML_VERSION 2 ++ field_bytes ML_NAME name ++ field_varint ML_EXTENT kVectorTileExtend)
     [] [].

(** utl::get_or_create_index (third party): the index of the string, appending
    it to the table if it is not there *)
Fixpoint index_of (s : bytes) (l : list bytes) : option N :=
  match l with
  | [] => None
  | x :: l' => if bytes_eqb x s then Some 0 else
      match index_of s l' with Some i => Some (i + 1) | None => None end
  end.
Definition get_or_create_index (l : list bytes) (s : bytes) : list bytes * N :=
  match index_of s l with
  | Some i => (l, i)
  | None => (l ++ [s], N.of_nat (length l))
  end.

(** tile_builder.cc:100: m.key_ == "layer" || starts_with(m.key_, "__") *)
Definition str_layer : bytes := [108; 97; 121; 101; 114].
Definition skip_key (k : bytes) : bool :=
  bytes_eqb k str_layer || match k with 95 :: 95 :: _ => true | _ => false end.

(** tile_builder.cc:95-109 write_metadata: tables and tag list afterwards; the
    indices are narrowed to uint32_t *)
Fixpoint collect_tags (ks vs : list bytes) (ms : list meta) : list bytes * list bytes * list N :=
  match ms with
  | [] => (ks, vs, [])
  | (k, v) :: ms' =>
      if skip_key k then collect_tags ks vs ms' else
        let '(ks1, i) := get_or_create_index ks k in
        let '(vs1, j) := get_or_create_index vs v in
        let '(ks2, vs2, t) := collect_tags ks1 vs1 ms' in
        (ks2, vs2, i mod 2 ^ 32 :: j mod 2 ^ 32 :: t)
  end.

(** tile_builder.cc:77-93 write_feature *)
Definition write_feature (c : tctx) (lb : layer_builder) (f : feature) : res layer_builder :=
  match f_geom f with
  | GNull => Ok lb
  | _ =>
      do g <- encode_geometry (c_spec c) (f_geom f);
      let '(ks, vs, t) := collect_tags (lb_keys lb) (lb_vals lb) (f_meta f) in
      let fb := g ++ field_varint MF_ID (f_id f) ++ field_packed_u64 MF_TAGS t in
      Ok (LB (lb_nodes lb) (lb_lines lb) (lb_polys lb) (lb_line_buf lb) (lb_poly_buf lb)
             true (lb_buf lb ++ field_bytes ML_FEATURES fb) ks vs)
  end.

Definition set_geom (f : feature) (g : geom) : feature :=
  Feature (f_id f) (f_layer f) (f_minz f) (f_maxz f) (f_meta f) g.

(** tile_builder.cc:71-73, 118-119, 132-133: clip to the draw bounds, shift to
    the tile's zoom level *)
Definition clip_shift (c : tctx) (f : feature) : res feature :=
  do g <- clip (c_cut c) (draw_bounds (c_spec c)) (f_geom f);
  Ok (set_geom f (shift_geom (c_z c) g)).

Definition mem (i : N) (s : list N) : bool := existsb (N.eqb i) s.

(** tile_builder.cc:49-75 layer_builder::add_feature *)
Definition lb_add_feature (c : tctx) (lb : layer_builder) (f : feature) : res layer_builder :=
  let id := f_id f in
  match f_geom f with
  | GNull => Ok lb
  | GPoint _ =>
      if mem id (lb_nodes lb) then Ok lb else
        let lb := LB (id :: lb_nodes lb) (lb_lines lb) (lb_polys lb) (lb_line_buf lb) (lb_poly_buf lb)
                     (lb_has lb) (lb_buf lb) (lb_keys lb) (lb_vals lb) in
        do f' <- clip_shift c f; write_feature c lb f'
  | GLine _ =>
      if mem id (lb_lines lb) then Ok lb else
        let add buf := LB (lb_nodes lb) (id :: lb_lines lb) (lb_polys lb) buf (lb_poly_buf lb)
                     (lb_has lb) (lb_buf lb) (lb_keys lb) (lb_vals lb) in
        if c_agg_lines c then Ok (add (lb_line_buf lb ++ [f])) else
          do f' <- clip_shift c f; write_feature c (add (lb_line_buf lb)) f'
  | GPoly _ =>
      if mem id (lb_polys lb) then Ok lb else
        let add buf := LB (lb_nodes lb) (lb_lines lb) (id :: lb_polys lb) (lb_line_buf lb) buf
                     (lb_has lb) (lb_buf lb) (lb_keys lb) (lb_vals lb) in
        if c_agg_polys c then Ok (add (lb_poly_buf lb ++ [f])) else
          do f' <- clip_shift c f; write_feature c (add (lb_poly_buf lb)) f'
  end.

(** include/tiles/db/layer_names.h:17 *)
Definition kLayerCoastlineIdx : N := 0.

(** tile_builder.cc:117-127 *)
Fixpoint write_polys (c : tctx) (lb : layer_builder) (fs : list feature) : res layer_builder :=
  match fs with
  | [] => Ok lb
  | f :: fs' =>
      do f' <- clip_shift c f;
      if negb (f_layer f' =? kLayerCoastlineIdx) && c_drop_subpixel c
         && (c_area c (f_geom f') <? kScreenPixelArea)%Z
      then write_polys c lb fs'
      else do lb' <- write_feature c lb f'; write_polys c lb' fs'
  end.

(** tile_builder.cc:131-135 *)
Fixpoint write_lines (c : tctx) (lb : layer_builder) (fs : list feature) : res layer_builder :=
  match fs with
  | [] => Ok lb
  | f :: fs' => do f' <- clip_shift c f; do lb' <- write_feature c lb f'; write_lines c lb' fs'
  end.

(** tile_builder.cc:111-138 aggregate_geometry *)
Definition aggregate_geometry (c : tctx) (lb : layer_builder) : res layer_builder :=
  do lb1 <- (if c_agg_polys c then write_polys c lb (lb_poly_buf lb) else Ok lb);
  if c_agg_lines c && negb (match lb_line_buf lb1 with [] => true | _ => false end) then
    do fs <- c_aggregate c (lb_line_buf lb1) (c_z c);
    write_lines c lb1 fs
  else Ok lb1.

(** include/tiles/feature/metadata.h:10-16: type bytes; tile_builder.cc:155-183:
    one Value message (protozero writes the sub message in place; its content
    is the same) *)
Definition encode_value (v : bytes) : res bytes :=
  match v with
  | [] => Throw
  | ty :: d =>
      if ty =? 0 then Ok (field_varint MV_BOOL 0)
      else if ty =? 1 then Ok (field_varint MV_BOOL 1)
      else if ty =? 2 then Ok (field_bytes MV_STRING d)
      else if ty =? 3 then do _ <- verify (blen v =? 9); Ok (field_double MV_DOUBLE d)
      else if ty =? 4 then do _ <- verify (blen v =? 9);
                           Ok (field_varint MV_SINT (zigzag (to_i64 (le_val d))))
      else Throw
  end.

Fixpoint encode_values (vs : list bytes) : res bytes :=
  match vs with
  | [] => Ok []
  | v :: vs' => do m <- encode_value v; do r <- encode_values vs'; Ok (field_bytes ML_VALUES m ++ r)
  end.

(** tile_builder.cc:140-192 layer_builder::finish *)
Definition lb_finish (lb : layer_builder) : res bytes :=
  do vs <- encode_values (lb_vals lb);
  Ok (lb_buf lb ++ flat_map (field_bytes ML_KEYS) (lb_keys lb) ++ vs).

(** tile_builder.cc:215-287 tile_builder::impl: std::map from layer index to
    builder, in ascending index order *)
Definition tile_builder := list (N * layer_builder).

(** utl::get_or_create on std::map (third party) followed by an update of the
    entry *)
Fixpoint map_update (i : N) (init : layer_builder) (upd : layer_builder -> res layer_builder)
  (m : tile_builder) : res tile_builder :=
  match m with
  | [] => do lb <- upd init; Ok [(i, lb)]
  | (j, lb) :: m' =>
      if i <? j then do lb' <- upd init; Ok ((i, lb') :: m)
      else if i =? j then do lb' <- upd lb; Ok ((j, lb') :: m')
      else do r <- map_update i init upd m'; Ok ((j, lb) :: r)
  end.

(** tile_builder.cc:218-225 tile_builder::impl::add_feature *)
Definition tb_add_feature (c : tctx) (tb : tile_builder) (f : feature) : res tile_builder :=
  match nth_error (c_names c) (N.to_nat (f_layer f)) with
  | None => Throw
  | Some name => map_update (f_layer f) (layer_builder_init name) (fun lb => lb_add_feature c lb f) tb
  end.

Fixpoint tb_add_features (c : tctx) (tb : tile_builder) (fs : list feature) : res tile_builder :=
  match fs with
  | [] => Ok tb
  | f :: fs' => do tb' <- tb_add_feature c tb f; tb_add_features c tb' fs'
  end.

(** tile_builder.cc:227-237, 282 tile_builder::impl::finish *)
Fixpoint tb_finish (c : tctx) (tb : tile_builder) : res bytes :=
  match tb with
  | [] => Ok []
  | (_, lb) :: tb' =>
      do lb1 <- aggregate_geometry c lb;
      do l <- (if lb_has lb1 then do b <- lb_finish lb1; Ok (field_bytes MT_LAYERS b) else Ok []);
      do r <- tb_finish c tb';
      Ok (l ++ r)
  end.

(** A tile rendered from features [fs] in this order: construction
    (tile_builder.cc:216), add_feature for each, finish. *)
Definition build_tile (c : tctx) (fs : list feature) : res bytes :=
  do tb <- tb_add_features c [] fs; tb_finish c tb.
