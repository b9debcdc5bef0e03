(** What a tile builder prints about its layers: src/mvt/tile_builder.cc with render_ctx::tb_print_stats_ set
    (include/tiles/get_tile.h:38; src/benchmark.cc:117 sets it for a single tile). *)
From Verif Require Import Base ModelTile ModelCodec ModelGeom ModelFeature ModelMvt ModelServer ModelDebug.
From Coq Require Import String.
From Coq Require Import List.
Import ListNotations.
Open Scope N_scope.

(** tile_builder.cc:36-213 layer_builder with its name (:199) and the counters features_added_, features_written_ (:211-212) *)
Record counting := Counting { s_name : bytes; s_lb : layer_builder; s_added : N; s_written : N }.
Definition counting_init (name : bytes) : counting := Counting name (layer_builder_init name) 0 0.
Definition with_lb (s : counting) (lb : layer_builder) : counting := Counting (s_name s) lb (s_added s) (s_written s).
Definition count_added (s : counting) (lb : layer_builder) : counting := Counting (s_name s) lb (s_added s + 1) (s_written s).

(** :77-92 write_feature, with :83 *)
Definition write_feature_st (c : tctx) (s : counting) (f : feature) : res counting :=
  match f_geom f with
  | GNull => Ok s
  | _ => do lb <- write_feature c (s_lb s) f; Ok (Counting (s_name s) lb (s_added s) (s_written s + 1))
  end.

(** :49-75 add_feature, with :59 *)
Definition lb_add_feature_st (c : tctx) (s : counting) (f : feature) : res counting :=
  let id := f_id f in
  let lb := s_lb s in
  match f_geom f with
  | GNull => Ok (count_added s lb)
  | GPoint _ =>
      if mem id (lb_nodes lb) then Ok s else
        let s := count_added s (LB (id :: lb_nodes lb) (lb_lines lb) (lb_polys lb) (lb_line_buf lb) (lb_poly_buf lb)
                     (lb_has lb) (lb_buf lb) (lb_keys lb) (lb_vals lb)) in
        do f' <- clip_shift c f; write_feature_st c s f'
  | GLine _ =>
      if mem id (lb_lines lb) then Ok s else
        let add buf := count_added s (LB (lb_nodes lb) (id :: lb_lines lb) (lb_polys lb) buf (lb_poly_buf lb)
                     (lb_has lb) (lb_buf lb) (lb_keys lb) (lb_vals lb)) in
        if c_agg_lines c then Ok (add (lb_line_buf lb ++ [f])) else
          do f' <- clip_shift c f; write_feature_st c (add (lb_line_buf lb)) f'
  | GPoly _ =>
      if mem id (lb_polys lb) then Ok s else
        let add buf := count_added s (LB (lb_nodes lb) (lb_lines lb) (id :: lb_polys lb) (lb_line_buf lb) buf
                     (lb_has lb) (lb_buf lb) (lb_keys lb) (lb_vals lb)) in
        if c_agg_polys c then Ok (add (lb_poly_buf lb ++ [f])) else
          do f' <- clip_shift c f; write_feature_st c (add (lb_poly_buf lb)) f'
  end.

(** :117-127 *)
Fixpoint write_polys_st (c : tctx) (s : counting) (fs : list feature) : res counting :=
  match fs with
  | [] => Ok s
  | f :: fs' =>
      do f' <- clip_shift c f;
      if negb (f_layer f' =? kLayerCoastlineIdx) && c_drop_subpixel c
         && (c_area c (f_geom f') <? kScreenPixelArea)%Z
      then write_polys_st c s fs'
      else do s' <- write_feature_st c s f'; write_polys_st c s' fs'
  end.
(** :131-135 *)
Fixpoint write_lines_st (c : tctx) (s : counting) (fs : list feature) : res counting :=
  match fs with
  | [] => Ok s
  | f :: fs' => do f' <- clip_shift c f; do s' <- write_feature_st c s f'; write_lines_st c s' fs'
  end.
(** :111-138 *)
Definition aggregate_geometry_st (c : tctx) (s : counting) : res counting :=
  do s1 <- (if c_agg_polys c then write_polys_st c s (lb_poly_buf (s_lb s)) else Ok s);
  if c_agg_lines c && negb (match lb_line_buf (s_lb s1) with [] => true | _ => false end) then
    do fs <- c_aggregate c (lb_line_buf (s_lb s1)) (c_z c);
    write_lines_st c s1 fs
  else Ok s1.

(** :185-190 a line of the output: the numbers before they are made text (printable_num, printable_bytes) *)
Record tile_line := TLine { tl_name : bytes; tl_added : N; tl_written : N; tl_bytes : N }.
(** :140-193 *)
Definition lb_finish_st (s : counting) : res (bytes * tile_line) :=
  do b <- lb_finish (s_lb s); Ok (b, TLine (s_name s) (s_added s) (s_written s) (blen b)).

(** :215-225 the builders in ascending order of layers *)
Fixpoint map_update_st (i : N) (init : counting) (upd : counting -> res counting) (m : list (N * counting)) : res (list (N * counting)) :=
  match m with
  | [] => do s <- upd init; Ok [(i, s)]
  | (j, s) :: m' =>
      if i <? j then do s' <- upd init; Ok ((i, s') :: m)
      else if i =? j then do s' <- upd s; Ok ((j, s') :: m')
      else do r <- map_update_st i init upd m'; Ok ((j, s) :: r)
  end.
Definition tb_add_feature_st (c : tctx) (tb : list (N * counting)) (f : feature) : res (list (N * counting)) :=
  match nth_error (c_names c) (N.to_nat (f_layer f)) with
  | None => Throw
  | Some name => map_update_st (f_layer f) (counting_init name) (fun s => lb_add_feature_st c s f) tb
  end.
Fixpoint tb_add_features_st (c : tctx) (tb : list (N * counting)) (fs : list feature) : res (list (N * counting)) :=
  match fs with
  | [] => Ok tb
  | f :: fs' => do tb' <- tb_add_feature_st c tb f; tb_add_features_st c tb' fs'
  end.

(** :227-237: the tile's bytes and what is printed *)
Fixpoint tb_finish_st (c : tctx) (tb : list (N * counting)) : res (bytes * list tile_line) :=
  match tb with
  | [] => Ok ([], [])
  | (_, s) :: tb' =>
      do s1 <- aggregate_geometry_st c s;
      do l <- (if lb_has (s_lb s1) then do r <- lb_finish_st s1; Ok (field_bytes MT_LAYERS (fst r), [snd r]) else Ok ([], []));
      do r <- tb_finish_st c tb';
      Ok (fst l ++ fst r, snd l ++ snd r)
  end.

(** a tile from features, with the debug layer (:239-280) or without it.  The debug layer's builder never counts *)
Definition build_tile_stats (c : tctx) (t : tile) (debug : bool) (fs : list feature) : res (bytes * list tile_line) :=
  do tb <- tb_add_features_st c [] fs;
  do r <- tb_finish_st c tb;
  if debug then
    do d <- debug_layer (c_spec c) t;
    Ok (fst r ++ field_bytes MT_LAYERS d, snd r ++ [TLine (lit "tiles_debug_info") 0 0 (blen d)])
  else Ok r.
