(** Measuring how tiles are rendered: include/tiles/perf_counter.h, src/perf_counter.cc, the counters of
    include/tiles/get_tile.h and src/benchmark.cc. *)
From Verif Require Import Base ModelTile ModelPackFile ModelCodec ModelGeom ModelFeature ModelPack ModelPacker ModelBqTree ModelMvt ModelRender.
Open Scope N_scope.

(** perf_counter.h:12-31 *)
Inductive perf_task := RESULT_SIZE | GET_TILE_TOTAL | GET_TILE_FETCH | GET_TILE_RENDER | GET_TILE_COMPRESS
  | RENDER_TILE_FIND_SEASIDE | RENDER_TILE_ADD_SEASIDE | RENDER_TILE_QUERY_FEATURE | RENDER_TILE_ITER_FEATURE
  | RENDER_TILE_DESER_FEATURE_OKAY | RENDER_TILE_DESER_FEATURE_SKIP | RENDER_TILE_ADD_FEATURE | RENDER_TILE_FINISH.
Definition task_eqb (a b : perf_task) : bool :=
  match a, b with
  | RESULT_SIZE, RESULT_SIZE | GET_TILE_TOTAL, GET_TILE_TOTAL | GET_TILE_FETCH, GET_TILE_FETCH | GET_TILE_RENDER, GET_TILE_RENDER
  | GET_TILE_COMPRESS, GET_TILE_COMPRESS | RENDER_TILE_FIND_SEASIDE, RENDER_TILE_FIND_SEASIDE | RENDER_TILE_ADD_SEASIDE, RENDER_TILE_ADD_SEASIDE
  | RENDER_TILE_QUERY_FEATURE, RENDER_TILE_QUERY_FEATURE | RENDER_TILE_ITER_FEATURE, RENDER_TILE_ITER_FEATURE
  | RENDER_TILE_DESER_FEATURE_OKAY, RENDER_TILE_DESER_FEATURE_OKAY | RENDER_TILE_DESER_FEATURE_SKIP, RENDER_TILE_DESER_FEATURE_SKIP
  | RENDER_TILE_ADD_FEATURE, RENDER_TILE_ADD_FEATURE | RENDER_TILE_FINISH, RENDER_TILE_FINISH => true
  | _, _ => false
  end.

(** perf_counter.h:34-68: [running] is None where the code has kInvalidTimePoint (simplification: the clock never reads that
    value), [finished] in the order of push_back *)
Record perf_counter := Perf { running : perf_task -> option N; finished : perf_task -> list N }.
Definition no_measurements : perf_counter := Perf (fun _ => None) (fun _ => []).
Definition set_running (pc : perf_counter) (k : perf_task) (o : option N) : perf_counter :=
  Perf (fun k' => if task_eqb k k' then o else running pc k') (finished pc).
Definition push (pc : perf_counter) (k : perf_task) (v : N) : perf_counter :=
  Perf (running pc) (fun k' => if task_eqb k k' then finished pc k ++ [v] else finished pc k').
Inductive perf_call := Start (k : perf_task) | Stop (k : perf_task) | Append (k : perf_task) (v : N).
(** :46-64, with what the clock reads in the call.  The duration is a count of nanoseconds converted to 64 bits without sign *)
Definition perf_step (pc : perf_counter) (e : perf_call * N) : perf_counter :=
  match fst e with
  | Append k v => push pc k v
  | Start k => set_running pc k (Some (snd e))
  | Stop k =>
      match running pc k with
      | None => pc
      | Some b => set_running (push pc k (Z.to_N ((Z.of_N (snd e) - Z.of_N b) mod 2 ^ 64))) k None
      end
  end.
Definition perf_run (pc : perf_counter) (es : list (perf_call * N)) : perf_counter := fold_left perf_step es pc.

(** ** The calls that get_tile makes, in order, if nothing is thrown *)
(** get_tile.h:53-80 *)
Definition sea_calls (ts : list feature) : list perf_call :=
  [Start RENDER_TILE_FIND_SEASIDE; Stop RENDER_TILE_FIND_SEASIDE] ++
  flat_map (fun _ => [Start RENDER_TILE_ADD_SEASIDE; Stop RENDER_TILE_ADD_SEASIDE]) ts.
(** :112-134, one pack: what deserialize_feature made of the strings *)
Definition string_calls (o : option feature) : list perf_call :=
  [Start RENDER_TILE_DESER_FEATURE_OKAY; Start RENDER_TILE_DESER_FEATURE_SKIP] ++
  match o with
  | None => [Stop RENDER_TILE_DESER_FEATURE_SKIP; Start RENDER_TILE_ITER_FEATURE]
  | Some _ => [Stop RENDER_TILE_DESER_FEATURE_OKAY; Start RENDER_TILE_ADD_FEATURE; Stop RENDER_TILE_ADD_FEATURE]
  end.
Definition pack_calls (os : list (option feature)) : list perf_call :=
  [Stop RENDER_TILE_QUERY_FEATURE; Stop RENDER_TILE_ITER_FEATURE] ++ flat_map string_calls os ++ [Start RENDER_TILE_ITER_FEATURE].
(** :111-136 *)
Definition feature_calls (packs : list (list (option feature))) : list perf_call :=
  Start RENDER_TILE_QUERY_FEATURE :: flat_map pack_calls packs.

(** :104-138 render_features with what is left out there (see ModelRender.render_features) *)
Definition read_pack (x : rctx) (t : tile) (box : fbox) (p : tile * bytes) : res (list (option feature)) :=
  do strs <- unpack_features_for (fst p) (snd p) t;
  map_res (deserialize_feature (x_dec x) (x_rd x) (Hints box (tz t))) strs.
Definition taken (os : list (option feature)) : list feature := flat_map (fun o => match o with Some f => [f] | None => [] end) os.

(** :140-177 get_tile(ctx, tile, foreach_pack, pc) *)
Definition render_tile_perf (x : rctx) (t : tile) (ps : list (tile * bytes)) : res (option bytes * list perf_call) :=
  do c <- make_builder x t;
  do sea <- seaside_features x t;
  do spec <- make_tile_spec t;
  do packs <- map_res (read_pack x t (draw_bounds spec)) ps;
  let fs := flat_map taken packs in
  let calls := Start GET_TILE_RENDER :: sea_calls sea ++ feature_calls packs in
  do skip <- (if x_ignore_seaside x then
                do b <- bq_contains (x_seaside x) t;
                Ok (b && match fs with [] => true | _ => false end)
              else Ok false);
  if skip then Ok (None, calls)
  else
    do buf <- build_tile c (sea ++ fs);
    let calls := calls ++ [Start RENDER_TILE_FINISH; Stop RENDER_TILE_FINISH; Stop GET_TILE_RENDER] in
    match buf with
    | [] => Ok (None, calls)
    | _ =>
        if x_compress x then
          do z <- x_deflate x buf;
          Ok (Some z, calls ++ [Start GET_TILE_COMPRESS; Stop GET_TILE_COMPRESS; Append RESULT_SIZE (blen z)])
        else Ok (Some buf, calls ++ [Append RESULT_SIZE (blen buf)])
    end.

(** :179-217; the destructor of [total] stops it *)
Definition get_tile_perf (tiles features : table) (s : pfile) (x : rctx) (t : tile) : res (option bytes * list perf_call) :=
  do _ <- verify (tz t <=? kMaxZoomLevel);
  if negb (x_ignore_prepared x) && (Z.of_N (tz t) <=? x_max_prepared x)%Z then
    do key <- tile_to_key t 0;
    let fetch := [Start GET_TILE_FETCH; Stop GET_TILE_FETCH] in
    match table_get tiles key with
    | Some b => Ok (Some b, Start GET_TILE_TOTAL :: fetch ++ [Stop GET_TILE_TOTAL])
    | None =>
        do sea <- bq_contains (x_seaside x) t;
        if sea then do r <- render_tile_perf x t []; Ok (fst r, Start GET_TILE_TOTAL :: fetch ++ snd r ++ [Stop GET_TILE_TOTAL])
        else Ok (None, Start GET_TILE_TOTAL :: fetch ++ [Stop GET_TILE_TOTAL])
    end
  else
    do ps <- foreach_pack features s t;
    do r <- render_tile_perf x t ps;
    Ok (fst r, Start GET_TILE_TOTAL :: snd r ++ [Stop GET_TILE_TOTAL]).

(** ** The benchmark *)
(** benchmark.cc:56-58, and :114-116 for a single tile *)
Definition bench_ctx (x : rctx) (compress single : bool) : rctx :=
  RCtx (x_max_prepared x) (x_seaside x) (x_names x) (x_dec x) compress true (x_ignore_seaside x)
    (single || x_agg_lines x) (single || x_agg_polys x) (single || x_drop_subpixel x)
    (x_deflate x) (x_cut x) (x_area x) (x_aggregate x) (x_rd x).
(** :78-84, 94-104, 119-122: the tiles of a zoom level or an area (order and choice by geo::make_tile_range, third party), or one
    tile, with one perf_counter; the report is printed if nothing was thrown.  The list that is shuffled in :65-70 is not used. *)
Definition bench_tiles (tiles features : table) (s : pfile) (x : rctx) (ts : list tile) : res (list (option bytes) * list perf_call) :=
  do rs <- map_res (get_tile_perf tiles features s x) ts;
  Ok (map fst rs, flat_map snd rs).

(** ** The report *)
(** a positive number rounded to 53 binary digits, to nearest, ties to even (IEEE 754 double) *)
Definition round53 (p : N) : N :=
  let e := N.size p - 53 in
  let q := p / 2 ^ e in
  let r := p mod 2 ^ e in
  let up := (2 ^ e <? 2 * r) || ((2 * r =? 2 ^ e) && N.odd q) in
  (if up then q + 1 else q) * 2 ^ e.
(** perf_counter.cc:27 m.size() * .95 as an index, the double .95 is 8556839292003942 / 2^53; up to 2^53 measurements (then the
    size is a double) *)
Definition q95_index (n : N) : N := round53 (n * 8556839292003942) / 2 ^ 53.
(** :13-29 the numbers of a line of the report, but for sum and mean (sums of doubles): how many measurements, and with [sorted] what std::sort
    (third party) makes of them, q95 and max.  The iterator and index are not checked *)
Definition report_line (sorted : list N) : res (N * option (N * N)) :=
  let n := N.of_nat (length sorted) in
  match sorted with
  | [] => Ok (0, None)
  | _ => match nth_error sorted (N.to_nat (q95_index n)) with
         | None => UB
         | Some q => Ok (n, Some (q, last sorted 0))
         end
  end.
