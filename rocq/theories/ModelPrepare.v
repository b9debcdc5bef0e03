(** Preparing tiles: src/db/prepare_tiles.cc. *)
From Verif Require Import Base ModelTile ModelPackFile ModelRender ModelTable.
Open Scope N_scope.

(** [n] numbers from [a] on *)
Definition nrange (a n : N) : list N := map (fun i => a + N.of_nat i) (seq 0 (N.to_nat n)).
(** the tiles of a half-open rectangle, row by row (geo::tile_iterator, third party) *)
Definition range_tiles (b : tbounds) (z : N) : list tile :=
  flat_map (fun y => map (fun x => Tile x y z) (nrange (minx b) (maxx b - minx b))) (nrange (miny b) (maxy b - miny b)).

(** geo::make_tile_range(minx, miny, maxx, maxy, z) (third party): the rectangle with
    these corners, inclusive.  Represented by the corner tiles. *)
Record corners := Corners { c_first : tile; c_last : tile }.
(** geo::tile_range_on_z (third party): from the first corner's bounds on [z] to the
    last corner's bounds on [z] *)
Definition tile_range_on_z (c : corners) (z : N) : list tile :=
  let a := bounds_on_z (c_first c) z in
  let b := bounds_on_z (c_last c) z in
  range_tiles (TBounds (minx a) (miny a) (maxx b) (maxy b)) z.

(** prepare_tiles.cc:38-105 prepare_manager, without the statistics: [pm_rest] are the
    tiles of curr_range_ from begin_ on *)
Record pman := PMan { pm_max : N; pm_z : N; pm_base : corners; pm_rest : list tile }.
(** prepare_tiles.cc:39-45 *)
Definition pm_make (base : corners) (max : N) : pman := PMan max 0 base (tile_range_on_z base 0).

(** prepare_tiles.cc:59-77 the loop of get_batch, [n] iterations left.  Reading begin_ of an
    empty range is UB. *)
Fixpoint batch_loop (n : nat) (m : pman) : res (list tile * pman) :=
  match n with
  | O => Ok ([], m)
  | S n' =>
      if pm_max m <? pm_z m then Ok ([], m)
      else match pm_rest m with
           | [] => UB
           | t :: rest =>
               let m' := match rest with
                         | [] => PMan (pm_max m) (pm_z m + 1) (pm_base m) (tile_range_on_z (pm_base m) (pm_z m + 1))
                         | _ => PMan (pm_max m) (pm_z m) (pm_base m) rest
                         end in
               do (b, m'') <- batch_loop n' m'; Ok (t :: b, m'')
           end
  end.
(** prepare_tiles.cc:51-79 get_batch, under the mutex: i runs from 0 below 512 in steps of
    batch_inc, a power of two *)
Definition get_batch (m : pman) : res (list tile * pman) :=
  let batch_size := N.shiftl 1 9 in
  let batch_inc := N.shiftl 1 (9 - pm_z m) in
  batch_loop (N.to_nat (batch_size / batch_inc)) m.

(** prepare_tiles.cc:107-134 make_prepare_manager: the bounding rectangle of the index
    tiles of the features table *)
Definition key_bounds (features : table) : N * N * N * N :=
  fold_left (fun '(x0, y0, x1, y1) e => let t := key_to_tile (fst e) in
               (N.min x0 (tx t), N.min y0 (ty t), N.max x1 (tx t), N.max y1 (ty t)))
    features (2 ^ 32 - 1, 2 ^ 32 - 1, 0, 0).
Definition make_prepare_manager (features : table) (max : N) : res pman :=
  let '(x0, y0, x1, y1) := key_bounds features in
  do _ <- verify (negb (x0 =? 2 ^ 32 - 1) && negb (y0 =? 2 ^ 32 - 1));
  Ok (pm_make (Corners (Tile x0 y0 kTileDefaultIndexZoomLvl) (Tile x1 y1 kTileDefaultIndexZoomLvl)) max).

(** prepare_tiles.cc:140-143: the context tiles are prepared with *)
Definition prepare_ctx (x : rctx) : rctx :=
  RCtx (x_max_prepared x) (x_seaside x) (x_names x) (x_dec x) (x_compress x) (x_ignore_prepared x) true true true
    (x_drop_subpixel x) (x_deflate x) (x_cut x) (x_area x) (x_aggregate x) (x_rd x).

(** prepare_tiles.cc:156-185: collecting a tile's packs and rendering it.  (The features
    table and the pack file do not change meanwhile.) *)
Definition prepare_tile (features : table) (s : pfile) (x : rctx) (t : tile) : res (option bytes) :=
  do ps <- foreach_pack features s t; render_tile (prepare_ctx x) t ps.

(** prepare_tiles.cc:187-201: storing a batch, one transaction *)
Fixpoint put_results (tiles : table) (rs : list (tile * option bytes)) : res table :=
  match rs with
  | [] => Ok tiles
  | (t, Some b) :: rs' => do k <- tile_to_key t 0; put_results (table_put tiles k b) rs'
  | (t, None) :: rs' => put_results tiles rs'
  end.
Definition store_batch (tiles : table) (rs : list (tile * option bytes)) : res table :=
  if forallb (fun r => match snd r with None => true | _ => false end) rs then Ok tiles else put_results tiles rs.

(** prepare_tiles.cc:149-204: a worker thread.  A failure in a thread ends the process
    (no step). *)
Inductive tpc : Type :=
| TTop                                    (** :150 about to call get_batch *)
| TBatch (b : list tile)                  (** :156 about to render the batch *)
| TStore (rs : list (tile * option bytes)) (** :187 about to store it *)
| TExit.
Record prep := Prep {
  p_man : pman; p_threads : list tpc; p_tiles : table;
  p_rendered : list tile }.                (** tiles rendered so far *)
Inductive prep_step (render : tile -> res (option bytes)) : prep -> prep -> Prop :=
| pt_batch m m' b t1 t2 tiles log : get_batch m = Ok (b, m') ->
    prep_step render (Prep m (t1 ++ TTop :: t2) tiles log)
      (Prep m' (t1 ++ match b with [] => TExit | _ => TBatch b end :: t2) tiles log)
| pt_render m t1 t2 tiles log b rs : map_res render b = Ok rs ->
    prep_step render (Prep m (t1 ++ TBatch b :: t2) tiles log) (Prep m (t1 ++ TStore (combine b rs) :: t2) tiles (log ++ b))
| pt_store m t1 t2 tiles tiles' log rs : store_batch tiles rs = Ok tiles' ->
    prep_step render (Prep m (t1 ++ TStore rs :: t2) tiles log) (Prep m (t1 ++ TTop :: t2) tiles' log).
(** prepare_tiles.cc:136-206 with [n] threads *)
Inductive prep_reach (render : tile -> res (option bytes)) (m : pman) (n : nat) (tiles : table) : prep -> Prop :=
| pr_init : prep_reach render m n tiles (Prep m (repeat TTop n) tiles [])
| pr_step s s' : prep_reach render m n tiles s -> prep_step render s s' -> prep_reach render m n tiles s'.
