(** A whole import run: src/import.cc, with include/tiles/db/clear_database.h,
    make_render_ctx (include/tiles/get_tile.h:41-52) and src/db/database_stats.cc.  Only runs that end
    without an exception are described (an exception ends the program, import.cc:118-127);
    what a run leaves behind that was interrupted is the subject of C34, C37 and C60. *)
From Coq Require Import Permutation String Ascii.
From Coq Require Import List.
From Verif Require Import Base ModelTile ModelPackFile ModelTable ModelCodec ModelGeom ModelFeature ModelPack ModelQuadTree ModelPacker ModelBqTree ModelMvt
  ModelRender ModelPrepare ModelInserter ModelDict ModelOsm ModelDrain ModelCoast SpecCoast ModelRepack ModelServer.
From Verif Require Import SpecInserter SpecPrepare.
Import ListNotations.
Open Scope N_scope.

(** Third party and library functions used on the way, and the number of threads
    (std::thread::hardware_concurrency()). *)
Record libs := Libs {
  (* load_coastlines: see ModelCoast *)
  l_ccut : list line -> line -> res (list line); l_cdiff : line -> list line -> list pnode; l_fix_rings : list poly -> list poly;
  (* profiles: see ModelOsm *)
  l_stod : bytes -> option bytes; l_dbl : Z -> bytes; l_oarea : geom -> Z;
  (* std::sort and dequeue_bulk: see ModelOsm, ModelDict, ModelInserter, ModelPacker, ModelRepack *)
  l_msort : list meta -> list meta; l_dsort : counts -> counts; l_take : list meta -> list meta * list meta; l_psort : counts -> counts;
  l_isort : list (N * nat) -> list (N * nat); l_qsort : list qfeature -> list qfeature;
  l_possort : (nat -> nat -> bool) -> list nat -> list nat; l_recsort : list pack_record -> list pack_record; l_tasksort : list task -> list task;
  (* simplification masks: see ModelFeature *)
  l_mk : line -> bytes; l_rd : mask_reader;
  (* rendering: see ModelRender *)
  l_deflate : bytes -> res bytes; l_cut : fbox -> geom -> res geom; l_area : geom -> Z; l_aggregate : list feature -> N -> res (list feature);
  l_threads : nat }.

(** ** The database *)
(** The files of a database when nobody uses them: the LMDB tables (tile_database.h:16-18; the keys of meta
    are strings) and the pack file. *)
Record store := Store { st_meta : list (bytes * bytes); st_features : table; st_tiles : table; st_pack : bytes }.
(** clear_database.h:7-25 and pack_file.h:85-94 clear_pack_file *)
Definition empty_store : store := Store [] [] [] [].
(** A database in use: import.cc:76-78 *)
Record session := Session { ss_meta : list (bytes * bytes); ss_features : table; ss_tiles : table; ss_file : pfile }.
Definition open_store (st : store) : session := Session (st_meta st) (st_features st) (st_tiles st) (pf_open (st_pack st)).
Definition close_session (ss : session) : store := Store (ss_meta ss) (ss_features ss) (ss_tiles ss) (pf_close (ss_file ss)).

(** lmdb::txn::get and put (third party) on the table meta *)
Fixpoint meta_get (m : list (bytes * bytes)) (k : bytes) : option bytes :=
  match m with
  | [] => None
  | (k', v) :: m' => if bytes_eqb k' k then Some v else meta_get m' k
  end.
Definition meta_put (m : list (bytes * bytes)) (k v : bytes) : list (bytes * bytes) :=
  (k, v) :: filter (fun e => negb (bytes_eqb (fst e) k)) m.

(** tile_database.h:20-23 *)
Definition kMaxPrepared : bytes := lit "max-prepared-zoomlevel".
Definition kSeasideTree : bytes := lit "fully-seaside-tree".
Definition kLayerNames : bytes := lit "layer-names".
Definition kMetaCoding : bytes := lit "feature-meta-coding".

(** std::stoi (library): white space, sign, digits; what follows is ignored *)
Definition is_space (c : N) : bool := (c =? 32) || ((9 <=? c) && (c <=? 13)).
Fixpoint skip_space (s : bytes) : bytes :=
  match s with
  | c :: s' => if is_space c then skip_space s' else s
  | [] => []
  end.
Definition stoi (s : bytes) : res Z :=
  let s := skip_space s in
  let '(neg, d) := match s with 45 :: r => (true, r) | 43 :: r => (false, r) | _ => (false, s) end in
  match d with
  | c :: _ =>
      if is_digit c then
        let v := digits_value 0 d in
        let v := if neg then (- v)%Z else v in
        do _ <- verify ((- 2 ^ 31 <=? v) && (v <? 2 ^ 31))%Z;
        Ok v
      else Throw
  | [] => Throw
  end.

(** get_tile.h:25-52 make_render_ctx: render_ctx with the default flags *)
Definition make_render_ctx (L : libs) (m : list (bytes * bytes)) : res rctx :=
  do max <- match meta_get m kMaxPrepared with Some s => stoi s | None => Ok (-1)%Z end;
  do sea <- match meta_get m kSeasideTree with Some s => bq_of_string s | None => Ok [kEmptyRoot] end;
  do names <- get_layer_names (meta_get m kLayerNames);
  do d <- load_dict (meta_get m kMetaCoding);
  Ok (RCtx max sea names (dict_decode d) true false false false false true
        (l_deflate L) (l_cut L) (l_area L) (l_aggregate L) (l_rd L)).

(** ** Loading *)
(** what is imported: the polygons of the shapefile, and every object that is passed to a feature handler
    with its geometry and the calls the profile makes for it *)
Notation osm_input := (osm_obj * geom * list call)%type.
Record job := Job { j_polys : list poly; j_objs : list osm_input }.

(** import.cc:31-36 *)
Definition has_any_task (tasks query : list bytes) : bool :=
  existsb (bytes_eqb (lit "all")) tasks || existsb (fun q => existsb (bytes_eqb q) tasks) query.

(** load_coastlines.cc:243-341: [calls] the calls of the inserter, [entry] the value stored in meta;
    process_coastline (with the final serialize_feature, :176-180) did not throw *)
Definition load_coastlines (L : libs) (polys : list poly) (calls : list icall) (entry : bytes) : Prop :=
  exists s, creach (coast_proc (l_ccut L) (l_cdiff L) (l_fix_rings L)) (coast_tasks polys) (l_threads L) s /\ c_main s = MExit /\
    no_exception (l_ccut L) (l_cdiff L) (l_fix_rings L) (coast_tasks polys) /\
    Forall2 (fun d c => exists v, ser (snd d) = Ok v /\ c = CValue (fst d) v) (c_inserted s) calls /\
    seaside_entry (c_sea s) = Ok entry.

(** feature_handler.cc:72-107 for one object after the other *)
Fixpoint handle_all (L : libs) (objs : list osm_input) (names : names_map) : res (list feature * names_map) :=
  match objs with
  | [] => Ok ([], names)
  | (o, g, cs) :: objs' =>
      do (f, names1) <- handle_feature (l_msort L) (l_stod L) (l_dbl L) (l_oarea L) o g cs names;
      do (fs, names2) <- handle_all L objs' names1;
      Ok (match f with Some f => f :: fs | None => fs end, names2)
  end.
(** load_osm.cc:78-150.  The objects are handled by several threads.  A handler uses the shared state three
    times: it passes the metadata to the shared_metadata_builder, looks up the layer name (once, under
    a mutex) and calls the inserter; [objs'] are the objects in the order of their look ups. *)
Definition load_osm (L : libs) (objs : list osm_input) (calls : list icall) (names dict : bytes) : Prop :=
  exists objs' fs m seen b, Permutation objs' objs /\ handle_all L objs' nm_init = Ok (fs, m) /\
    Permutation calls (map CFeature fs) /\
    smb_run (l_msort L) seen b /\ s_bufs b = [] /\ Permutation seen (flat_map f_meta fs) /\
    store_layer_names m = Ok names /\ store_dict (l_msort L) (l_dsort L) (l_take L) b = Ok dict.

(** import.cc:80-96; [n] threads use the inserter.  Files with positions that do not fit into 64 bits do not
    exist. *)
Definition load_phase (L : libs) (tasks : list bytes) (j : job) (a b : session) : Prop :=
  exists cc m1 oc m2 n s,
    (if has_any_task tasks [lit "coastlines"]
     then exists e, load_coastlines L (j_polys j) cc e /\ m1 = meta_put (ss_meta a) kSeasideTree e
     else cc = [] /\ m1 = ss_meta a) /\
    (if has_any_task tasks [lit "features"]
     then exists names dict, load_osm L (j_objs j) oc names dict /\ m2 = meta_put (meta_put m1 kLayerNames names) kMetaCoding dict
     else oc = [] /\ m2 = m1) /\
    ireach kTileDefaultIndexZoomLvl (2 ^ 30) (2 ^ 30 / 4 * 3) (l_isort L) (ss_features a) (ss_file a) n s /\
    destroyed s /\ Forall (fun t => ~ failed t) (i_threads s) /\ i_calls s = cc ++ oc /\
    blen (pf_mem (i_file s)) < 2 ^ 64 /\
    b = Session m2 (i_table s) (ss_tiles a) (i_file s).

(** ** Statistics *)
(** database_stats.cc:81-100, the fields of a feature *)
Fixpoint field_stats (fuel : nat) (bs : bytes) : res unit :=
  match fuel with
  | O => Fuel
  | S f =>
      do o <- next_field bs;
      match o with
      | None => Ok tt
      | Some (tag, wt, r) =>
          do r' <- (if (tag =? F_MASKS) || (tag =? F_GEOMETRY) then do (_, r') <- get_len wt r; Ok r' else skip_field wt r);
          field_stats f r'
      end
  end.
(** database_stats.cc:73-106, one record *)
Definition record_stats (s : pfile) (r : pack_record) : res unit :=
  do pack <- pf_get s r;
  do _ <- verify (feature_pack_valid pack);
  do (strs, _) <- unpack_features pack;
  do _ <- map_res (fun str => field_stats (S (length str)) str) strs;
  Ok tt.
(** database_stats.cc:24-150, without what is printed; throws or has no effect *)
Definition database_stats (ss : session) : res unit :=
  do _ <- map_res (fun e => do rs <- pack_records_deserialize (snd e); map_res (record_stats (ss_file ss)) rs) (ss_features ss);
  match meta_get (ss_meta ss) kMaxPrepared with
  | None => Ok tt
  | Some s =>
      do z <- stoi s;
      (* :125-126: a vector of max_prep + 1 elements; max_prep + 1 wraps *)
      let max := to_u32 z in
      do _ <- map_res (fun e => do _ <- verify (tz (key_to_tile (fst e)) <=? max);
                                verify (tz (key_to_tile (fst e)) <? (max + 1) mod 2 ^ 32)) (ss_tiles ss);
      Ok tt
  end.

(** ** Packing *)
(** what is stored in the model where the packing function throws; a run in which this happens does not end *)
Definition failed_pack : bytes := [0].
(** feature_pack.cc:57-71 *)
Definition packs_with (L : libs) (d : list meta) (t : tile) (ps : list bytes) : bytes :=
  match pack_features_quad (dict_encode (coder_make (l_psort L) d)) (dict_decode d) (l_mk L) (l_rd L) (l_qsort L) t ps with
  | Ok b => b
  | _ => failed_pack
  end.
(** feature_pack.cc:64-116; repack_features.h:32-33 *)
Definition pack_phase (L : libs) (a b : session) : Prop :=
  exists d tasks s T, load_dict (meta_get (ss_meta a) kMetaCoding) = Ok d /\ read_tasks [] (ss_features a) = Ok tasks /\
    rp_reach (l_possort L) (l_recsort L) (l_tasksort L) (packs_with L d) (2 ^ 30) 32 (ss_file a) tasks s /\ r_pc s = RpDone /\
    (forall u, In u (concat (r_out s)) -> pf_get (g_pf (r_mgr s)) (snd u) <> Ok failed_pack) /\
    packed_table (r_out s) = Ok T /\ b = Session (ss_meta a) T (ss_tiles a) (g_pf (r_mgr s)).

(** ** Preparing tiles *)
(** prepare_tiles.cc:136-213, called with 10 *)
Definition tiles_phase (L : libs) (a b : session) : Prop :=
  exists m x s, make_prepare_manager (ss_features a) 10 = Ok m /\ make_render_ctx L (ss_meta a) = Ok x /\
    prep_reach (prepare_tile (ss_features a) (ss_file a) x) m (l_threads L) (ss_tiles a) s /\ all_exited s /\
    b = Session (meta_put (ss_meta a) kMaxPrepared (lit "10")) (ss_features a) (p_tiles s) (ss_file a).

(** ** A run *)
(** import.cc:70: such a run clears the database first *)
Definition loads (tasks : list bytes) : bool := has_any_task tasks [lit "coastlines"; lit "features"].
(** import.cc:66-113 *)
Definition import_run (L : libs) (tasks : list bytes) (j : job) (st st' : store) : Prop :=
  exists s1 s2 s3,
    load_phase L tasks j (open_store (if loads tasks then empty_store else st)) s1 /\
    (has_any_task tasks [lit "stats"] = true -> database_stats s1 = Ok tt) /\
    (if has_any_task tasks [lit "pack"] then pack_phase L s1 s2 else s2 = s1) /\
    (if has_any_task tasks [lit "tiles"] then tiles_phase L s2 s3 else s3 = s2) /\
    st' = close_session s3 /\ blen (st_pack st') + 1 < 2 ^ 64.

(** server.cc:178-181, 204-206: the server's answer for a tile of the database *)
Definition serve_tile (L : libs) (st : store) (t : tile) : res (option bytes) :=
  do x <- make_render_ctx L (st_meta st);
  get_tile (st_tiles st) (st_features st) (pf_open (st_pack st)) x t.
