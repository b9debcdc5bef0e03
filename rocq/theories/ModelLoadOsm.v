(** From the OSM file to the objects that are handled: src/osm/load_osm.cc. *)
From Coq Require Import String Ascii.
From Coq Require Import List.
From Verif Require Import Base ModelTile ModelCodec ModelGeom ModelFeature ModelDict ModelOsm ModelNodeIdx ModelServer ModelImport ModelProfile.
Import ListNotations.
Open Scope N_scope.

(** ** The file *)
(** What osmium reads (third party): objects with id and tags; nodes with a location, ways with node references (id, location;
    the location is undefined unless the file has locations on ways), relations with members (type, id, role). *)
Inductive entity :=
| ENode (o : osm_obj) (l : npos)
| EWay (o : osm_obj) (refs : list (Z * npos))
| ERelation (o : osm_obj) (members : list (N * Z * bytes)).
(** a buffer is what one call of Reader::read gives *)
Notation buffer := (list entity).
(** an area made by osmium's MultipolygonManager: rings of locations *)
Inductive ring_item := ROuter (ls : list npos) | RInner (ls : list npos) | ROther.
Notation oarea := (osm_obj * list ring_item)%type.

(** library functions and third party code: std::sort of the query, latlng_to_fixed of a valid location
    (fixed/convert.h:10-18: floating point), osmium's assembler: areas of the relations and of the ways, which
    have locations *)
Record osm_libs := OsmLibs {
  ol_sort : list nquery -> list nquery;
  ol_merc : npos -> pt;
  ol_areas : list (osm_obj * list (N * Z * bytes)) -> list (osm_obj * list (Z * npos)) -> list oarea }.

(** osmium::Location::valid (third party) *)
Definition valid_loc (l : npos) : bool := ((-1800000000 <=? fst l) && (fst l <=? 1800000000) && (-900000000 <=? snd l) && (snd l <=? 900000000))%Z.
(** read_osm_geometry.cc:13-21, 28-31: the location of a node or node reference as a point *)
Definition to_loc (O : osm_libs) (l : npos) : loc := if valid_loc l then Some (ol_merc O l) else None.

(** ** Pass 1 *)
(** load_osm.cc:64-71 with hybrid_node_idx.h:57-62: the nodes of all buffers, in this order *)
Definition nodes_of (bufs : list buffer) : list (Z * npos) :=
  flat_map (fun e => match e with ENode o l => [(o_id o, node_pos l)] | _ => [] end) (concat bufs).
(** load_osm.cc:67-71: the relations the MultipolygonManager sees *)
Definition relations_of (bufs : list buffer) : list (osm_obj * list (N * Z * bytes)) :=
  flat_map (fun e => match e with ERelation o ms => [(o, ms)] | _ => [] end) (concat bufs).

(** ** Pass 2 *)
(** hybrid_node_idx.cc:298-306: the references of all ways of a buffer *)
Definition buffer_refs (b : buffer) : list (Z * npos) := flat_map (fun e => match e with EWay _ refs => refs | _ => [] end) b.
(** hybrid_node_idx.cc:313-316: the locations are written to the buffer *)
Fixpoint write_locations (b : buffer) (locs : list npos) : buffer :=
  match b with
  | [] => []
  | EWay o refs :: b' => EWay o (combine (map fst refs) (firstn (length refs) locs)) :: write_locations b' (skipn (length refs) locs)
  | e :: b' => e :: write_locations b' locs
  end.
(** load_osm.cc:129 *)
Definition locate (sub : Z -> Z -> res Z) (O : osm_libs) (idx : list (Z * N)) (dat : bytes) (b : buffer) : res buffer :=
  do locs <- update_with sub (ol_sort O) idx dat (buffer_refs b);
  Ok (write_locations b locs).
(** load_osm.cc:130 with feature_handler.cc:110-117: what the handlers of a buffer are given, and what the
    script calls (nothing is called for relations).  The geometry is read here for all objects, in the program only if it is needed. *)
Definition handled (O : osm_libs) (p : profile) (b : buffer) : list osm_input :=
  flat_map (fun e => match e with
    | ENode o l => [(o, read_node (to_loc O l), pr_node p o)]
    | EWay o refs => [(o, read_way (map (fun r => to_loc O (snd r)) refs), pr_way p o)]
    | ERelation _ _ => []
    end) b.
Definition ways_of (b : buffer) : list (osm_obj * list (Z * npos)) := flat_map (fun e => match e with EWay o refs => [(o, refs)] | _ => [] end) b.
(** load_osm.cc:133-138 with feature_handler.cc:118-121: an area *)
Definition to_item (O : osm_libs) (i : ring_item) : area_item :=
  match i with
  | ROuter ls => AOuter (map (to_loc O) ls)
  | RInner ls => AInner (map (to_loc O) ls)
  | ROther => AOther
  end.
Definition handled_area (O : osm_libs) (p : profile) (a : oarea) : res osm_input :=
  do g <- read_area (map (to_item O) (snd a));
  Ok (fst a, g, pr_area p (fst a)).
(** load_osm.cc:36-140: the objects that are handled, in some order (the pipeline's threads work on several
    buffers at a time; the areas of all buffers are given at once here).  [sub]: the subtraction of int32_t in update_locations. *)
Definition load_objects (sub : Z -> Z -> res Z) (O : osm_libs) (p : profile) (bufs : list buffer) : res (list osm_input) :=
  do (idx, dat) <- build_index (nodes_of bufs);
  do bufs' <- map_res (locate sub O idx dat) bufs;
  do areas <- map_res (handled_area O p) (ol_areas O (relations_of bufs) (ways_of (concat bufs')));
  Ok (flat_map (handled O p) bufs' ++ areas).
